(** Indicators in whole programs. *)
From Verif Require Export SpecIndicators SpecEpic SpecBlind.
Open Scope Z_scope.

Section spec.
  Context {F : Type} `{Num F}.
  (** Of the ticks [rs] received, with their market flags, a frame from [s] to [e] (on the clock) gets those of its period, in order; or, if there
      are none, the last tick before, once, with the flag of the first tick after. *)
  Definition in_period (s e : Z) (rs : list (tick F * bool)) : list (tick F * bool) := filter (fun x => s <= tk_wall (fst x) < e) rs.
  Definition frame_log (rs : list (tick F * bool)) (s e : Z) (b : list (tick F * bool)) : Prop :=
    (in_period s e rs <> [] -> b = in_period s e rs) /\
    (in_period s e rs = [] -> exists t mo t' mo', last (filter (fun x => tk_wall (fst x) < s) rs) = Some (t, mo) /\
      head (filter (fun x => e <= tk_wall (fst x)) rs) = Some (t', mo') /\ b = [(t, mo')]).

  (** Those of the ticks [ts] from [s] to [x] that an indicator listens to: all, or those in market hours. *)
  Global Instance market_hours_decision (e : epic F) w : Decision (market_hours e w).
  Proof. unfold market_hours. apply _. Defined.
  Definition listened (i : indicator F) (e : epic F) (s x : Z) (ts : list (tick F)) : list (tick F) :=
    filter (fun t => s <= tk_wall t < x /\ (in_mopen i = true -> market_hours e (tk_wall t))) ts.

  (** The program [l], started from nothing, makes a frame set, registers the indicator [i] with it, later attaches it, once, to an epic [e], which
      accepts the ticks [ts] afterwards; no frame set raises on a tick after the attachment (strategies and calls may); the reference of [i] is given to no other indicator;
      [fs0] is the frame set when made, [fs] at the end. *)
  Inductive listening (pr : programs F) (l : list (op F)) (i : indicator F) (e : epic F) (mx : Z) (ts : list (tick F)) (fs0 fs : fset F) : Prop :=
    | listens la lb l2 eid fid u q ref : let made := la ++ ONewFrameSet u q ref mx :: OAddIndicator fid i :: lb in
        let w1 := run pr empty_world made in let w := fst (step pr w1 (OAddFrameSet eid fid)) in
        l = made ++ OAddFrameSet eid fid :: l2 -> fid = length (w_fsets (run pr empty_world la)) -> fset_init u q ref mx = Ok fs0 ->
        Forall (not_attaching fid) (la ++ lb ++ l2) -> (forall j, OAddIndicator fid j ∈ lb ++ l2 -> only i j) ->
        w_epics w1 !! eid = Some e -> snd (step pr w1 (OAddFrameSet eid fid)) = Ok () -> charts_fine pr w l2 -> ts = accepted pr w l2 eid ->
        w_fsets (run pr empty_world l) !! fid = Some fs -> listening pr l i e mx ts fs0 fs.
End spec.
