(** Charts of whole programs. *)
From Verif Require Export SpecEpic SpecSkip SpecNest SpecBlind.
Open Scope Z_scope.

(** Every instant has a time on the clock of the zone that exists. *)
Definition instants_exist (z : tzinfo) : Prop := forall u, kept z (tz_wall z u).

Section spec.
  Context {F : Type} `{Num F}.
  (** The program [l], started from nothing, attaches the frame set [fid] (unit [u], [q] units, [mx] frames in memory) once, to the epic [eid] of
      zone [z], which accepts the ticks [ts] afterwards; no frame set raises on a tick after the attachment (strategies and calls may); [fs] is the frame set at the end. *)
  Inductive charted (pr : programs F) (l : list (op F)) (fid eid : nat) (z : tzinfo) (u : unit_) (q mx : Z) (ts : list (tick F)) (fs : fset F) : Prop :=
    | chart l1 l2 e fs0 : let w1 := run pr empty_world l1 in let w := fst (step pr w1 (OAddFrameSet eid fid)) in
        l = l1 ++ OAddFrameSet eid fid :: l2 -> Forall (not_attaching fid) (l1 ++ l2) ->
        w_epics w1 !! eid = Some e -> ep_tz e = z ->
        w_fsets w1 !! fid = Some fs0 -> fs_unit fs0 = u -> fs_q fs0 = q -> fs_max fs0 = mx ->
        snd (step pr w1 (OAddFrameSet eid fid)) = Ok () -> charts_fine pr w l2 -> ts = accepted pr w l2 eid ->
        w_fsets (run pr empty_world l) !! fid = Some fs -> charted pr l fid eid z u q mx ts fs.
End spec.
