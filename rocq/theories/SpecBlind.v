(** Vocabulary of C69 and C70: programs that make corresponding calls, charts (frame sets and indicators) set aside. *)
From Verif Require Export SpecWorld.
Open Scope Z_scope.

Section charts.
  Context {F : Type} `{Num F}.
  Implicit Types (w v : world F).

  (** The state without its frame sets, and without the strategies of the epics. *)
  Definition no_charts w : world F :=
    {| w_trades := w_trades w; w_provs := w_provs w; w_strats := w_strats w; w_epics := (fun e => ep_set_fsets e []) <$> w_epics w; w_fsets := []; w_log := w_log w |}.
  Definition no_strats w : world F := upd_epics w ((fun e => ep_set_strats e []) <$> w_epics w).
  Definition silent : programs F := fun _ _ _ _ => SDone.
  (** The frame sets and indicators of the epic raise nothing on this tick: without strategies, the outcome is the same as without frame sets. *)
  Definition charts_ok w (eid : nat) (tk : tick F) : Prop :=
    snd (step silent (no_strats w) (OTick eid tk)) = snd (step silent (no_charts (no_strats w)) (OTick eid tk)).
  Fixpoint charts_fine (pr : programs F) w (l : list (op F)) : Prop :=
    match l with
    | [] => True
    | o :: l' => match o with OTick e tk => charts_ok w e tk | _ => True end /\ charts_fine pr (fst (step pr w o)) l'
    end.
  (** The operations on frame sets and indicators. *)
  Definition is_chart (o : op F) : bool := match o with ONewFrameSet _ _ _ _ | OAddFrameSet _ _ | OAddIndicator _ _ => true | _ => false end.
  Definition without_charts (l : list (op F)) : list (op F) := List.filter (fun o => negb (is_chart o)) l.

  (** Two callback bodies, each run from its own state, make calls that correspond through [C] as long as the states and outcomes correspond. *)
  Inductive alongside (R : world F -> world F -> Prop) (C : world F -> cmd F -> cmd F -> Prop) : world F -> world F -> script F -> script F -> Prop :=
    | al_done w w' : alongside R C w w' SDone SDone
    | al_raise w w' e : alongside R C w w' (SRaise e) (SRaise e)
    | al_call w w' c c' k k' v v' r r' : C w c c' -> run_cmd w c = (v, r) -> run_cmd w' c' = (v', r') ->
        (R v v' -> r = r' -> alongside R C v v' (k v r) (k' v' r')) -> alongside R C w w' (SCall c k) (SCall c' k').
  Definition at_callback w (sid : nat) (cb : callback) (eid : nat) : world F := upd_log w (w_log w ++ [{| ev_strat := sid; ev_cb := cb; ev_epic := eid |}]).

  (** Strategies whose calls do not depend on frame sets and indicators. *)
  Definition chart_blind (pr : programs F) : Prop := forall sid cb eid w w', no_charts w = no_charts w' ->
    alongside (fun v v' => no_charts v = no_charts v') (fun _ c c' => c' = c) (at_callback w sid cb eid) (at_callback w' sid cb eid) (pr sid cb eid w) (pr sid cb eid w').
End charts.
