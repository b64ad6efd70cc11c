(** Vocabulary of the properties of trades handled by hand. *)
From Verif Require Export Manual SpecWorld.
Open Scope Z_scope.

Section spec.
  Context {F : Type} `{Num F}.
  Implicit Types (w : world F).

  (** In no provider's ledger. *)
  Definition waiting w (tid : nat) : Prop := forall pid, ~ registered w pid tid.
  (** A trade may be handed to the provider of its own epic, once, before anything was closed. *)
  Definition givable w (pid tid : nat) : Prop :=
    waiting w tid /\ exists t e, w_trades w !! tid = Some t /\ tr_closes t = [] /\ w_epics w !! tr_epic t = Some e /\ ep_prov e = pid.
  Definition careful w (c : mcmd F) : Prop :=
    match c with
    | MApi c => sane_call c
    | MBuild _ _ q _ _ _ _ _ _ | MBuildTick _ _ _ q _ _ | MBuildEpic _ _ q _ _ => 0 < q
    | MGive p t _ => givable w p t
    | MHand _ _ _ => True
    end.
  Fixpoint careful_script w (s : mscript F) : Prop :=
    match s with
    | MDone | MRaise _ => True
    | MCall c k => careful w c /\ let '(w', r) := run_mcmd w c in careful_script w' (k w' r)
    end.

  (** States of programs that are careful so far, between operations and in the middle of a tick. *)
  Inductive mreach : world F -> Prop :=
    | mreach_empty : mreach empty_world
    | mreach_call w c : mreach w -> careful w c -> mreach (fst (run_mcmd w c))
    | mreach_setup pr w o : mreach w -> setup o -> mreach (fst (step pr w o))
    | mreach_accept w eid e tk : mreach w -> w_epics w !! eid = Some e ->
        arrow_ltb (tk_dt (tick_to (ep_tz e) tk)) (tk_dt (ep_last e)) = false ->
        mreach (upd_epics w (<[eid := ep_set_last e (tick_to (ep_tz e) tk) (is_market_open e (tick_to (ep_tz e) tk))]> (w_epics w)))
    | mreach_fset w eid e x : mreach w -> w_epics w !! eid = Some e -> x ∈ ep_fsets e ->
        mreach (fst (update_frame_set (ep_last e) w x))
    | mreach_value w eid e : mreach w -> w_epics w !! eid = Some e -> mreach (update_open_trades w (ep_prov e) (ep_last e))
    | mreach_active w sid s d : mreach w -> w_strats w !! sid = Some s ->
        mreach (upd_strats w (<[sid := fst (is_active s d)]> (w_strats w)))
    | mreach_log w l : mreach w -> mreach (upd_log w l).

  (** Strategies whose callbacks only hand over trades that may be handed over. *)
  Definition careful_programs (pr : mprograms F) : Prop :=
    forall sid cb eid w, mreach w -> careful_script (upd_log w (w_log w ++ [{| ev_strat := sid; ev_cb := cb; ev_epic := eid |}])) (pr sid cb eid w).
  Definition careful_op w (o : mop F) : Prop :=
    match o with MDo c => careful w c | MOp (OCmd c) => sane_call c | MOp _ => True end.
  Fixpoint careful_ops (pr : mprograms F) w (l : list (mop F)) : Prop :=
    match l with [] => True | o :: l => careful_op w o /\ careful_ops pr (fst (mstep pr w o)) l end.

  (** The books of a state: every ledger holds each trade once, a provider only holds trades of its epics, a strategy holds
      exactly its registered trades; a trade is never closed beyond its quantity; the open trades a backtest provider holds
      for one strategy (or for none) all have the same direction. *)
  Record books w : Prop := {
    b_providers : forall pid p, w_provs w !! pid = Some p -> NoDup (pv_trades p) /\
      forall i, i ∈ pv_trades p -> exists t e, w_trades w !! i = Some t /\ w_epics w !! tr_epic t = Some e /\ ep_prov e = pid;
    b_strategies : forall sid s, w_strats w !! sid = Some s -> NoDup (st_trades s) /\
      forall i, i ∈ st_trades s <-> (exists t, w_trades w !! i = Some t /\ tr_strat t = Some sid) /\ exists pid, registered w pid i;
    b_quantities : forall i t, w_trades w !! i = Some t -> 0 <= closed_quantities t <= tr_oq t;
    b_direction : forall pid s i j, is_backtest w pid -> registered w pid i -> registered w pid j ->
      ~ (open_dir w s BUY i /\ open_dir w s SELL j) }.

  (** The call is not made on trade [tid]. *)
  Definition about_others (tid : nat) (c : mcmd F) : Prop :=
    match c with
    | MApi (CClose t _ _) | MApi (CEpicClose _ t _ _) | MApi (CTradeUpdate t _) | MApi (CTradeUpdateEpic t)
    | MApi (CTradeClose t _ _ _ _) | MApi (CTradeCloseEpic t _ _) | MGive _ t _ => t <> tid
    | _ => True
    end.
  Fixpoint others_script (tid : nat) (s : mscript F) : Prop :=
    match s with MDone | MRaise _ => True | MCall c k => about_others tid c /\ forall w r, others_script tid (k w r) end.
  Definition others_programs (tid : nat) (pr : mprograms F) : Prop := forall sid cb eid w, others_script tid (pr sid cb eid w).
  Definition others_op (tid : nat) (o : mop F) : Prop :=
    match o with MDo c => about_others tid c | MOp (OCmd c) => about_others tid (MApi c) | MOp _ => True end.

  (** World.v's programs as programs of this file. *)
  Fixpoint by_hand (s : script F) : mscript F :=
    match s with SDone => MDone | SRaise e => MRaise e | SCall c k => MCall (MApi c) (fun w r => by_hand (k w r)) end.
  Definition by_hands (pr : programs F) : mprograms F := fun sid cb eid w => by_hand (pr sid cb eid w).
End spec.
