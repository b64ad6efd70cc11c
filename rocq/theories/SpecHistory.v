(** Vocabulary of C72: what a later state keeps of an earlier one. *)
From Verif Require Export SpecReentrant.
Open Scope Z_scope.

Section history.
  Context {F : Type} `{Num F}.
  (** A close keeps its price, quantity, date and reference (its status is given by a thread). *)
  Definition close_kept (c c' : tclose F) : Prop :=
    tc_value c' = tc_value c /\ tc_qty c' = tc_qty c /\ tc_dt c' = tc_dt c /\ tc_ref c' = tc_ref c.
  (** A trade keeps everything it was opened with, and its closes, in their places. *)
  Definition trade_kept (t t' : trade F) : Prop :=
    tr_epic t' = tr_epic t /\ tr_strat t' = tr_strat t /\ tr_dir t' = tr_dir t /\ tr_oq t' = tr_oq t /\
    tr_ov t' = tr_ov t /\ tr_dt t' = tr_dt t /\ tr_ref t' = tr_ref t /\
    forall k c, tr_closes t !! k = Some c -> exists c', tr_closes t' !! k = Some c' /\ close_kept c c'.
  (** Ledgers are only appended to; requests stay, those answered stay answered. *)
  Definition provider_kept (p p' : provider) : Prop :=
    pv_kind p' = pv_kind p /\ pv_trades p `prefix_of` pv_trades p' /\
    forall k th, pv_threads p !! k = Some th -> exists th', pv_threads p' !! k = Some th' /\ th_job th' = th_job th /\ (th_done th = true -> th_done th' = true).
  Definition strategy_kept (s s' : strategy) : Prop :=
    st_ref s' = st_ref s /\ st_trades s `prefix_of` st_trades s'.
  Definition epic_kept (e e' : epic F) : Prop :=
    ep_ref e' = ep_ref e /\ ep_tz e' = ep_tz e /\ ep_open e' = ep_open e /\ ep_close e' = ep_close e /\ ep_days e' = ep_days e /\
    ep_holidays e' = ep_holidays e /\ ep_prov e' = ep_prov e /\ ep_fsets e `prefix_of` ep_fsets e' /\ ep_strats e `prefix_of` ep_strats e'.
  Definition fset_kept (f f' : fset F) : Prop :=
    fs_ref f' = fs_ref f /\ fs_unit f' = fs_unit f /\ fs_q f' = fs_q f /\ fs_max f' = fs_max f.
  Definition all_kept {A} (R : A -> A -> Prop) (l l' : list A) : Prop := forall i x, l !! i = Some x -> exists x', l' !! i = Some x' /\ R x x'.
  Definition remembered (w w' : world F) : Prop :=
    all_kept trade_kept (w_trades w) (w_trades w') /\ all_kept provider_kept (w_provs w) (w_provs w') /\
    all_kept strategy_kept (w_strats w) (w_strats w') /\ all_kept epic_kept (w_epics w) (w_epics w') /\ all_kept fset_kept (w_fsets w) (w_fsets w').
End history.
