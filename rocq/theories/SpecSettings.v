(** Vocabulary of C73: programs that reassign the attributes of epics. *)
From Verif Require Export Settings SpecHistory SpecEpic.
Open Scope Z_scope.

Section spec.
  Context {F : Type} `{Num F}.
  (** Programs without assignments. *)
  Fixpoint gembed (s : script F) : gscript F :=
    match s with SDone => GDone | SRaise e => GRaise e | SCall c k => GCall (GCmd c) (fun w r => gembed (k w r)) end.
  Definition gembed_programs (pr : programs F) : gprograms F := fun sid cb eid w => gembed (pr sid cb eid w).

  (** Calls satisfy [P]; assignments are those of opening hours, trading days and holidays. *)
  Definition calendar (s : setting) : Prop := match s with SZone _ | SProvider _ => False | _ => True end.
  Definition gcall_ok (P : cmd F -> Prop) (c : gcall F) : Prop := match c with GCmd c => P c | GSet _ s => calendar s end.
  Fixpoint gscript_ok (P : cmd F -> Prop) (s : gscript F) : Prop :=
    match s with GDone | GRaise _ => True | GCall c k => gcall_ok P c /\ forall w r, gscript_ok P (k w r) end.
  Definition gprograms_ok (P : cmd F -> Prop) (pr : gprograms F) : Prop := forall sid cb eid w, gscript_ok P (pr sid cb eid w).
  Definition gop_ok (P : cmd F -> Prop) (o : gop F) : Prop := match o with GOp o => op_ok P o | GAssign _ s => calendar s end.

  (** Two epics that differ in opening hours, trading days, holidays and market state only. *)
  Definition alike (e e' : epic F) : Prop :=
    ep_ref e' = ep_ref e /\ ep_tz e' = ep_tz e /\ ep_prov e' = ep_prov e /\ ep_last e' = ep_last e /\ ep_fsets e' = ep_fsets e /\ ep_strats e' = ep_strats e.
  (** The same trades, ledgers and strategies; alike epics. *)
  Definition same_books (w v : world F) : Prop :=
    w_trades w = w_trades v /\ w_provs w = w_provs v /\ w_strats w = w_strats v /\ Forall2 alike (w_epics v) (w_epics w).
  (** What is kept of trades, providers and strategies. *)
  Definition books_remembered (w w' : world F) : Prop :=
    all_kept trade_kept (w_trades w) (w_trades w') /\ all_kept provider_kept (w_provs w) (w_provs w') /\ all_kept strategy_kept (w_strats w) (w_strats w').
End spec.
