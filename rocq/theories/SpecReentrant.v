(** Vocabulary for re-entrant strategies. *)
From Verif Require Export Reentrant SpecWorld SpecEpic.
Open Scope Z_scope.

Section spec.
  Context {F : Type} `{Num F}.

  (** The callbacks of World.v, seen as callbacks allowed to do more. *)
  Fixpoint embed (s : script F) : rscript F :=
    match s with SDone => RDone | SRaise e => RRaise e | SCall c k => RCall (OCmd c) (fun w r => embed (k w r)) end.
  Definition embed_programs (pr : programs F) : rprograms F := fun sid cb eid w => embed (pr sid cb eid w).

  (** All calls a callback may make satisfy [P]. *)
  Fixpoint rscript_ok (P : cmd F -> Prop) (s : rscript F) : Prop :=
    match s with
    | RDone | RRaise _ => True
    | RCall o k => op_ok P o /\ forall w r, rscript_ok P (k w r)
    end.
  Definition rprograms_ok (P : cmd F -> Prop) (pr : rprograms F) : Prop := forall sid cb eid w, rscript_ok P (pr sid cb eid w).

  (** No epic disappears, changes zone or goes back to an earlier last tick on its own clock. *)
  Definition forward (w w' : world F) : Prop :=
    forall eid e, w_epics w !! eid = Some e -> has_ticked e ->
      exists e', w_epics w' !! eid = Some e' /\ has_ticked e' /\ ep_tz e' = ep_tz e /\ ar_wall (tk_dt (ep_last e)) <= ar_wall (tk_dt (ep_last e')).
End spec.
