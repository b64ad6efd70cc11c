(** Vocabulary of the property of threads that run between any two statements. *)
From Verif Require Export Preempt SpecWorld.
Open Scope Z_scope.

Section spec.
  Context {F : Type} `{Num F}.

  (** The program leaves threads to the scheduler, and its decisions do not depend on statuses or on the progress of threads ([erase] forgets both). *)
  Definition not_run (c : cmd F) : Prop := match c with CRun _ _ => False | _ => True end.
  Inductive heedless : script F -> script F -> Prop :=
    | heedless_done : heedless SDone SDone
    | heedless_raise e : heedless (SRaise e) (SRaise e)
    | heedless_call c k k' : not_run c -> (forall w w' r, erase w = erase w' -> heedless (k w r) (k' w' r)) -> heedless (SCall c k) (SCall c k').
  Definition heedless_programs (pr : programs F) : Prop :=
    forall sid cb eid w w', erase w = erase w' -> heedless (pr sid cb eid w) (pr sid cb eid w').
  Definition heedless_op (o : op F) : Prop := match o with OCmd c => not_run c | _ => True end.
  (** The threads of [b] run one after the other. *)
  Definition threads_run (b : list (nat * nat)) : list (op F) := map (fun x => OCmd (CRun x.1 x.2)) b.
End spec.
