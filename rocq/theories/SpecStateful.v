(** Vocabulary for programs with private data. *)
From Verif Require Export Stateful SpecReentrant.
Open Scope Z_scope.

Section spec.
  Context {F : Type} `{Num F} {St : Type}.
  (** All operations a piece of user code may make satisfy [P], whatever its data. *)
  Fixpoint pscript_ok (P : op F -> Prop) (p : pscript F St) : Prop :=
    match p with
    | PDone _ | PRaise _ _ => True
    | PCall _ o k => P o /\ forall s w r, pscript_ok P (k s w r)
    end.
  Definition pprograms_ok (P : op F -> Prop) (pr : pprograms F St) : Prop := forall sid cb eid s w, pscript_ok P (pr sid cb eid s w).
  (** Callbacks that only trade, pause and stop. *)
  Definition only_calls (P : cmd F -> Prop) (o : op F) : Prop := match o with OCmd c => P c | _ => False end.

  (** What the main program [p] does, in order: each operation, the state after it and its outcome. *)
  Notation steps := (list (op F * world F * res unit)).
  Fixpoint ptrace (d : nat) (pr : pprograms F St) (w : world F) (p : pscript F St) : steps :=
    match p with
    | PDone _ | PRaise _ _ => []
    | PCall s o k => let '((s', w'), r) := pop (ptick d pr) (s, w) o in (o, w', r) :: ptrace d pr w' (k s' w' r)
    end.
  (** The same for a program given by its list of operations. *)
  Fixpoint trace (f : world F -> op F -> world F * res unit) (w : world F) (l : list (op F)) : steps :=
    match l with
    | [] => []
    | o :: l' => let '(w', r) := f w o in (o, w', r) :: trace f w' l'
    end.
  Fixpoint final (w : world F) (t : steps) : world F := match t with [] => w | (_, w', _) :: t' => final w' t' end.
  Definition op_of (x : op F * world F * res unit) : op F := x.1.1.

  (** No tick of the trace raised an exception. *)
  Definition ticks_pass (t : steps) : Prop := forall eid tk w r, (OTick eid tk, w, r) ∈ t -> r = Ok ().
  (** The ticks sent to an epic, in its time zone. *)
  Definition sent (e : epic F) (eid : nat) (t : steps) : list (tick F) :=
    flat_map (fun x => match op_of x with OTick a tk => if decide (a = eid) then [tick_to (ep_tz e) tk] else [] | _ => [] end) t.
End spec.
