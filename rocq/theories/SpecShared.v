(** Vocabulary of C77: programs whose indicator objects are registered with several frame sets. *)
From Verif Require Export SharedInd.
Open Scope Z_scope.

Section spec.
  Context {F : Type} `{Num F}.
  Implicit Types l : list (sop F).

  (** The indicators created by a program, in order. *)
  Fixpoint new_inds l : list (indicator F) :=
    match l with
    | [] => []
    | XNew i :: l' | XOp (OAddIndicator _ i) :: l' => i :: new_inds l'
    | _ :: l' => new_inds l'
    end.
  (** The registrations: (frame set, object); [n] objects exist before. *)
  Fixpoint registrations (n : nat) l : list (nat * nat) :=
    match l with
    | [] => []
    | XNew _ :: l' => registrations (S n) l'
    | XAdd f o :: l' => (f, o) :: registrations n l'
    | XOp (OAddIndicator f _) :: l' => (f, n) :: registrations (S n) l'
    | XOp _ :: l' => registrations n l'
    end.
  (** The same program with a new object, created with the same arguments, for each registration. *)
  Fixpoint unshared (made : list (indicator F)) l : list (op F) :=
    match l with
    | [] => []
    | XNew i :: l' => unshared (made ++ [i]) l'
    | XAdd f o :: l' => match made !! o with Some i => OAddIndicator f i :: unshared made l' | None => unshared made l' end
    | XOp (OAddIndicator f i) :: l' => OAddIndicator f i :: unshared (made ++ [i]) l'
    | XOp o :: l' => o :: unshared made l'
    end.
  (** Every RSI object is registered with frame sets of one unit_quantity only. *)
  Definition one_quantity (pr : programs F) l : Prop := forall o i p rp f f' fs fs',
    new_inds l !! o = Some i -> in_kind i = KRSI p rp -> In (f, o) (registrations 0 l) -> In (f', o) (registrations 0 l) ->
    w_fsets (run pr empty_world (unshared [] l)) !! f = Some fs -> w_fsets (run pr empty_world (unshared [] l)) !! f' = Some fs' -> fs_q fs = fs_q fs'.
End spec.
