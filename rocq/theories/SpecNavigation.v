(** Which values of an indicator can be reached from one another. *)
From Verif Require Export Navigation SpecIndicators.
Open Scope Z_scope.

Section spec.
  Context {F : Type} `{Num F}.
  Implicit Types fs : fset F.

  (** The number of frames that left the memory. *)
  Definition oldest fs : nat := (length (fs_heap fs) - length (fs_frames fs))%nat.

  (** [l] is what the loop [v = v.previous] sees, starting from frame [k], until it is None. *)
  Inductive back fs (ref : string) : nat -> list (nat * ivalue F) -> Prop :=
    | back_end k f : fs_heap fs !! k = Some f -> previous (fs_heap fs) f ref = Ok None -> back fs ref k []
    | back_step k f j v l : fs_heap fs !! k = Some f -> previous (fs_heap fs) f ref = Ok (Some (j, v)) ->
        back fs ref j l -> back fs ref k ((j, v) :: l).
  (** The same for the loop [v = v.next]. *)
  Inductive forth fs (ref : string) : nat -> list (nat * ivalue F) -> Prop :=
    | forth_end k f : fs_heap fs !! k = Some f -> iv_next (fs_heap fs) f ref = Ok None -> forth fs ref k []
    | forth_step k f j v l : fs_heap fs !! k = Some f -> iv_next (fs_heap fs) f ref = Ok (Some (j, v)) ->
        forth fs ref j l -> forth fs ref k ((j, v) :: l).

  (** The values on the frames [a .. a+n-1], in this order. *)
  Definition values_on fs (ref : string) (a n : nat) : list (nat * ivalue F) :=
    omap (fun j => option_map (pair j) (value_at fs ref j)) (seq a n).
  (** Consecutive frames have a value until the first that has none. *)
  Fixpoint run_of fs (ref : string) (a n : nat) : list (nat * ivalue F) :=
    match n with
    | O => []
    | S n' => match value_at fs ref a with Some v => (a, v) :: run_of fs ref (S a) n' | None => [] end
    end.
End spec.
