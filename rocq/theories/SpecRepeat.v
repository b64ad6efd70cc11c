(** Vocabulary of C76: quotes delivered more than once. *)
From Verif Require Export SpecEpic SpecFrames SpecBlind.
Open Scope Z_scope.

Section spec.
  Context {F : Type} `{Num F}.
  Implicit Types (f : frame F) (fs : fset F).

  (** Comparing numbers: [x < x] never holds and [<] is transitive (exact numbers; floats, NaN included). *)
  Definition less_than : Prop :=
    (forall x : F, fltb x x = false) /\ (forall x y z : F, fltb x y = true -> fltb y z = true -> fltb x z = true).
  (** Two frames, two frame sets that differ by the numbers of ticks of frames only. *)
  Record recounted f f' : Prop := {
    rc_first : fr_first f' = fr_first f; rc_high : fr_high f' = fr_high f; rc_low : fr_low f' = fr_low f; rc_last : fr_last f' = fr_last f;
    rc_start : fr_start f' = fr_start f; rc_end : fr_end f' = fr_end f; rc_before : fr_prev f' = fr_prev f; rc_after : fr_next f' = fr_next f;
    rc_inds : fr_inds f' = fr_inds f }.
  Record fs_recounted fs fs' : Prop := {
    rs_ref : fs_ref fs' = fs_ref fs; rs_unit : fs_unit fs' = fs_unit fs; rs_q : fs_q fs' = fs_q fs; rs_max : fs_max fs' = fs_max fs;
    rs_epic : fs_epic fs' = fs_epic fs; rs_heap : Forall2 recounted (fs_heap fs) (fs_heap fs'); rs_frames : fs_frames fs' = fs_frames fs; rs_inds : fs_inds fs' = fs_inds fs }.

  (** Indicators of the library. *)
  Definition of_library (i : indicator F) : Prop := match in_kind i with KCustom _ _ => False | _ => True end.
  (** Programs that use frame sets of calendar units with indicators of the library, in time zones of forward-resolving gaps. *)
  Definition calendar_op (o : op F) : Prop :=
    match o with
    | ONewFrameSet u q _ m => u <> TICK /\ 0 < q /\ 1 <= m
    | OAddIndicator _ i => of_library i
    | ONewEpic _ (Some z) _ _ _ _ _ => resolves_forward z
    | _ => True
    end.
  (** [echo l l']: [l] is [l'] with some ticks sent again, any number of times, before anything else happens. *)
  Inductive echo : list (op F) -> list (op F) -> Prop :=
    | echo_nil : echo [] []
    | echo_op o l l' : echo l l' -> echo (o :: l) (o :: l')
    | echo_again eid tk l l' : echo (OTick eid tk :: l) (OTick eid tk :: l') -> echo (OTick eid tk :: OTick eid tk :: l) (OTick eid tk :: l').
End spec.
Arguments less_than F {_}.
