(** What a frame set must hold after a history of ticks. *)
From Coq Require Export Sorted.
From Verif Require Export Frames SpecTimeframe.
Open Scope Z_scope.

Section spec.
  Context {F : Type} `{Num F}.

  Definition tk_wall (t : tick F) : Z := ar_wall (tk_dt t).

  (** Histories of a frame set created with [u, q, max_frames]: ticks that were processed without
      exception (any market flag, any epic state), indicators added at any time, attachment to epics. *)
  Inductive fs_run (u : unit_) (q mx : Z) : list (tick F) -> fset F -> Prop :=
    | run_init ref fs : fset_init u q ref mx = Ok fs -> fs_run u q mx [] fs
    | run_indicator ts fs i : fs_run u q mx ts fs -> fs_run u q mx ts (fst (add_indicator fs i))
    | run_epic ts fs e : fs_run u q mx ts fs -> fs_run u q mx ts (fs_set_epic fs e)
    | run_tick ts fs fuel tk mo last fs' : fs_run u q mx ts fs ->
        fs_on_new_tick fuel fs tk mo last = (fs', Ok ()) -> fs_run u q mx (ts ++ [tk]) fs'.

  (** Histories in which exceptions may occur anywhere. *)
  Inductive fs_reach (mx : Z) : fset F -> Prop :=
    | reach_init u q ref fs : fset_init u q ref mx = Ok fs -> fs_reach mx fs
    | reach_indicator fs i : fs_reach mx fs -> fs_reach mx (fst (add_indicator fs i))
    | reach_epic fs e : fs_reach mx fs -> fs_reach mx (fs_set_epic fs e)
    | reach_tick fs fuel tk mo last : fs_reach mx fs -> fs_reach mx (fst (fs_on_new_tick fuel fs tk mo last)).

  (** The same, for a frame set [u, q] fed with ticks of one time zone only. *)
  Inductive fs_reach_in (z : tzinfo) (u : unit_) (q mx : Z) : fset F -> Prop :=
    | rin_init ref fs : fset_init u q ref mx = Ok fs -> fs_reach_in z u q mx fs
    | rin_indicator fs i : fs_reach_in z u q mx fs -> fs_reach_in z u q mx (fst (add_indicator fs i))
    | rin_epic fs e : fs_reach_in z u q mx fs -> fs_reach_in z u q mx (fs_set_epic fs e)
    | rin_tick fs fuel tk mo last : fs_reach_in z u q mx fs -> ar_tz (tk_dt tk) = z ->
        fs_reach_in z u q mx (fst (fs_on_new_tick fuel fs tk mo last)).

  (** Histories of a frame set driven by an epic, which updates its last tick before it calls its
      frame sets: the epic's last datetime is the one of the tick itself. *)
  Inductive fs_run_epic (u : unit_) (q mx : Z) : list (tick F) -> fset F -> Prop :=
    | rep_init ref fs : fset_init u q ref mx = Ok fs -> fs_run_epic u q mx [] fs
    | rep_indicator ts fs i : fs_run_epic u q mx ts fs -> fs_run_epic u q mx ts (fst (add_indicator fs i))
    | rep_epic ts fs e : fs_run_epic u q mx ts fs -> fs_run_epic u q mx ts (fs_set_epic fs e)
    | rep_tick ts fs fuel tk mo fs' : fs_run_epic u q mx ts fs ->
        fs_on_new_tick fuel fs tk mo (Some (tk_dt tk)) = (fs', Ok ()) -> fs_run_epic u q mx (ts ++ [tk]) fs'.

  (** Ticks in one time zone and in wall-clock order (what an epic delivers). *)
  Definition in_order (z : tzinfo) (ts : list (tick F)) : Prop :=
    Forall (fun t => ar_tz (tk_dt t) = z) ts /\ StronglySorted (fun a b => tk_wall a <= tk_wall b) ts.

  (** The ticks of a period. *)
  Definition ticks_in (s e : Z) (ts : list (tick F)) : list (tick F) :=
    filter (fun t => s <= tk_wall t < e) ts.

  (** [t] is the earliest tick of [l] with the greatest / least value. *)
  Definition earliest_max (l : list (tick F)) (t : tick F) : Prop :=
    exists l1 l2, l = l1 ++ t :: l2 /\
      (forall x, x ∈ l1 -> fltb (tk_value x) (tk_value t) = true) /\
      (forall x, x ∈ l2 -> fltb (tk_value t) (tk_value x) = false).
  Definition earliest_min (l : list (tick F)) (t : tick F) : Prop :=
    exists l1 l2, l = l1 ++ t :: l2 /\
      (forall x, x ∈ l1 -> fltb (tk_value t) (tk_value x) = true) /\
      (forall x, x ∈ l2 -> fltb (tk_value x) (tk_value t) = false).

  (** [<] behaves as an order on the values of these ticks (no NaN). *)
  Definition comparable (l : list (tick F)) : Prop :=
    (forall x, x ∈ l -> fltb (tk_value x) (tk_value x) = false) /\
    (forall x y z, x ∈ l -> y ∈ l -> z ∈ l ->
       fltb (tk_value x) (tk_value y) = true -> fltb (tk_value y) (tk_value z) = true ->
       fltb (tk_value x) (tk_value z) = true) /\
    (forall x y z, x ∈ l -> y ∈ l -> z ∈ l ->
       fltb (tk_value x) (tk_value y) = false -> fltb (tk_value y) (tk_value z) = false ->
       fltb (tk_value x) (tk_value z) = false).

  (** A frame is the summary of a non-empty list of ticks. *)
  Definition summary (l : list (tick F)) (f : frame F) : Prop :=
    head l = Some (fr_first f) /\ last l = Some (fr_last f) /\
    earliest_max l (fr_high f) /\ earliest_min l (fr_low f) /\ fr_nb f = Z.of_nat (length l).
  (** A frame is flat at one tick. *)
  Definition flat (t : tick F) (f : frame F) : Prop :=
    fr_first f = t /\ fr_high f = t /\ fr_low f = t /\ fr_last f = t /\ fr_nb f = 1.

  (** A frame covering [s, e) holds the ticks received in this period, and when there is none it is
      flat at the last tick received before. *)
  Definition covers (ts : list (tick F)) (s e : Z) (f : frame F) : Prop :=
    (ticks_in s e ts <> [] -> summary (ticks_in s e ts) f) /\
    (ticks_in s e ts = [] -> exists t, last (filter (fun t => tk_wall t < s) ts) = Some t /\ flat t f).

  (** What can be reached from the frames in memory through [previous_frame] and [next_frame]. *)
  Inductive reachable (fs : fset F) : nat -> Prop :=
    | rc_mem i : i ∈ fs_frames fs -> reachable fs i
    | rc_prev i f p : reachable fs i -> fs_heap fs !! i = Some f -> fr_prev f = Some p -> reachable fs p
    | rc_next i f p : reachable fs i -> fs_heap fs !! i = Some f -> fr_next f = Some p -> reachable fs p.

  (** [bl] enumerates the boundaries of [u, q] after the instant [a] and up to the instant [b]. *)
  Definition elapsed (u : unit_) (q a b : Z) (bl : list Z) : Prop :=
    NoDup bl /\ forall x, x ∈ bl <-> boundary u q x /\ a < x <= b.
End spec.
