(** Properties C30, C33, C34, C37, C53 in time zones whose clocks are put forward (estrade/graph/frame_set.py, estrade/mixins/timeframe.py).
    The times that do not exist must be whole frames of the timeframe ([aligned]). *)
From Verif Require Import SkipExamples.
Open Scope Z_scope.

(** C30: the end of a frame is the next boundary that exists, and the start of the next frame. *)
Theorem C30_end_is_next_start_skip : forall u q s e, u <> TICK -> 0 < q -> unit_ok u q -> aligned (ar_tz s) u q ->
  boundary u q (ar_wall s) -> kept (ar_tz s) (ar_wall s) -> get_frame_end u q s = Ok e ->
  next_kept (ar_tz s) u q (ar_wall s) (ar_wall e) /\ ar_tz e = ar_tz s /\ forall s', get_frame_start u q e = Ok s' -> s' = e.
Proof. exact end_next_skip. Qed.
Print Assumptions C30_end_is_next_start_skip.
Theorem C30_partition_skip : forall u q dt s b e, u <> TICK -> 0 < q -> unit_ok u q -> aligned (ar_tz dt) u q -> kept (ar_tz dt) (ar_wall dt) ->
  get_frame_start u q dt = Ok s -> boundary u q (ar_wall b) -> kept (ar_tz dt) (ar_wall b) -> ar_tz b = ar_tz dt -> get_frame_end u q b = Ok e ->
  (ar_wall s = ar_wall b <-> ar_wall b <= ar_wall dt < ar_wall e).
Proof. exact partition_skip. Qed.
Print Assumptions C30_partition_skip.
(** Which zones are aligned: those without clock changes; those changing by whole hours, for seconds, minutes and single hours; those never
    skipping a midnight, for days and longer. *)
Theorem C30_no_change_aligned : forall z u q, no_skip z -> aligned z u q.
Proof. exact no_skip_aligned. Qed.
Print Assumptions C30_no_change_aligned.
Theorem C30_whole_hours_aligned : forall z sk u q, changes z sk -> (forall a n, sk a n -> (3600000000 | a) /\ (3600000000 | n)) ->
  u = SECOND \/ u = MINUTE \/ u = HOUR /\ q = 1 -> aligned z u q.
Proof. exact whole_hours_aligned. Qed.
Print Assumptions C30_whole_hours_aligned.
Theorem C30_no_midnight_aligned : forall z sk u q, changes z sk -> (forall a n d, sk a n -> ~ (a <= d * 86400000000 < a + n)) ->
  u = DAY \/ u = WEEK \/ u = MONTH \/ u = YEAR -> aligned z u q.
Proof. exact no_midnight_aligned. Qed.
Print Assumptions C30_no_midnight_aligned.
(** The last quarter before the change of 2020-03-29 ends at 03:00. *)
Example C30_ex_skip : changes tz_spring spring_only /\ aligned tz_spring MINUTE 15 /\ aligned tz_spring DAY 7 /\
  exists s e, get_frame_start MINUTE 15 (arrow_of_wall tz_spring (spring - US_MIN)) = Ok s /\ get_frame_end MINUTE 15 s = Ok e /\ ar_tz s = tz_spring /\
    kept tz_spring (ar_wall s) /\ ar_wall s = spring - 15 * US_MIN /\ ar_wall e = spring + 60 * US_MIN.
Proof.
  split; [exact spring_changes|]. split; [apply spring_minutes|]. split; [apply spring_days|].
  eexists _, _. split; [reflexivity|]. split; [reflexivity|]. split; [reflexivity|]. split; [vm_compute; reflexivity|]. split; vm_compute; reflexivity.
Qed.

(** C33: consecutive frames touch; each runs from an existing boundary to the next one. *)
Theorem C33_contiguous_skip : forall {F} `{Num F} u q mx z (ts : list (tick F)) (fs : fset F) i f g,
  1 <= mx -> u <> TICK -> 0 < q -> aligned z u q -> fs_run u q mx ts fs -> in_order_kept z ts ->
  fs_heap fs !! i = Some f -> fs_heap fs !! (S i) = Some g -> fr_end f = Some (fr_start g).
Proof. exact @skip_contiguous. Qed.
Print Assumptions C33_contiguous_skip.
Theorem C33_calendar_periods_skip : forall {F} `{Num F} u q mx z (ts : list (tick F)) (fs : fset F) i f,
  1 <= mx -> u <> TICK -> 0 < q -> aligned z u q -> fs_run u q mx ts fs -> in_order_kept z ts -> fs_heap fs !! i = Some f ->
  exists e, fr_end f = Some e /\ boundary u q (ar_wall (fr_start f)) /\ kept z (ar_wall (fr_start f)) /\
    next_kept z u q (ar_wall (fr_start f)) (ar_wall e) /\ ar_tz (fr_start f) = z /\ ar_tz e = z.
Proof. exact @skip_periods. Qed.
Print Assumptions C33_calendar_periods_skip.
Example C33_ex_skip : fs_run MINUTE 15 9 ticks_spring (fed MINUTE 15 9 ticks_spring) /\ in_order_kept tz_spring ticks_spring /\ aligned tz_spring MINUTE 15 /\
  map sview (fs_heap (fed MINUTE 15 9 ticks_spring)) =
  [(-45, Some (-30), (10 # 1, 10 # 1)%Q, 1); (-30, Some (-15), (10 # 1, 10 # 1)%Q, 1); (-15, Some 60, (501 # 50, 501 # 50)%Q, 1);
   (60, Some 75, (501 # 50, 501 # 50)%Q, 1); (75, Some 90, (501 # 50, 501 # 50)%Q, 1); (90, Some 105, (1001 # 100, 1001 # 100)%Q, 1)].
Proof. split; [exact spring_run|]. split; [exact spring_order|]. split; [apply spring_minutes|exact spring_view]. Qed.
(** Finding: frames of two hours overlap at the same change (02:00 does not exist and 03:00 is not a boundary). *)
Theorem C33_two_hours_refuted : exists (fs : fset Q) f g e, fs_run HOUR 2 9 ticks_spring fs /\ fs_heap fs !! 0%nat = Some f /\ fs_heap fs !! 1%nat = Some g /\
  fr_end f = Some e /\ ar_wall (fr_start g) < ar_wall e.
Proof. exact two_hours_overlap. Qed.
Print Assumptions C33_two_hours_refuted.

(** C34: what each frame contains; each tick is in exactly one frame. *)
Theorem C34_frame_content_skip : forall {F} `{Num F} u q mx z (ts : list (tick F)) (fs : fset F) i f,
  1 <= mx -> u <> TICK -> 0 < q -> aligned z u q -> comparable ts -> fs_run u q mx ts fs -> in_order_kept z ts -> fs_heap fs !! i = Some f ->
  exists e, fr_end f = Some e /\ covers ts (ar_wall (fr_start f)) (ar_wall e) f.
Proof. exact @skip_covers. Qed.
Print Assumptions C34_frame_content_skip.
Theorem C34_each_tick_in_one_frame_skip : forall {F} `{Num F} u q mx z (ts : list (tick F)) (fs : fset F) t,
  1 <= mx -> u <> TICK -> 0 < q -> aligned z u q -> fs_run u q mx ts fs -> in_order_kept z ts -> t ∈ ts ->
  exists i, (exists f e, fs_heap fs !! i = Some f /\ fr_end f = Some e /\ ar_wall (fr_start f) <= tk_wall t < ar_wall e) /\
    forall j, (exists f e, fs_heap fs !! j = Some f /\ fr_end f = Some e /\ ar_wall (fr_start f) <= tk_wall t < ar_wall e) -> j = i.
Proof. exact @skip_one_frame. Qed.
Print Assumptions C34_each_tick_in_one_frame_skip.

(** C37: one frame per elapsed period, and no exception. *)
Theorem C37_one_frame_per_period_skip : forall {F} `{Num F} z u q mx (ts : list (tick F)) (fs : fset F) fuel tk mo lst fs' t0 bl,
  1 <= mx -> u <> TICK -> 0 < q -> aligned z u q -> fs_run u q mx ts fs -> in_order_kept z (ts ++ [tk]) -> last ts = Some t0 ->
  fs_on_new_tick fuel fs tk mo lst = (fs', Ok ()) -> elapsed_kept z u q (tk_wall t0) (tk_wall tk) bl ->
  length (fs_heap fs') = (length (fs_heap fs) + length bl)%nat.
Proof. exact @skip_per_period. Qed.
Print Assumptions C37_one_frame_per_period_skip.
Theorem C37_no_exception_skip : forall {F} `{Num F} z u q mx (ts : list (tick F)) (fs : fset F) tk mo lst,
  1 <= mx -> u <> TICK -> 0 < q -> aligned z u q -> resolves_forward z -> fs_run u q mx ts fs -> in_order_kept z (ts ++ [tk]) -> fs_inds fs = [] ->
  (forall t, t ∈ ts ++ [tk] -> WALL_MIN <= tk_wall t) -> (u = YEAR -> q <= w_year (tk_wall tk)) ->
  (forall e, next_boundary u q (tk_wall tk) e -> e <= WALL_MAX) ->
  exists fs', fs_on_new_tick (gap_fuel fs tk) fs tk mo lst = (fs', Ok ()).
Proof. exact @skip_no_exception. Qed.
Print Assumptions C37_no_exception_skip.

Example C37_ex_skip : exists ts tk t0 fs, ticks_spring = ts ++ [tk] /\ last ts = Some t0 /\ fs_run MINUTE 15 9 ts (fed MINUTE 15 9 ts) /\ fs_inds (fed MINUTE 15 9 ts) = [] /\
  fs_on_new_tick (gap_fuel (fed MINUTE 15 9 ts) tk) (fed MINUTE 15 9 ts) tk true None = (fs, Ok ()) /\
  elapsed_kept tz_spring MINUTE 15 (tk_wall t0) (tk_wall tk) quarters /\ length (fs_heap (fed MINUTE 15 9 ts)) = 3%nat /\ length (fs_heap fs) = 6%nat.
Proof.
  exists (take 2 ticks_spring), (tk_at tz_spring (spring + 100 * US_MIN) 1001), (tk_at tz_spring (spring - 10 * US_MIN) 1002). eexists.
  split; [reflexivity|]. split; [reflexivity|]. split; [apply fed_run; vm_compute; reflexivity|]. split; [vm_compute; reflexivity|].
  split; [apply surjective_pairing_ok; vm_compute; reflexivity|]. split; [exact quarters_elapsed|]. split; vm_compute; reflexivity.
Qed.

(** C53: a coarse frame is the merge of the fine frames of its period that received ticks. *)
Theorem C53_nested_skip : forall {F} `{Num F} u q mx u' q' mx' z (ts : list (tick F)) (fs fs' : fset F) i f e t,
  1 <= mx -> 1 <= mx' -> u <> TICK -> u' <> TICK -> 0 < q -> 0 < q' -> aligned z u q -> aligned z u' q' -> comparable ts -> refines u q u' q' ->
  fs_run u q mx ts fs -> fs_run u' q' mx' ts fs' -> in_order_kept z ts -> fs_heap fs' !! i = Some f -> fr_end f = Some e ->
  t ∈ ts -> ar_wall (fr_start f) <= tk_wall t < ar_wall e ->
  merges (parts ts (ar_wall (fr_start f)) (ar_wall e) (fs_heap fs)) f.
Proof. exact @skip_nested. Qed.
Print Assumptions C53_nested_skip.
(** The hour 01:00-03:00 is the merge of the quarters 01:15 and 01:45-03:00. *)
Example C53_ex_skip : fs_run HOUR 1 9 ticks_spring (fed HOUR 1 9 ticks_spring) /\ aligned tz_spring HOUR 1 /\ refines MINUTE 15 HOUR 1 /\
  map sview (fs_heap (fed HOUR 1 9 ticks_spring)) = [(-60, Some 60, (10 # 1, 501 # 50)%Q, 2); (60, Some 120, (1001 # 100, 1001 # 100)%Q, 1)].
Proof. split; [exact spring_run_hours|]. split; [exact spring_hours|]. split; [apply refines_finer; constructor; auto|exact spring_view_hours]. Qed.
