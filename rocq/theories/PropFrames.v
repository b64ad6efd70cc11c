(** Properties C32-C37 (estrade/graph/frame_set.py). *)
From Verif Require Import FrameExamples.
Open Scope Z_scope.

(** C32: the current frame holds the last tick. *)
Theorem C32_current_holds_last_tick : forall {F} `{Num F} u q mx z (ts : list (tick F)) (fs : fset F) t,
  1 <= mx -> u <> TICK -> 0 < q -> resolves_forward z ->
  fs_run u q mx ts fs -> in_order z ts -> last ts = Some t ->
  exists cur e, fs_current fs = Some cur /\ fr_end cur = Some e /\ fr_last cur = t /\
    ar_wall (fr_start cur) <= ar_wall (tk_dt t) < ar_wall e.
Proof. exact @current_holds_last. Qed.
Print Assumptions C32_current_holds_last_tick.

Example C32_ex : fs_run MINUTE 15 3 ticks_ex (fed MINUTE 15 3 ticks_ex) /\ in_order tz_UTC ticks_ex /\ resolves_forward tz_UTC /\
  option_map view (fs_current (fed MINUTE 15 3 ticks_ex)) = Some (30, Some 45, (101 # 10, 101 # 10, 101 # 10, 101 # 10)%Q, 1).
Proof. split; [exact ex_run|]. split; [exact ticks_ex_order|]. split; [intros w; simpl; lia|vm_compute; reflexivity]. Qed.

(** C33: consecutive frames touch, each frame covers one calendar period. *)
Theorem C33_contiguous : forall {F} `{Num F} u q mx z (ts : list (tick F)) (fs : fset F) i f g,
  1 <= mx -> u <> TICK -> 0 < q -> no_skip z -> fs_run u q mx ts fs -> in_order z ts ->
  fs_heap fs !! i = Some f -> fs_heap fs !! (S i) = Some g -> fr_end f = Some (fr_start g).
Proof. exact @frames_contiguous. Qed.
Print Assumptions C33_contiguous.

Theorem C33_calendar_periods : forall {F} `{Num F} u q mx z (ts : list (tick F)) (fs : fset F) i f,
  1 <= mx -> u <> TICK -> 0 < q -> no_skip z -> fs_run u q mx ts fs -> in_order z ts -> fs_heap fs !! i = Some f ->
  exists e, fr_end f = Some e /\ boundary u q (ar_wall (fr_start f)) /\ next_boundary u q (ar_wall (fr_start f)) (ar_wall e) /\
    ar_tz (fr_start f) = z /\ ar_tz e = z.
Proof. exact @frames_boundaries. Qed.
Print Assumptions C33_calendar_periods.

(** A zone that skips a boundary makes frames overlap. *)
Theorem C33_overlap_refuted : exists z ts (fs : fset Q) f g e, resolves_forward z /\ fs_run DAY 1 10 ts fs /\ in_order z ts /\
  fs_heap fs !! 0%nat = Some f /\ fs_heap fs !! 1%nat = Some g /\ fr_end f = Some e /\ ar_wall (fr_start g) < ar_wall e.
Proof. exact overlap_refuted. Qed.
Print Assumptions C33_overlap_refuted.

Example C33_ex : fs_run MINUTE 15 3 ticks_ex (fed MINUTE 15 3 ticks_ex) /\ in_order tz_UTC ticks_ex /\ no_skip tz_UTC /\
  length (fs_heap (fed MINUTE 15 3 ticks_ex)) = 4%nat.
Proof. split; [exact ex_run|]. split; [exact ticks_ex_order|]. split; [intros w; reflexivity|vm_compute; reflexivity]. Qed.

(** C34 (and the flat frames of C33): what each frame contains. *)
Theorem C34_frame_content : forall {F} `{Num F} u q mx z (ts : list (tick F)) (fs : fset F) i f,
  1 <= mx -> u <> TICK -> 0 < q -> no_skip z -> comparable ts -> fs_run u q mx ts fs -> in_order z ts ->
  fs_heap fs !! i = Some f ->
  exists e, fr_end f = Some e /\ covers ts (ar_wall (fr_start f)) (ar_wall e) f.
Proof. exact @frame_covers. Qed.
Print Assumptions C34_frame_content.

(** On exact numbers the values are always comparable. *)
Theorem C34_comparable_Q : forall l : list (tick Q), comparable l.
Proof. exact comparable_Q. Qed.
Print Assumptions C34_comparable_Q.

Theorem C34_each_tick_in_one_frame : forall {F} `{Num F} u q mx z (ts : list (tick F)) (fs : fset F) t,
  1 <= mx -> u <> TICK -> 0 < q -> no_skip z -> fs_run u q mx ts fs -> in_order z ts -> t ∈ ts ->
  exists i, (exists f e, fs_heap fs !! i = Some f /\ fr_end f = Some e /\ ar_wall (fr_start f) <= tk_wall t < ar_wall e) /\
    forall j, (exists f e, fs_heap fs !! j = Some f /\ fr_end f = Some e /\ ar_wall (fr_start f) <= tk_wall t < ar_wall e) -> j = i.
Proof. exact @tick_in_one_frame. Qed.
Print Assumptions C34_each_tick_in_one_frame.

Example C34_ex : map view (fs_heap (fed MINUTE 15 3 ticks_ex)) =
  [(45, Some 0, (10 # 1, 1003 # 100, 999 # 100, 999 # 100)%Q, 4); (0, Some 15, (999 # 100, 999 # 100, 999 # 100, 999 # 100)%Q, 1);
   (15, Some 30, (999 # 100, 999 # 100, 999 # 100, 999 # 100)%Q, 1); (30, Some 45, (101 # 10, 101 # 10, 101 # 10, 101 # 10)%Q, 1)].
Proof. exact ex_view. Qed.

(** Finding: frames filling a gap count one tick, so nb_ticks do not add up to the number of ticks. *)
Theorem C34_gap_counts_refuted : exists ts (fs : fset Q), fs_run MINUTE 15 9 ts fs /\ in_order tz_UTC ts /\ length ts = 5%nat /\
  fold_right Z.add 0 (map fr_nb (fs_heap fs)) = 7.
Proof. exists ticks_ex, (fed MINUTE 15 9 ticks_ex). split; [apply fed_run; vm_compute; reflexivity|]. split; [exact ticks_ex_order|]. split; vm_compute; reflexivity. Qed.
Print Assumptions C34_gap_counts_refuted.

(** C35: memory and links, in every history, exceptions included. *)
Theorem C35_most_recent_in_memory : forall {F} `{Num F} mx (fs : fset F), 1 <= mx -> fs_reach mx fs ->
  let n := length (fs_heap fs) in let m := Nat.min n (Z.to_nat mx) in
  fs_frames fs = seq (n - m) m /\ Z.of_nat (length (fs_frames fs)) <= mx.
Proof. exact @mem_recent. Qed.
Print Assumptions C35_most_recent_in_memory.

Theorem C35_links : forall {F} `{Num F} mx (fs : fset F) i id f, 1 <= mx -> fs_reach mx fs ->
  fs_frames fs !! i = Some id -> fs_heap fs !! id = Some f ->
  fr_prev f = (match i with O => None | S j => fs_frames fs !! j end) /\ fr_next f = fs_frames fs !! (S i).
Proof. exact @mem_links. Qed.
Print Assumptions C35_links.

Theorem C35_memory_valid : forall {F} `{Num F} mx (fs : fset F) id, 1 <= mx -> fs_reach mx fs -> id ∈ fs_frames fs ->
  exists f, fs_heap fs !! id = Some f.
Proof. exact @mem_valid. Qed.
Print Assumptions C35_memory_valid.

Theorem C35_only_current_open : forall {F} `{Num F} mx (fs : fset F) i id f, 1 <= mx -> fs_reach mx fs ->
  fs_frames fs !! i = Some id -> fs_heap fs !! id = Some f ->
  (frame_closed f = false <-> fs_current_id fs = Some id).
Proof. exact @mem_closed. Qed.
Print Assumptions C35_only_current_open.

Theorem C35_evicted_unreachable : forall {F} `{Num F} mx (fs : fset F) id, 1 <= mx -> fs_reach mx fs ->
  reachable fs id -> id ∈ fs_frames fs.
Proof. exact @mem_reachable. Qed.
Print Assumptions C35_evicted_unreachable.

Example C35_ex : fs_reach 3 (fed MINUTE 15 3 ticks_ex) /\ fs_frames (fed MINUTE 15 3 ticks_ex) = [1; 2; 3]%nat /\
  map (fun f => (fr_prev f, fr_next f)) (fs_heap (fed MINUTE 15 3 ticks_ex)) =
    [(None, None); (None, Some 2%nat); (Some 1%nat, Some 3%nat); (Some 2%nat, None)].
Proof. split; [eapply run_reach, ex_run|]. split; [exact ex_frames|vm_compute; reflexivity]. Qed.

(** A frame dropped from memory reports that it is not closed. *)
Theorem C35_closed_after_eviction_refuted : exists mx (fs : fset Q) i f, 1 <= mx /\ fs_reach mx fs /\ fs_heap fs !! i = Some f /\
  fs_current_id fs <> Some i /\ frame_closed f = false.
Proof. exact closed_refuted. Qed.
Print Assumptions C35_closed_after_eviction_refuted.

(** A memory of less than one frame is accepted and raises IndexError on the first tick. *)
Theorem C35_no_memory_refuted : exists (fs : fset Q) tk, fset_init MINUTE 15 "fs" 0 = Ok fs /\
  snd (fs_on_new_tick (gap_fuel fs tk) fs tk true None) = Err IndexError.
Proof. exact max_zero_refuted. Qed.
Print Assumptions C35_no_memory_refuted.

(** C36: frames of [q] ticks: ceil(n / q) frames, frame [i] summarises the ticks [i q .. i q + q - 1]. *)
Theorem C36_tick_frames : forall {F} `{Num F} q mx (ts : list (tick F)) (fs : fset F),
  1 <= mx -> 1 <= q -> comparable ts -> fs_run_epic TICK q mx ts fs ->
  (Z.of_nat (length ts) <= Z.of_nat (length (fs_heap fs)) * q) /\
  (fs_heap fs <> [] -> (Z.of_nat (length (fs_heap fs)) - 1) * q < Z.of_nat (length ts)) /\
  forall i f, fs_heap fs !! i = Some f -> summary (take (Z.to_nat q) (drop (i * Z.to_nat q) ts)) f.
Proof. exact @tick_frames. Qed.
Print Assumptions C36_tick_frames.

(** No new frame at a change of day. *)
Theorem C36_day_split_refuted : exists ts (fs : fset Q) f, fs_run_epic TICK 2 10 ts fs /\ in_order tz_UTC ts /\
  fs_heap fs !! 0%nat = Some f /\ arrow_date (tk_dt (fr_first f)) < arrow_date (tk_dt (fr_last f)).
Proof. exact day_split_refuted. Qed.
Print Assumptions C36_day_split_refuted.

Example C36_ex : fs_run_epic TICK 2 10 ticks_days (fed TICK 2 10 ticks_days) /\
  map (fun f => (tk_value (fr_first f), tk_value (fr_last f), fr_nb f)) (fs_heap (fed TICK 2 10 ticks_days)) =
    [((10 # 1)%Q, (1001 # 100)%Q, 2); ((501 # 50)%Q, (501 # 50)%Q, 1)].
Proof. split; [exact days_run|vm_compute; reflexivity]. Qed.

(** C37: the gap-filling loop ends within the number of seconds elapsed, whatever happened before. *)
Theorem C37_terminates : forall {F} `{Num F} z u q mx (fs : fset F) tk mo lst fuel,
  1 <= mx -> 0 < q -> resolves_forward z -> fs_reach_in z u q mx fs -> ar_tz (tk_dt tk) = z ->
  (gap_fuel fs tk <= fuel)%positive ->
  fs_on_new_tick fuel fs tk mo lst = fs_on_new_tick (gap_fuel fs tk) fs tk mo lst /\
  (forall e, snd (fs_on_new_tick fuel fs tk mo lst) = Err e -> ~ (e = Diverges \/ e = Dangling)).
Proof. exact @tick_terminates. Qed.
Print Assumptions C37_terminates.

(** It creates exactly one frame per elapsed period. *)
Theorem C37_one_frame_per_period : forall {F} `{Num F} z u q mx (ts : list (tick F)) (fs : fset F) fuel tk mo lst fs' t0 bl,
  1 <= mx -> u <> TICK -> 0 < q -> no_skip z -> fs_run u q mx ts fs -> in_order z (ts ++ [tk]) -> last ts = Some t0 ->
  fs_on_new_tick fuel fs tk mo lst = (fs', Ok ()) -> elapsed u q (tk_wall t0) (tk_wall tk) bl ->
  length (fs_heap fs') = (length (fs_heap fs) + length bl)%nat.
Proof. exact @frames_per_period'. Qed.
Print Assumptions C37_one_frame_per_period.

(** Without indicators and inside Python's date range no exception is raised. *)
Theorem C37_no_exception : forall {F} `{Num F} z u q mx (ts : list (tick F)) (fs : fset F) tk mo lst,
  1 <= mx -> u <> TICK -> 0 < q -> no_skip z -> fs_run u q mx ts fs -> in_order z (ts ++ [tk]) -> fs_inds fs = [] ->
  (forall t, t ∈ ts ++ [tk] -> WALL_MIN <= tk_wall t) -> (u = YEAR -> q <= w_year (tk_wall tk)) ->
  (forall e, next_boundary u q (tk_wall tk) e -> e <= WALL_MAX) ->
  exists fs', fs_on_new_tick (gap_fuel fs tk) fs tk mo lst = (fs', Ok ()).
Proof. exact @tick_no_exception'. Qed.
Print Assumptions C37_no_exception.

(** An accepted negative quantity: the second tick is never processed, whatever the time given; the loop
    walks back to the first date of Python and raises OverflowError. *)
Theorem C37_negative_quantity_refuted : exists t1 t2 (fs : fset Q), check_unit MINUTE (-15) = Ok () /\ fs_run MINUTE (-15) 10 [t1] fs /\
  in_order tz_UTC [t1; t2] /\
  (forall fuel mo lst, snd (fs_on_new_tick fuel fs t2 mo lst) <> Ok ()) /\
  (forall mo, exists fuel0, forall fuel lst, (fuel0 <= fuel)%positive -> snd (fs_on_new_tick fuel fs t2 mo lst) = Err OverflowError).
Proof. exact negative_refuted. Qed.
Print Assumptions C37_negative_quantity_refuted.

Example C37_ex : exists ts tk fs', ticks_ex = ts ++ [tk] /\ fs_run MINUTE 15 3 ts (fed MINUTE 15 3 ts) /\
  fs_on_new_tick (gap_fuel (fed MINUTE 15 3 ts) tk) (fed MINUTE 15 3 ts) tk true None = (fs', Ok ()) /\
  length (fs_heap (fed MINUTE 15 3 ts)) = 1%nat /\ length (fs_heap fs') = 4%nat.
Proof.
  exists (take 4 ticks_ex), (tk_at tz_UTC (w_leap + 48 * US_MIN) 1010).
  destruct (fs_on_new_tick (gap_fuel (fed MINUTE 15 3 (take 4 ticks_ex)) (tk_at tz_UTC (w_leap + 48 * US_MIN) 1010))
    (fed MINUTE 15 3 (take 4 ticks_ex)) (tk_at tz_UTC (w_leap + 48 * US_MIN) 1010) true None) as [fs' r] eqn:E.
  exists fs'. split; [reflexivity|]. split; [apply fed_run; vm_compute; reflexivity|].
  assert (match fs_on_new_tick (gap_fuel (fed MINUTE 15 3 (take 4 ticks_ex)) (tk_at tz_UTC (w_leap + 48 * US_MIN) 1010))
    (fed MINUTE 15 3 (take 4 ticks_ex)) (tk_at tz_UTC (w_leap + 48 * US_MIN) 1010) true None with
    (fs', Ok _) => Nat.eqb (length (fs_heap fs')) 4 | _ => false end = true) as Hc by (vm_compute; reflexivity).
  rewrite E in Hc. destruct r as [[]|]; [|discriminate]. apply Nat.eqb_eq in Hc. split; [reflexivity|]. split; [vm_compute; reflexivity|exact Hc].
Qed.
