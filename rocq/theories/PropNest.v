(** Properties C53, C54: frame sets of different sizes fed with the same ticks (estrade/graph/frame_set.py). *)
From Verif Require Import NestProofs FrameExamples.
Open Scope Z_scope.

(** C53: a coarse frame is the merge of the fine frames of its period that received ticks. *)
Theorem C53_nested : forall {F} `{Num F} u q mx u' q' mx' z (ts : list (tick F)) (fs fs' : fset F) i f e t,
  1 <= mx -> 1 <= mx' -> u <> TICK -> u' <> TICK -> 0 < q -> 0 < q' -> no_skip z -> comparable ts -> refines u q u' q' ->
  fs_run u q mx ts fs -> fs_run u' q' mx' ts fs' -> in_order z ts -> fs_heap fs' !! i = Some f -> fr_end f = Some e ->
  t ∈ ts -> ar_wall (fr_start f) <= tk_wall t < ar_wall e ->
  merges (parts ts (ar_wall (fr_start f)) (ar_wall e) (fs_heap fs)) f.
Proof. exact @nested. Qed.
Print Assumptions C53_nested.
(** The units that nest. *)
Theorem C53_units : forall u q u' q', finer u q u' q' -> refines u q u' q'.
Proof. exact refines_finer. Qed.
Print Assumptions C53_units.
(** Weeks do not nest in months. *)
Theorem C53_weeks_in_months_refuted : exists w, boundary MONTH 1 w /\ ~ boundary WEEK 1 w.
Proof.
  exists (0 * 86400000000). split; [apply (b_month 1 0 1970 1); [constructor|apply Z.divide_1_l]|]. intros Hb. inversion Hb as [| | | |q n Hn E| |]; subst.
  assert (n = 0) as -> by lia. discriminate.
Qed.
Print Assumptions C53_weeks_in_months_refuted.

Definition fine := fed MINUTE 1 9 ticks_ex.
Definition coarse := fed MINUTE 15 9 ticks_ex.
Definition shown (f : frame Q) := (tk_value (fr_first f), tk_value (fr_high f), tk_value (fr_low f), tk_value (fr_last f), fr_nb f).
Lemma opt_get {A B} (g : A -> B) o a v : o = Some a -> g <$> o = Some v -> g a = v.
Proof. intros -> E. now apply (inj Some). Qed.
(** Four frames of one minute make the first quarter of an hour. *)
Example C53_ex : fs_run MINUTE 1 9 ticks_ex fine /\ fs_run MINUTE 15 9 ticks_ex coarse /\ in_order tz_UTC ticks_ex /\ finer MINUTE 1 MINUTE 15 /\
  exists f, fs_heap coarse !! 0%nat = Some f /\ shown f = (10#1, 1003#100, 999#100, 999#100, 4%Z)%Q /\
    map shown (parts ticks_ex (ar_wall (fr_start f)) (ar_wall (fr_start f) + 15 * US_MIN) (fs_heap fine)) =
      [(10#1, 10#1, 10#1, 10#1, 1%Z); (1003#100, 1003#100, 1003#100, 1003#100, 1%Z); (1003#100, 1003#100, 1003#100, 1003#100, 1%Z); (999#100, 999#100, 999#100, 999#100, 1%Z)]%Q.
Proof.
  split; [apply fed_run; vm_compute; reflexivity|]. split; [apply fed_run; vm_compute; reflexivity|]. split; [exact ticks_ex_order|]. split; [apply (fi_multiple MINUTE 1 15)|].
  destruct (fs_heap coarse !! 0%nat) as [f|] eqn:E; [|vm_compute in E; discriminate]. exists f. split; [auto|].
  split; [apply (opt_get _ _ _ _ E); vm_compute; reflexivity|].
  apply (opt_get (fun f => map shown (parts ticks_ex (ar_wall (fr_start f)) (ar_wall (fr_start f) + 15 * US_MIN) (fs_heap fine))) _ _ _ E). vm_compute. reflexivity.
Qed.
Definition inside (f : frame Q) (e : arrow) : list (frame Q) :=
  List.filter (fun g => (ar_wall (fr_start f) <=? ar_wall (fr_start g)) && (ar_wall (fr_start g) <? ar_wall e)) (fs_heap coarse).
(** Finding: merging all the fine frames of a period is wrong when some of them were made to fill a gap. *)
Theorem C53_gap_frames_refuted : exists (ts : list (tick Q)) (fs fs' : fset Q) i f e, fs_run MINUTE 15 9 ts fs /\ fs_run HOUR 1 9 ts fs' /\ in_order tz_UTC ts /\
  fs_heap fs' !! i = Some f /\ fr_end f = Some e /\ received ts f = true /\
  ~ merges (List.filter (fun g => (ar_wall (fr_start f) <=? ar_wall (fr_start g)) && (ar_wall (fr_start g) <? ar_wall e)) (fs_heap fs)) f.
Proof.
  exists ticks_ex, coarse, (fed HOUR 1 9 ticks_ex), 1%nat.
  destruct (fs_heap (fed HOUR 1 9 ticks_ex) !! 1%nat) as [f|] eqn:E; [|vm_compute in E; discriminate]. destruct (fr_end f) as [e|] eqn:Ee.
  2:{ exfalso. assert (match fr_end f with Some _ => true | None => false end = true) as X by (apply (opt_get (fun f => match fr_end f with Some _ => true | None => false end) _ _ _ E); vm_compute; reflexivity). rewrite Ee in X. discriminate X. }
  exists f, e. split; [apply fed_run; vm_compute; reflexivity|]. split; [apply fed_run; vm_compute; reflexivity|]. split; [exact ticks_ex_order|]. split; [auto|]. split; [auto|].
  split; [apply (opt_get _ _ _ _ E); vm_compute; reflexivity|]. intros M. apply mg_nb in M.
  assert (fr_nb f = 1) as X by (apply (opt_get _ _ _ _ E); vm_compute; reflexivity). rewrite X in M. clear X. pose (g := fun f e => SpecTrade.total (map fr_nb (inside f e))).
  assert (match fr_end f with Some e => g f e | None => 0 end = 3) as X by (apply (opt_get (fun f => match fr_end f with Some e => g f e | None => 0 end) _ _ _ E); vm_compute; reflexivity).
  rewrite Ee in X. unfold g, inside in X. rewrite X in M. discriminate M.
Qed.
Print Assumptions C53_gap_frames_refuted.

(** C54: the content of every frame ever made depends on the ticks only: neither on max_frames_in_memory, nor on market flags,
    indicators and epics. Any zone, any order of the ticks. *)
Theorem C54_memory_only_retains : forall {F} `{Num F} u q mx mx' (ts : list (tick F)) (fs fs' : fset F),
  1 <= mx -> 1 <= mx' -> u <> TICK -> fs_run u q mx ts fs -> fs_run u q mx' ts fs' -> map content (fs_heap fs) = map content (fs_heap fs').
Proof. exact @memory_timed. Qed.
Print Assumptions C54_memory_only_retains.
Theorem C54_memory_only_retains_tick : forall {F} `{Num F} q mx mx' (ts : list (tick F)) (fs fs' : fset F),
  1 <= mx -> 1 <= mx' -> fs_run_epic TICK q mx ts fs -> fs_run_epic TICK q mx' ts fs' -> map content (fs_heap fs) = map content (fs_heap fs').
Proof. exact @memory_tick. Qed.
Print Assumptions C54_memory_only_retains_tick.
Example C54_ex : fs_run MINUTE 15 9 ticks_ex coarse /\ fs_run MINUTE 15 1 ticks_ex (fed MINUTE 15 1 ticks_ex) /\
  length (fs_frames coarse) = 4%nat /\ length (fs_frames (fed MINUTE 15 1 ticks_ex)) = 1%nat /\
  map view (fs_heap coarse) = map view (fs_heap (fed MINUTE 15 1 ticks_ex)).
Proof. split; [apply fed_run; vm_compute; reflexivity|]. split; [apply fed_run; vm_compute; reflexivity|]. split_and!; vm_compute; reflexivity. Qed.
Example C54_tick_ex : fs_run_epic TICK 2 9 ticks_ex (fed TICK 2 9 ticks_ex) /\ fs_run_epic TICK 2 1 ticks_ex (fed TICK 2 1 ticks_ex) /\
  map fr_nb (fs_heap (fed TICK 2 1 ticks_ex)) = [2; 2; 1].
Proof. split; [apply fed_run_epic; vm_compute; reflexivity|]. split; [apply fed_run_epic; vm_compute; reflexivity|]. vm_compute. reflexivity. Qed.
