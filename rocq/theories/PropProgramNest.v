(** The charts of whole programs, started from nothing, in zones with clock changes (C33, C34, C37, C53, C54): estrade/epic.py:134-259,
    estrade/graph/frame_set.py:1-330. [charted] (SpecProgram.v) describes the program. *)
From Verif Require Import ProgramNestExamples.
Open Scope Z_scope.

(** C33: the frames are the calendar periods that exist, without holes. *)
Theorem C33_any_program_skip : forall {F} `{Num F} pr l fid eid z u q mx ts (fs : fset F),
  charted pr l fid eid z u q mx ts fs -> 1 <= mx -> u <> TICK -> 0 < q -> instants_exist z -> aligned z u q ->
  (forall i f, fs_heap fs !! i = Some f -> exists x, fr_end f = Some x /\ boundary u q (ar_wall (fr_start f)) /\ SpecSkip.kept z (ar_wall (fr_start f)) /\
     next_kept z u q (ar_wall (fr_start f)) (ar_wall x) /\ ar_tz (fr_start f) = z /\ ar_tz x = z) /\
  forall i f g, fs_heap fs !! i = Some f -> fs_heap fs !! (S i) = Some g -> fr_end f = Some (fr_start g).
Proof. exact @charted_periods. Qed.
Print Assumptions C33_any_program_skip.

(** C34: each frame summarises the ticks accepted in its period; each tick is in one frame. *)
Theorem C34_any_program_skip : forall {F} `{Num F} pr l fid eid z u q mx ts (fs : fset F),
  charted pr l fid eid z u q mx ts fs -> 1 <= mx -> u <> TICK -> 0 < q -> instants_exist z -> aligned z u q ->
  (comparable ts -> forall i f, fs_heap fs !! i = Some f -> exists x, fr_end f = Some x /\ covers ts (ar_wall (fr_start f)) (ar_wall x) f) /\
  forall t, t ∈ ts -> exists i, (exists f x, fs_heap fs !! i = Some f /\ fr_end f = Some x /\ ar_wall (fr_start f) <= tk_wall t < ar_wall x) /\
    forall j, (exists f x, fs_heap fs !! j = Some f /\ fr_end f = Some x /\ ar_wall (fr_start f) <= tk_wall t < ar_wall x) -> j = i.
Proof. exact @charted_content. Qed.
Print Assumptions C34_any_program_skip.

(** C37: one more accepted tick gives one more frame per period elapsed, whatever else the two programs do. *)
Theorem C37_any_program : forall {F} `{Num F} pr pr' l l' fid fid' eid eid' z u q mx mx' ts (fs fs' : fset F) t0 t bl,
  charted pr l fid eid z u q mx ts fs -> charted pr' l' fid' eid' z u q mx' (ts ++ [t]) fs' -> 1 <= mx -> 1 <= mx' -> u <> TICK -> 0 < q -> instants_exist z -> aligned z u q ->
  last ts = Some t0 -> elapsed_kept z u q (tk_wall t0) (tk_wall t) bl -> length (fs_heap fs') = (length (fs_heap fs) + length bl)%nat.
Proof. exact @charted_per_period. Qed.
Print Assumptions C37_any_program.

(** C53: a frame of the longer timeframe is the merge of the shorter frames in it, in the same program or in another one accepting the same ticks. *)
Theorem C53_any_program : forall {F} `{Num F} pr pr' l l' fid fid' eid eid' z u q mx u' q' mx' ts (fs fs' : fset F) i f e t,
  charted pr l fid eid z u q mx ts fs -> charted pr' l' fid' eid' z u' q' mx' ts fs' ->
  1 <= mx -> 1 <= mx' -> u <> TICK -> u' <> TICK -> 0 < q -> 0 < q' -> instants_exist z -> aligned z u q -> aligned z u' q' -> comparable ts -> refines u q u' q' ->
  fs_heap fs' !! i = Some f -> fr_end f = Some e -> t ∈ ts -> ar_wall (fr_start f) <= tk_wall t < ar_wall e ->
  merges (parts ts (ar_wall (fr_start f)) (ar_wall e) (fs_heap fs)) f.
Proof. exact @charted_nested. Qed.
Print Assumptions C53_any_program.

(** C54: the frames depend on the accepted ticks only: not on the memory, the indicators, the callbacks or the rest of the program. *)
Theorem C54_any_program : forall {F} `{Num F} pr pr' l l' fid fid' eid eid' z z' u q mx mx' ts (fs fs' : fset F),
  charted pr l fid eid z u q mx ts fs -> charted pr' l' fid' eid' z' u q mx' ts fs' -> 1 <= mx -> 1 <= mx' -> map content (fs_heap fs) = map content (fs_heap fs').
Proof. exact @charted_memory. Qed.
Print Assumptions C54_any_program.

(** Zones without clock changes. *)
Theorem C33_instants_no_change : forall z, no_skip z -> instants_exist z.
Proof. intros z Hz u. exact (Hz _). Qed.
Print Assumptions C33_instants_no_change.

(** Frames of 15 minutes (two in memory) and of one hour: 01:15 to 03:45 with six quarters, the hours of 01:00 (to 03:00) and 03:00. *)
Definition walls (fs : fset Q) : list (Z * Z * Q * Z) :=
  map (fun f => ((ar_wall (fr_start f) - spring) / US_MIN, match fr_end f with Some e => (ar_wall e - spring) / US_MIN | None => 0 end, tk_value (fr_last f), fr_nb f)) (fs_heap fs).
Example C53_ex_program : charted quiet nest_ops 0 0 tz_spring MINUTE 15 2 nest_ts (fset_of (run quiet empty_world nest_ops) 0) /\
  charted quiet nest_ops 1 0 tz_spring HOUR 1 9 nest_ts (fset_of (run quiet empty_world nest_ops) 1) /\
  instants_exist tz_spring /\ aligned tz_spring MINUTE 15 /\ aligned tz_spring HOUR 1 /\ refines MINUTE 15 HOUR 1 /\ comparable nest_ts /\ length nest_ts = 3%nat /\
  map fst (map fst (walls (fset_of (run quiet empty_world nest_ops) 0))) = [(-45, -30); (-30, -15); (-15, 60); (60, 75); (75, 90); (90, 105)] /\
  map (fun x => (fst (fst x), snd x)) (walls (fset_of (run quiet empty_world nest_ops) 1)) = [((-60, 60), 2); ((60, 120), 1)].
Proof.
  split; [exact nest_minutes|]. split; [exact nest_hours|]. split; [exact spring_instants|]. split; [apply spring_minutes|]. split; [exact spring_hours|].
  split; [apply refines_finer, fi_minute; auto|]. split; [apply comparable_Q|]. split; [vm_compute; reflexivity|]. split; vm_compute; reflexivity.
Qed.
(** Between the ticks of 01:50 and 03:40: the quarters of 03:00, 03:15 and 03:30 (the times from 02:00 to 03:00 do not exist). *)
Example C37_ex_program : charted quiet nest_before 0 0 tz_spring MINUTE 15 2 nest_ts3 (fset_of (run quiet empty_world nest_before) 0) /\
  (exists t, nest_ts = nest_ts3 ++ [t]) /\ length nest_ts3 = 2%nat /\
  length (fs_heap (fset_of (run quiet empty_world nest_before) 0)) = 3%nat /\ length (fs_heap (fset_of (run quiet empty_world nest_ops) 0)) = 6%nat.
Proof. split; [exact nest_minutes3|]. split; [exact nest_ts_split|]. split; [vm_compute; reflexivity|]. split; vm_compute; reflexivity. Qed.
