(** The charts of whole programs, started from nothing (C33-C36, C57): estrade/epic.py:134-259, estrade/graph/frame_set.py:1-330.
    A program does [l1], attaches the frame set [fid] to the epic [eid], then does [l2]. Callbacks may make any calls and raise;
    only the frame sets must not ([charts_fine], SpecBlind.v). *)
From Verif Require Import ProgramChartProofs EpicExamples IndicatorExamples SpecBlind.
Open Scope Z_scope.

(** C33: the frames are the calendar periods of the timeframe, without holes. *)
Theorem C33_any_program : forall {F} `{Num F} pr (l1 l2 : list (op F)) eid e fid fs fs', let w1 := run pr empty_world l1 in let w := fst (step pr w1 (OAddFrameSet eid fid)) in 
  Forall (not_attaching fid) (l1 ++ l2) -> w_epics w1 !! eid = Some e -> w_fsets w1 !! fid = Some fs -> snd (step pr w1 (OAddFrameSet eid fid)) = Ok () -> charts_fine pr w l2 ->
  1 <= fs_max fs -> fs_unit fs <> TICK -> 0 < fs_q fs -> no_skip (ep_tz e) -> w_fsets (run pr empty_world (l1 ++ OAddFrameSet eid fid :: l2)) !! fid = Some fs' ->
  (forall i f, fs_heap fs' !! i = Some f -> exists x, fr_end f = Some x /\ boundary (fs_unit fs) (fs_q fs) (ar_wall (fr_start f)) /\
     next_boundary (fs_unit fs) (fs_q fs) (ar_wall (fr_start f)) (ar_wall x) /\ ar_tz (fr_start f) = ep_tz e /\ ar_tz x = ep_tz e) /\
  forall i f g, fs_heap fs' !! i = Some f -> fs_heap fs' !! (S i) = Some g -> fr_end f = Some (fr_start g).
Proof. exact @program_periods. Qed.
Print Assumptions C33_any_program.

(** C34: each frame summarises the ticks the epic accepted in its period, after the attachment; each of them is in one frame. *)
Theorem C34_any_program : forall {F} `{Num F} pr (l1 l2 : list (op F)) eid e fid fs fs', let w1 := run pr empty_world l1 in let w := fst (step pr w1 (OAddFrameSet eid fid)) in let ts := accepted pr w l2 eid in
  Forall (not_attaching fid) (l1 ++ l2) -> w_epics w1 !! eid = Some e -> w_fsets w1 !! fid = Some fs -> snd (step pr w1 (OAddFrameSet eid fid)) = Ok () -> charts_fine pr w l2 ->
  1 <= fs_max fs -> fs_unit fs <> TICK -> 0 < fs_q fs -> no_skip (ep_tz e) -> w_fsets (run pr empty_world (l1 ++ OAddFrameSet eid fid :: l2)) !! fid = Some fs' ->
  (comparable ts -> forall i f, fs_heap fs' !! i = Some f -> exists x, fr_end f = Some x /\ covers ts (ar_wall (fr_start f)) (ar_wall x) f) /\
  forall t, t ∈ ts -> exists i, (exists f x, fs_heap fs' !! i = Some f /\ fr_end f = Some x /\ ar_wall (fr_start f) <= tk_wall t < ar_wall x) /\
    forall j, (exists f x, fs_heap fs' !! j = Some f /\ fr_end f = Some x /\ ar_wall (fr_start f) <= tk_wall t < ar_wall x) -> j = i.
Proof. exact @program_content. Qed.
Print Assumptions C34_any_program.

(** C36: frames of [q] ticks. *)
Theorem C36_any_program : forall {F} `{Num F} pr (l1 l2 : list (op F)) eid e fid fs fs', let w1 := run pr empty_world l1 in let w := fst (step pr w1 (OAddFrameSet eid fid)) in let ts := accepted pr w l2 eid in
  Forall (not_attaching fid) (l1 ++ l2) -> w_epics w1 !! eid = Some e -> w_fsets w1 !! fid = Some fs -> snd (step pr w1 (OAddFrameSet eid fid)) = Ok () -> charts_fine pr w l2 ->
  1 <= fs_max fs -> fs_unit fs = TICK -> 1 <= fs_q fs -> comparable ts -> w_fsets (run pr empty_world (l1 ++ OAddFrameSet eid fid :: l2)) !! fid = Some fs' ->
  Z.of_nat (length ts) <= Z.of_nat (length (fs_heap fs')) * fs_q fs /\
  (fs_heap fs' <> [] -> (Z.of_nat (length (fs_heap fs')) - 1) * fs_q fs < Z.of_nat (length ts)) /\
  forall i f, fs_heap fs' !! i = Some f -> summary (take (Z.to_nat (fs_q fs)) (drop (i * Z.to_nat (fs_q fs)) ts)) f.
Proof. exact @program_tick_charts. Qed.
Print Assumptions C36_any_program.

(** C35: what is in memory, in every frame set of every program, whatever raises and wherever it is attached. *)
Theorem C35_any_program : forall {F} `{Num F} pr (l : list (op F)) fid fs, w_fsets (run pr empty_world l) !! fid = Some fs -> 1 <= fs_max fs ->
  let n := length (fs_heap fs) in let m := Nat.min n (Z.to_nat (fs_max fs)) in
  fs_frames fs = seq (n - m) m /\
  (forall id, id ∈ fs_frames fs -> exists f, fs_heap fs !! id = Some f) /\
  (forall i id f, fs_frames fs !! i = Some id -> fs_heap fs !! id = Some f ->
     fr_prev f = (match i with O => None | S j => fs_frames fs !! j end) /\ fr_next f = fs_frames fs !! (S i) /\ (frame_closed f = false <-> fs_current_id fs = Some id)) /\
  forall id, reachable fs id -> id ∈ fs_frames fs.
Proof. exact @program_memory. Qed.
Print Assumptions C35_any_program.

(** C57: [next] and [previous] of the values of indicators, likewise. *)
Theorem C57_any_program : forall {F} `{Num F} pr (l : list (op F)) fid fs ref k f, w_fsets (run pr empty_world l) !! fid = Some fs -> 1 <= fs_max fs -> fs_heap fs !! k = Some f ->
  iv_next (fs_heap fs) f ref = Ok (if (k <? oldest fs)%nat then None else option_map (pair (S k)) (value_at fs ref (S k))) /\
  exists r, previous (fs_heap fs) f ref = Ok r /\ previous_value fs ref k r.
Proof. exact @program_navigation. Qed.
Print Assumptions C57_any_program.

(** An indicator added before the attachment; ticks at 07:00, 09:00, 08:00 (refused), 13:00 and 13:00 on 2-hour frames: 06:00 (one tick), 08:00 (one), 10:00 (flat), 12:00 (two). *)
Definition pc_l1 (u : unit_) (q : Z) : list (op Q) := [ONewEpic "A" (Some tz_UTC) 28800000000 57600000000 None None None; ONewFrameSet u q "H2" 2; OAddIndicator 0 jp_open_only].
Definition pc_l2 : list (op Q) := [at_h 7; at_h 9; at_h 8; at_h 13; at_h 13].
Definition pc_w1 (u : unit_) (q : Z) : world Q := run quiet empty_world (pc_l1 u q).
Definition pc_w (u : unit_) (q : Z) : world Q := fst (step quiet (pc_w1 u q) (OAddFrameSet 0 0)).
Definition pc_end (u : unit_) (q : Z) : fset Q := fset_of (run quiet empty_world (pc_l1 u q ++ OAddFrameSet 0 0 :: pc_l2)) 0.
Example C33_ex_program : Forall (not_attaching 0) (pc_l1 HOUR 2 ++ pc_l2) /\ w_epics (pc_w1 HOUR 2) !! 0%nat = Some (epic_of (pc_w1 HOUR 2) 0) /\
  w_fsets (pc_w1 HOUR 2) !! 0%nat = Some (fset_of (pc_w1 HOUR 2) 0) /\ snd (step quiet (pc_w1 HOUR 2) (OAddFrameSet 0 0)) = Ok () /\ charts_fine quiet (pc_w HOUR 2) pc_l2 /\
  fs_unit (fset_of (pc_w1 HOUR 2) 0) = HOUR /\ fs_q (fset_of (pc_w1 HOUR 2) 0) = 2 /\ fs_max (fset_of (pc_w1 HOUR 2) 0) = 2 /\ no_skip (ep_tz (epic_of (pc_w1 HOUR 2) 0)) /\
  w_fsets (run quiet empty_world (pc_l1 HOUR 2 ++ OAddFrameSet 0 0 :: pc_l2)) !! 0%nat = Some (pc_end HOUR 2) /\
  length (accepted quiet (pc_w HOUR 2) pc_l2 0) = 4%nat /\ map (fun f => (ar_wall (fr_start f) / 3600000000 mod 24, fr_nb f)) (fs_heap (pc_end HOUR 2)) = [(6, 1); (8, 1); (10, 1); (12, 2)] /\
  fs_frames (pc_end HOUR 2) = [2; 3]%nat.
Proof.
  split; [repeat constructor|]. split; [apply epic_of_lookup; vm_compute; lia|]. split; [apply fset_of_lookup; vm_compute; lia|]. split; [vm_compute; reflexivity|].
  split; [apply clean_charts, clean_b_ok; vm_compute; reflexivity|]. split; [vm_compute; reflexivity|]. split; [vm_compute; reflexivity|]. split; [vm_compute; reflexivity|].
  split; [intros x; reflexivity|]. split; [apply fset_of_lookup; vm_compute; lia|]. split; [vm_compute; reflexivity|]. split; vm_compute; reflexivity.
Qed.
(** The same with frames of three ticks. *)
Example C36_ex_program : charts_fine quiet (pc_w TICK 3) pc_l2 /\ comparable (accepted quiet (pc_w TICK 3) pc_l2 0) /\ fs_unit (fset_of (pc_w1 TICK 3) 0) = TICK /\
  snd (step quiet (pc_w1 TICK 3) (OAddFrameSet 0 0)) = Ok () /\ map fr_nb (fs_heap (pc_end TICK 3)) = [3; 1].
Proof.
  split; [apply clean_charts, clean_b_ok; vm_compute; reflexivity|]. split; [apply comparable_Q|]. split; [vm_compute; reflexivity|]. split; vm_compute; reflexivity.
Qed.
(** Two frames in memory: from the frame of 10:00, the oldest, the value of 12:00 is reached, and nothing before. *)
Example C57_ex_program : exists f, fs_heap (pc_end HOUR 2) !! 2%nat = Some f /\ 1 <= fs_max (pc_end HOUR 2) /\
  (exists v, iv_next (fs_heap (pc_end HOUR 2)) f "jp" = Ok (Some (3%nat, v))) /\ previous (fs_heap (pc_end HOUR 2)) f "jp" = Ok None.
Proof. eexists. split; [vm_compute; reflexivity|]. split; [vm_compute; discriminate|]. split; [eexists; vm_compute; reflexivity|vm_compute; reflexivity]. Qed.
