(** Indicators of whole programs, started from nothing (C44, C62): estrade/epic.py:134-259, estrade/graph/frame_set.py:1-330,
    estrade/graph/base_indicator.py. [listening] (SpecTold.v) describes the program. *)
From Verif Require Import PeriodLogProofs TickLogProofs EpicExamples IndicatorExamples CustomExamples.
Open Scope Z_scope.

(** C44: on every frame the value of the indicator summarises the ticks of the frame it listens to; the market flags are those of the hours of the epic at the ticks. *)
Theorem C44_any_program : forall {F} `{Num F} pr l (i : indicator F) e mx ts fs0 fs, listening pr l i e mx ts fs0 fs -> 1 <= mx -> comparable ts ->
  exists lg rs, fs_log (only i) any_step (fst (add_indicator fs0 i)) lg rs fs /\ map fst rs = ts /\ Forall (fun x => snd x = true <-> market_hours e (ar_wall (tk_dt (fst x)))) rs /\
    length lg = length (fs_heap fs) /\
    forall k b f, lg !! k = Some b -> fs_heap fs !! k = Some f -> last (map fst b) = Some (fr_last f) /\ hears i b (value_at fs (in_ref i) k).
Proof. exact @listening_hears. Qed.
Print Assumptions C44_any_program.

(** C62: a class of the user is told each tick of each frame once. *)
Theorem C62_any_program : forall {F} `{Num F} pr l (i : indicator F) e mx ts fs0 fs mk tl, listening pr l i e mx ts fs0 fs -> 1 <= mx -> in_kind i = KCustom mk tl ->
  exists lg rs, fs_log (only i) any_step (fst (add_indicator fs0 i)) lg rs fs /\ map fst rs = ts /\ Forall (fun x => snd x = true <-> market_hours e (ar_wall (tk_dt (fst x)))) rs /\
    forall k b, lg !! k = Some b -> exists past, earlier lg fs (in_ref i) k past /\ tells i mk tl past b (value_at fs (in_ref i) k).
Proof. exact @listening_told. Qed.
Print Assumptions C62_any_program.

(** C44: on every frame the value summarises those it listens to among the ticks accepted in the period of the frame, or, when none was accepted, the last tick before. *)
Theorem C44_any_program_periods : forall {F} `{Num F} pr l (i : indicator F) e mx ts fs0 fs, listening pr l i e mx ts fs0 fs -> 1 <= mx -> fs_unit fs0 <> TICK -> 0 < fs_q fs0 ->
  instants_exist (ep_tz e) -> aligned (ep_tz e) (fs_unit fs0) (fs_q fs0) -> comparable ts ->
  exists rs, map fst rs = ts /\ Forall (fun x => snd x = true <-> market_hours e (ar_wall (tk_dt (fst x)))) rs /\
    forall k f, fs_heap fs !! k = Some f -> exists b x, fr_end f = Some x /\ frame_log rs (ar_wall (fr_start f)) (ar_wall x) b /\ hears i b (value_at fs (in_ref i) k).
Proof. exact @listening_hears_periods. Qed.
Print Assumptions C44_any_program_periods.

(** C44: on a frame whose period has a tick, the value summarises the ticks of the period: those in market hours for a market_open_only indicator, which has no value
    when there are none. *)
Theorem C44_any_program_hours : forall {F} `{Num F} pr l (i : indicator F) e mx ts fs0 fs k f x t, listening pr l i e mx ts fs0 fs -> 1 <= mx -> fs_unit fs0 <> TICK -> 0 < fs_q fs0 ->
  instants_exist (ep_tz e) -> aligned (ep_tz e) (fs_unit fs0) (fs_q fs0) -> comparable ts ->
  fs_heap fs !! k = Some f -> fr_end f = Some x -> t ∈ ts -> ar_wall (fr_start f) <= tk_wall t < ar_wall x ->
  match value_at fs (in_ref i) k with
  | Some iv => isummary (listened i e (ar_wall (fr_start f)) (ar_wall x) ts) iv
  | None => listened i e (ar_wall (fr_start f)) (ar_wall x) ts = []
  end.
Proof. exact @listening_hours. Qed.
Print Assumptions C44_any_program_hours.

(** C62: the ticks a class of the user is told on a frame are those accepted in the period of the frame, or, when none was accepted, the last tick before. *)
Theorem C62_any_program_periods : forall {F} `{Num F} pr l (i : indicator F) e mx ts fs0 fs mk tl, listening pr l i e mx ts fs0 fs -> 1 <= mx -> fs_unit fs0 <> TICK -> 0 < fs_q fs0 ->
  instants_exist (ep_tz e) -> aligned (ep_tz e) (fs_unit fs0) (fs_q fs0) -> in_kind i = KCustom mk tl ->
  exists lg rs, map fst rs = ts /\ Forall (fun x => snd x = true <-> market_hours e (ar_wall (tk_dt (fst x)))) rs /\ length lg = length (fs_heap fs) /\
    forall k b f, lg !! k = Some b -> fs_heap fs !! k = Some f -> (exists x, fr_end f = Some x /\ frame_log rs (ar_wall (fr_start f)) (ar_wall x) b) /\
      exists past, earlier lg fs (in_ref i) k past /\ tells i mk tl past b (value_at fs (in_ref i) k).
Proof. exact @listening_tells_periods. Qed.
Print Assumptions C62_any_program_periods.

(** C44, C62: the same on frames of [q] ticks. *)
Theorem C44_any_program_ticks : forall {F} `{Num F} pr l (i : indicator F) e mx ts fs0 fs, listening pr l i e mx ts fs0 fs -> 1 <= mx -> fs_unit fs0 = TICK -> 1 <= fs_q fs0 -> comparable ts ->
  exists rs, map fst rs = ts /\ Forall (fun x => snd x = true <-> market_hours e (ar_wall (tk_dt (fst x)))) rs /\
    forall k f, fs_heap fs !! k = Some f -> hears i (take (Z.to_nat (fs_q fs0)) (drop (k * Z.to_nat (fs_q fs0)) rs)) (value_at fs (in_ref i) k).
Proof. exact @listening_hears_ticks. Qed.
Print Assumptions C44_any_program_ticks.
Theorem C62_any_program_ticks : forall {F} `{Num F} pr l (i : indicator F) e mx ts fs0 fs mk tl, listening pr l i e mx ts fs0 fs -> 1 <= mx -> fs_unit fs0 = TICK -> 1 <= fs_q fs0 ->
  in_kind i = KCustom mk tl ->
  exists lg rs, map fst rs = ts /\ Forall (fun x => snd x = true <-> market_hours e (ar_wall (tk_dt (fst x)))) rs /\ length lg = length (fs_heap fs) /\
    forall k b, lg !! k = Some b -> b = take (Z.to_nat (fs_q fs0)) (drop (k * Z.to_nat (fs_q fs0)) rs) /\
      exists past, earlier lg fs (in_ref i) k past /\ tells i mk tl past b (value_at fs (in_ref i) k).
Proof. exact @listening_tells_ticks. Qed.
Print Assumptions C62_any_program_ticks.

(** A class counting ticks, for open markets; ticks at 07:00 (closed), 08:00, 09:00, 07:00 (refused), 15:00 and 17:00 (closed) on 2-hour frames. *)
Definition told_la : list (op Q) := [ONewEpic "A" (Some tz_UTC) 28800000000 57600000000 None None None].
Definition told_l2 : list (op Q) := [at_h 7; at_h 8; at_h 9; at_h 7; at_h 15; at_h 17].
Definition told_made : list (op Q) := told_la ++ ONewFrameSet HOUR 2 "fs" 3 :: OAddIndicator 0 cnt :: [OAddIndicator 0 jp_open_only].
Definition told_ops : list (op Q) := told_made ++ OAddFrameSet 0 0 :: told_l2.
Notation told_w1 := (run quiet empty_world told_made).
Definition told_ts : list (tick Q) := accepted quiet (fst (step quiet told_w1 (OAddFrameSet 0 0))) told_l2 0.
Notation told_end := (fset_of (run quiet empty_world told_ops) 0).
Example C62_ex_program : listening quiet told_ops cnt (epic_of told_w1 0) 3 told_ts (fs0 HOUR 2 3) told_end /\ length told_ts = 5%nat /\ comparable told_ts /\
  map (fun k => custom_data (value_at told_end "cnt" k)) [0; 1; 2; 3; 4; 5]%nat = [None; Some [2%Q; 0%Q]; Some [1%Q; 0%Q]; Some [1%Q; 0%Q]; Some [1%Q; 0%Q]; None].
Proof.
  split; [|split; [vm_compute; reflexivity|split; [apply comparable_Q|vm_compute; reflexivity]]].
  refine (listens quiet told_ops cnt (epic_of told_w1 0) 3 told_ts (fs0 HOUR 2 3) told_end told_la [OAddIndicator 0 jp_open_only] told_l2 0 0 HOUR 2 "fs" eq_refl _ _ _ _ _ _ _ _ _).
  - vm_compute. reflexivity.
  - vm_compute. reflexivity.
  - repeat constructor.
  - intros j Hj. simpl in Hj. rewrite elem_of_cons in Hj. destruct Hj as [Hj|Hj].
    + injection Hj as ->. intros E. discriminate E.
    + exfalso. repeat (apply elem_of_cons in Hj as [Hj|Hj]; [discriminate Hj|]). now apply elem_of_nil in Hj.
  - apply epic_of_lookup. vm_compute. lia.
  - vm_compute. reflexivity.
  - apply clean_charts, clean_b_ok. vm_compute. reflexivity.
  - reflexivity.
  - apply fset_of_lookup. vm_compute. lia.
Qed.
(** The frames of that program: those of 10:00 and 12:00 have no tick and count that of 09:00, told as 15:00 comes with the market open. *)
Example C62_ex_program_periods : fs_unit (fs0 HOUR 2 3) <> TICK /\ 0 < fs_q (fs0 HOUR 2 3) /\ ep_tz (epic_of told_w1 0) = tz_UTC /\ instants_exist tz_UTC /\ aligned tz_UTC HOUR 2 /\
  map (fun f => (ar_wall (fr_start f) / 3600000000 mod 24, fr_nb f, ar_wall (tk_dt (fr_last f)) / 3600000000 mod 24)) (fs_heap told_end) =
    [(6, 1, 7); (8, 2, 9); (10, 1, 9); (12, 1, 9); (14, 1, 15); (16, 1, 17)].
Proof.
  assert (no_skip tz_UTC) as Hz by (intros w; reflexivity).
  split; [discriminate|]. split; [reflexivity|]. split; [reflexivity|]. split; [intros w; apply Hz|]. split; [now apply no_skip_aligned|]. vm_compute. reflexivity.
Qed.
(** The ticks listened to on each frame of that program: none on the first and on the last, which have ticks. *)
Example C44_ex_program_hours : in_mopen cnt = true /\
  map (fun f => (length (ticks_in (ar_wall (fr_start f)) (ar_wall (fr_start f) + 7200000000) told_ts),
                 length (listened cnt (epic_of told_w1 0) (ar_wall (fr_start f)) (ar_wall (fr_start f) + 7200000000) told_ts))) (fs_heap told_end) =
    [(1, 0); (2, 2); (0, 0); (0, 0); (1, 1); (1, 0)]%nat.
Proof. split; [reflexivity|vm_compute; reflexivity]. Qed.
(** Frames of two ticks, the same ticks: 07:00 (closed) and 08:00, 09:00 and 15:00, 17:00 (closed). *)
Definition cut_made : list (op Q) := told_la ++ ONewFrameSet TICK 2 "fs" 3 :: OAddIndicator 0 cnt :: [].
Definition cut_ops : list (op Q) := cut_made ++ OAddFrameSet 0 0 :: told_l2.
Notation cut_w1 := (run quiet empty_world cut_made).
Definition cut_ts : list (tick Q) := accepted quiet (fst (step quiet cut_w1 (OAddFrameSet 0 0))) told_l2 0.
Notation cut_end := (fset_of (run quiet empty_world cut_ops) 0).
Example C62_ex_program_ticks : listening quiet cut_ops cnt (epic_of cut_w1 0) 3 cut_ts (fs0 TICK 2 3) cut_end /\ length cut_ts = 5%nat /\
  fs_unit (fs0 TICK 2 3) = TICK /\ 1 <= fs_q (fs0 TICK 2 3) /\
  map (fun k => custom_data (value_at cut_end "cnt" k)) [0; 1; 2]%nat = [Some [1%Q; 0%Q]; Some [2%Q; 0%Q]; None].
Proof.
  split; [|split; [vm_compute; reflexivity|split; [reflexivity|split; [vm_compute; discriminate|vm_compute; reflexivity]]]].
  refine (listens quiet cut_ops cnt (epic_of cut_w1 0) 3 cut_ts (fs0 TICK 2 3) cut_end told_la [] told_l2 0 0 TICK 2 "fs" eq_refl _ _ _ _ _ _ _ _ _).
  - vm_compute. reflexivity.
  - vm_compute. reflexivity.
  - repeat constructor.
  - intros j Hj. exfalso. simpl in Hj. repeat (apply elem_of_cons in Hj as [Hj|Hj]; [discriminate Hj|]). now apply elem_of_nil in Hj.
  - apply epic_of_lookup. vm_compute. lia.
  - vm_compute. reflexivity.
  - apply clean_charts, clean_b_ok. vm_compute. reflexivity.
  - reflexivity.
  - apply fset_of_lookup. vm_compute. lia.
Qed.
