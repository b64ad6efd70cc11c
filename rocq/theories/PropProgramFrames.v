(** Frame sets and their indicators in whole programs (C38, C44): estrade/epic.py:134-259, estrade/graph/frame_set.py:240-330. *)
From Verif Require Import ProgramLogProofs IndicatorExamples EpicExamples.
Open Scope Z_scope.

(** C44: a frame set attached to one epic only has a history made of the ticks this epic accepted, each with the market flag of its own time;
    so the theorems about [fs_log] (and [fs_hist]) apply to it. *)
Theorem C44_of_program : forall {F} `{Num F} (P : cmd F -> Prop) pr l (w : world F) eid e fid fs (I : indicator F -> Prop) fs0 lg rs,
  reach P w -> programs_ok P pr -> Forall (op_ok P) l -> clean pr w l -> Forall (not_attaching fid) l -> (forall i, OAddIndicator fid i ∈ l -> I i) ->
  w_epics w !! eid = Some e -> attached_only w fid eid -> w_fsets w !! fid = Some fs -> fs_log I any_step fs0 lg rs fs ->
  exists fs' lg' new, w_fsets (run pr w l) !! fid = Some fs' /\ fs_log I any_step fs0 lg' (rs ++ new) fs' /\ map fst new = accepted pr w l eid /\
    Forall (fun x => snd x = true <-> market_hours e (ar_wall (tk_dt (fst x)))) new.
Proof. exact @run_log. Qed.
Print Assumptions C44_of_program.
(** For instance C38: candles of whole programs. *)
Theorem C38_of_program : forall (P : cmd Q -> Prop) pr l (w : world Q) eid e fid fs u q ref mx i ha fs0 lg rs fs' k f iv, 1 <= mx -> in_kind i = KCandle ha ->
  fset_init u q ref mx = Ok fs0 -> reach P w -> programs_ok P pr -> Forall (op_ok P) l -> clean pr w l -> Forall (not_attaching fid) l ->
  (forall j, OAddIndicator fid j ∈ l -> only i j) -> w_epics w !! eid = Some e -> attached_only w fid eid -> w_fsets w !! fid = Some fs ->
  fs_log (only i) any_step fs0 lg rs fs -> w_fsets (run pr w l) !! fid = Some fs' -> fs_heap fs' !! k = Some f -> value_at fs' (in_ref i) k = Some iv ->
  exists o hi lo la, c_open (fs_heap fs') f iv = Ok o /\ c_high (fs_heap fs') f iv = Ok hi /\ c_low (fs_heap fs') f iv = Ok lo /\ candle_last iv = Ok la /\
    (lo <= o /\ lo <= la /\ o <= hi /\ la <= hi)%Q.
Proof. exact run_candles. Qed.
Print Assumptions C38_of_program.

(** Ticks at 07:00 (before opening), 09:00 and 12:00: the frame of 06:00 has no open-market candle, those of 08:00, 10:00 and 12:00 have one. *)
Definition w44 : world Q := w_frames [OAddIndicator 0 jp_open_only].
Definition l44 : list (op Q) := [at_h 7; at_h 9; at_h 12].
Example C44_ex_program : reach any_call w44 /\ programs_ok any_call quiet /\ clean quiet w44 l44 /\ Forall (not_attaching 0) l44 /\ attached_only w44 0 0 /\
  w_fsets w44 !! 0%nat = Some (fset_of w44 0) /\ (exists fs0, fset_init HOUR 2 "H2" 2 = Ok fs0 /\ fs_log (only jp_open_only) any_step fs0 [] [] (fset_of w44 0)) /\
  length (accepted quiet w44 l44 0) = 3%nat /\
  map (fun k => match value_at (fset_of (run quiet w44 l44) 0) "jp" k with Some _ => true | None => false end) [0; 1; 2; 3]%nat = [false; true; true; true].
Proof.
  split; [apply w_frames_reach; repeat constructor|]. split; [apply quiet_ok|]. split; [apply clean_b_ok; vm_compute; reflexivity|]. split; [repeat constructor|].
  assert (ep_fsets (epic_of w44 0) = [("H2", 0%nat)]) as Ef by (vm_compute; reflexivity).
  assert (w_epics w44 !! 0%nat = Some (epic_of w44 0)) as He by (apply epic_of_lookup; vm_compute; lia).
  assert (w_fsets w44 !! 0%nat = Some (fset_of w44 0)) as Hf by (apply fset_of_lookup; vm_compute; lia).
  split; [|split; [auto|split; [|split; vm_compute; reflexivity]]].
  - split; [exists (epic_of w44 0), "H2"; rewrite Ef; split; [auto|left]|]. split; [exists (fset_of w44 0); split; [auto|vm_compute; reflexivity]|].
    intros a b k Ha Hk. apply lookup_lt_Some in Ha. assert (length (w_epics w44) = 1%nat) as E by (vm_compute; reflexivity). lia.
  - destruct (fset_init (F:=Q) HOUR 2 "H2" 2) as [fs0|] eqn:E0; [|vm_compute in E0; discriminate]. exists fs0. split; [auto|].
    assert (fset_of w44 0 = fst (add_indicator (fs_set_epic fs0 (Some 0%nat)) jp_open_only)) as ->.
    { vm_compute in E0. injection E0 as <-. vm_compute. reflexivity. }
    apply log_indicator; [apply log_epic, log_start|intros _; reflexivity].
Qed.
