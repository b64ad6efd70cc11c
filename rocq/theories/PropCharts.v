(** Property C56 (estrade/epic.py:206-259): charts do not depend on trading, nor on the other epics. *)
From Verif Require Import EpicExamples ChartProofs.
Open Scope Z_scope.

(** C56: the epics (last ticks, market flags) and the frame sets (frames, indicator values) after a run do not depend on what
    the strategies do, nor on the calls the program makes between ticks, whether or not something raises. *)
Theorem C56_trading : forall {F} `{Num F} (pr pr' : programs F) l l' w w', charts w = charts w' -> cast w = cast w' ->
  List.filter no_call_op l = List.filter no_call_op l' -> charts (run pr w l) = charts (run pr' w' l').
Proof. intros F HF pr pr' l l' w w' E C L. exact (proj1 (run_same pr pr' l l' w w' E C L)). Qed.
Print Assumptions C56_trading.
(** The state of an epic and of a frame set attached to it alone depends only on the ticks sent to this epic and the indicators
    added to this frame set: ticks of other epics, in any interleaving, the other frame sets, strategies and calls do not matter,
    as long as no tick raises. *)
Theorem C56_own_ticks : forall {F} `{Num F} (P P' : cmd F -> Prop) pr pr' eid fid l l' w w',
  reach P w -> programs_ok P pr -> Forall (op_ok P) l -> clean pr w l -> Forall (not_attaching fid) l -> attached_only w fid eid ->
  reach P' w' -> programs_ok P' pr' -> Forall (op_ok P') l' -> clean pr' w' l' -> Forall (not_attaching fid) l' -> attached_only w' fid eid ->
  same_chart eid fid w w' -> List.filter (concerns eid fid) l = List.filter (concerns eid fid) l' ->
  same_chart eid fid (run pr w l) (run pr' w' l').
Proof. exact @run_own_spec. Qed.
Print Assumptions C56_own_ticks.

(** Strategy 0 opens a trade at every tick and raises at the opening of the market. *)
Definition busy : programs Q := fun sid cb eid _ =>
  match cb with OnMarketOpen => SRaise KeyError | OnEveryTick => SCall (COpen eid (Dir BUY) 1 (Some sid) "") (fun _ _ => SDone) | _ => SDone end.
Definition ops56 : list (op Q) := [ONewStrategy "s0"; ONewEpic "A" (Some tz_UTC) 28800000000 57600000000 None None None; OAddStrategy 0 0; ONewFrameSet HOUR 2 "H2" 2; OAddFrameSet 0 0].
Definition w56 : world Q := run quiet empty_world ops56.
Definition l56 : list (op Q) := [at_h 7; at_h 9; at_h 12].
Example C56_trading_ex : List.filter no_call_op l56 = List.filter no_call_op (at_h 7 :: buy 0 5 0 :: OCmd (CStop 0 true) :: [at_h 9; at_h 12]) /\
  length (w_trades (run busy w56 l56)) = 2%nat /\ length (w_trades (run quiet w56 l56)) = 0%nat /\
  length (fs_heap (fset_of (run busy w56 l56) 0)) = 4%nat.
Proof. split; [reflexivity|]. repeat split; vm_compute; reflexivity. Qed.

(** Two epics, a frame set on the second one. *)
Definition tick_of (a : nat) (s : Z) (v : Q) : op Q := OTick a (tk_s s v v).
Definition w56b : world Q := run quiet empty_world ops_two.
Definition l56b : list (op Q) := [tick_of 1 1600000100 (202#1); tick_of 0 1600000200 (102#1); tick_of 1 1600006400 (203#1); buy 0 3 0].
Definition l56c : list (op Q) := [OAddIndicator 7 {| in_ref := "x"; in_mopen := false; in_kind := KCandle true |}; tick_of 1 1600000100 (202#1); tick_of 1 1600006400 (203#1)].
Example C56_own_ex : reach any_call w56b /\ clean quiet w56b l56b /\ clean quiet w56b l56c /\ Forall (not_attaching 0) (l56b ++ l56c) /\ attached_only w56b 0 1 /\
  List.filter (concerns 1 0) l56b = List.filter (concerns 1 0) l56c /\ length (fs_heap (fset_of (run quiet w56b l56b) 0)) = 2%nat.
Proof.
  split; [apply run_quiet_reach; repeat constructor|]. split; [apply clean_b_ok; vm_compute; reflexivity|]. split; [apply clean_b_ok; vm_compute; reflexivity|].
  split; [repeat constructor|]. split; [|split; [reflexivity|vm_compute; reflexivity]].
  assert (w_epics w56b !! 1%nat = Some (epic_of w56b 1)) as He by (apply epic_of_lookup; vm_compute; lia).
  assert (w_fsets w56b !! 0%nat = Some (fset_of w56b 0)) as Hf by (apply fset_of_lookup; vm_compute; lia).
  assert (ep_fsets (epic_of w56b 1) = [("H2", 0%nat)]) as Ef by (vm_compute; reflexivity).
  split; [exists (epic_of w56b 1), "H2"; rewrite Ef; split; [auto|left]|]. split; [exists (fset_of w56b 0); split; [auto|vm_compute; reflexivity]|].
  intros a b k Ha Hk. assert (length (w_epics w56b) = 2%nat) as E by (vm_compute; reflexivity). destruct a as [|[|a]]; [|auto|apply lookup_lt_Some in Ha; lia].
  assert (w_epics w56b !! 0%nat = Some (epic_of w56b 0)) as H0 by (apply epic_of_lookup; vm_compute; lia). assert (b = epic_of w56b 0) as -> by congruence.
  assert (ep_fsets (epic_of w56b 0) = []) as E0 by (vm_compute; reflexivity). rewrite E0 in Hk. now apply elem_of_nil in Hk.
Qed.

(** When an indicator of another frame set of the epic raises, the frame sets registered after it get nothing (and no strategy is
    called), though the tick becomes the last tick of the epic. *)
Definition rsi0 : indicator Q := {| in_ref := "rsi"; in_mopen := false; in_kind := KRSI 0 None |}.
Definition w56d (l : list (op Q)) : world Q := run quiet empty_world (ops56 ++ [ONewFrameSet HOUR 1 "H1" 2; OAddFrameSet 0 1] ++ l).
Theorem C56_raising_indicator_refuted : exists (w w' : world Q), reach any_call w /\ reach any_call w' /\ attached_only w 1 0 /\
  w_fsets w !! 1%nat = w_fsets w' !! 1%nat /\ w_epics w !! 0%nat = w_epics w' !! 0%nat /\
  length (fs_heap (fset_of (run quiet w [at_h 9]) 1)) = 1%nat /\ fs_heap (fset_of (run quiet w' [at_h 9]) 1) = [] /\
  ep_mopen (epic_of (run quiet w' [at_h 9]) 0) = true /\ w_log (run quiet w' [at_h 9]) = [].
Proof.
  exists (w56d []), (w56d [OAddIndicator 0 rsi0]). split; [apply run_quiet_reach; repeat constructor|]. split; [apply run_quiet_reach; repeat constructor|].
  set (w := w56d []).
  assert (w_epics w !! 0%nat = Some (epic_of w 0)) as He by (apply epic_of_lookup; vm_compute; lia).
  assert (w_fsets w !! 1%nat = Some (fset_of w 1)) as Hf by (apply fset_of_lookup; vm_compute; lia).
  assert (ep_fsets (epic_of w 0) = [("H2", 0%nat); ("H1", 1%nat)]) as Ef by (vm_compute; reflexivity).
  split; [|split; [reflexivity|split; [reflexivity|repeat split; vm_compute; reflexivity]]].
  split; [exists (epic_of w 0), "H1"; rewrite Ef; split; [auto|right; left]|]. split; [exists (fset_of w 1); split; [auto|vm_compute; reflexivity]|].
  intros a b k Ha Hk. apply lookup_lt_Some in Ha. assert (length (w_epics w) = 1%nat) as E by (vm_compute; reflexivity). lia.
Qed.
Print Assumptions C56_raising_indicator_refuted.
