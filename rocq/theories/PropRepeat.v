(** C76: quotes delivered more than once. *)
From Coq Require Import QArith.
From Verif Require Import NumFloat RepeatLedger RepeatNumbers CustomExamples WorldExamples.
Open Scope Z_scope.

(** Some ticks of a program are sent again, any number of times, before anything else happens: the epics, the frames and the values of
    the indicators end up the same, whatever the strategies do; only the numbers of ticks of the frames change. *)
Theorem C76_charts : forall (F : Type) (HF : Num F), less_than F -> forall (pr pr' : programs F) l l', echo l l' -> Forall calendar_op l' -> clean pr' empty_world l' ->
  w_epics (run pr empty_world l) = w_epics (run pr' empty_world l') /\ Forall2 fs_recounted (w_fsets (run pr' empty_world l')) (w_fsets (run pr empty_world l)).
Proof. exact @echo_charts. Qed.
Print Assumptions C76_charts.
(** When the orders do not come from the callbacks of strategies, the trades, providers and strategies end up the same too. *)
Theorem C76_ledger : forall (F : Type) (HF : Num F), less_than F -> forall l l' : list (op F), echo l l' -> Forall calendar_op l' -> clean silent empty_world l' ->
  let w := run silent empty_world l in let w' := run silent empty_world l' in
  w_trades w = w_trades w' /\ w_provs w = w_provs w' /\ w_strats w = w_strats w' /\ w_epics w = w_epics w' /\ Forall2 fs_recounted (w_fsets w') (w_fsets w).
Proof. exact @echo_ledger. Qed.
Print Assumptions C76_ledger.
(** Revaluing a trade twice at the same quote is revaluing it once. *)
Theorem C76_trade : forall (F : Type) (HF : Num F), less_than F -> forall (t : trade F) tk, update_from_tick (update_from_tick t tk) tk = update_from_tick t tk.
Proof. exact @update_twice. Qed.
Print Assumptions C76_trade.
(** Exact numbers. *)
Theorem C76_numbers : less_than Q.
Proof. exact less_than_Q. Qed.
Print Assumptions C76_numbers.
(** Floats, NaN and infinities included. *)
Theorem C76_numbers_b64 : less_than b64.
Proof. exact less_than_b64. Qed.
Print Assumptions C76_numbers_b64.

(** Minute frames with a moving average and a RSI, a trade of 3 ordered between two quotes; the first and last quotes arrive three times. *)
Definition t76 (s : Z) (b : Q) : op Q := OTick 0 (tk_s s b (b + 1)).
Definition desk76 : list (op Q) := [ONewStrategy "s"; ONewEpic "A" (Some tz_UTC) 0 86399999999 None None None; OAddStrategy 0 0; ONewFrameSet MINUTE 1 "fs" 5;
  OAddFrameSet 0 0; OAddIndicator 0 {| in_ref := "sma"; in_mopen := false; in_kind := KSMA 2 |}; OAddIndicator 0 {| in_ref := "rsi"; in_mopen := true; in_kind := KRSI 2 None |}].
Definition once76 : list (op Q) := desk76 ++ [t76 1600086400 (100#1); OCmd (COpen 0 (Dir BUY) 3 (Some 0%nat) "r"); t76 1600086410 (98#1); t76 1600086480 (103#1); t76 1600086490 (102#1)].
Definition many76 : list (op Q) := desk76 ++ [t76 1600086400 (100#1); t76 1600086400 (100#1); t76 1600086400 (100#1); OCmd (COpen 0 (Dir BUY) 3 (Some 0%nat) "r"); t76 1600086410 (98#1); t76 1600086480 (103#1);
  t76 1600086490 (102#1); t76 1600086490 (102#1); t76 1600086490 (102#1)].
Definition prices (fs : fset Q) : list (Q * Q * Q * Q) := map (fun f => (Qred (tk_value (fr_first f)), Qred (tk_value (fr_high f)), Qred (tk_value (fr_low f)), Qred (tk_value (fr_last f)))) (fs_heap fs).
Definition counts (fs : fset Q) : list Z := map fr_nb (fs_heap fs).
Definition shown76 (l : list (op Q)) := let w := run silent empty_world l in
  (map prices (w_fsets w), map counts (w_fsets w), map (fun t => (Qred (tr_min t), Qred (result t), Qred (tr_max t))) (w_trades w)).
Fixpoint fine76 (w : world Q) (l : list (op Q)) : bool :=
  match l with [] => true | o :: l' => (match snd (step silent w o) with Ok _ => true | Err _ => false end) && fine76 (fst (step silent w o)) l' end.
Lemma fine76_clean w l : fine76 w l = true -> clean silent w l.
Proof.
  revert w. induction l as [|o l IH]; intros w; simpl; [auto|]. intros [E1 E2]%andb_prop. split; [|auto]. destruct o; auto. left. cbn [step] in E1. destruct (snd _) as [[]|]; [auto|discriminate].
Qed.
Ltac echoes := repeat first [apply echo_nil | apply echo_again | apply echo_op].
Example C76_ex : echo many76 once76 /\ Forall calendar_op once76 /\ clean silent empty_world once76 /\
  shown76 once76 = ([[((201#2), (201#2), (197#2), (197#2)); ((197#2), (197#2), (197#2), (197#2)); ((207#2), (207#2), (205#2), (205#2))]]%Q, [[2; 1; 2]], [((-9)%Q, 3%Q, 6%Q)]) /\
  shown76 many76 = (fst (fst (shown76 once76)), [[4; 1; 4]], snd (shown76 once76)).
Proof.
  split; [echoes|]. split; [|split; [apply fine76_clean; vm_compute; reflexivity|split; vm_compute; reflexivity]].
  repeat constructor; try discriminate; try lia. intros z; simpl; lia.
Qed.

(** Frames that count ticks end earlier. *)
Theorem C76_tick_frames_refuted : exists l l' : list (op Q), echo l l' /\ clean silent empty_world l' /\
  map (fun fs => length (fs_heap fs)) (w_fsets (run silent empty_world l)) <> map (fun fs => length (fs_heap fs)) (w_fsets (run silent empty_world l')).
Proof.
  pose (d := [ONewEpic "A" (Some tz_UTC) 0 86399999999 None None None; ONewFrameSet TICK 2 "fs" 5; OAddFrameSet 0 0] : list (op Q)).
  exists (d ++ [t76 1600086400 (100#1); t76 1600086400 (100#1); t76 1600086420 (98#1)]), (d ++ [t76 1600086400 (100#1); t76 1600086420 (98#1)]).
  split; [echoes|]. split; [apply fine76_clean; vm_compute; reflexivity|]. vm_compute. discriminate.
Qed.
Print Assumptions C76_tick_frames_refuted.
(** A strategy that orders on every tick orders again. *)
Definition greedy76 : programs Q := fun sid cb eid _ => match cb with OnEveryTick => SCall (COpen eid (Dir BUY) 1 (Some sid) "") (fun _ _ => SDone) | _ => SDone end.
Theorem C76_orders_refuted : exists l l' : list (op Q), echo l l' /\ Forall calendar_op l' /\ clean greedy76 empty_world l' /\
  length (w_trades (run greedy76 empty_world l)) <> length (w_trades (run greedy76 empty_world l')).
Proof.
  exists (desk76 ++ [t76 1600086400 (100#1); t76 1600086400 (100#1)]), (desk76 ++ [t76 1600086400 (100#1)]). split; [echoes|].
  split; [repeat constructor; try discriminate; try lia; intros z; simpl; lia|]. split; [simpl; repeat split; left; vm_compute; reflexivity|]. vm_compute. discriminate.
Qed.
Print Assumptions C76_orders_refuted.
(** An indicator written by a user may count the quotes. *)
Definition tally76 (l : list (op Q)) : list (list (option (list Q))) :=
  map (fun fs => map (fun f => match dict_get (fr_inds f) "cnt" with Some (Some iv) => match iv_data iv with DCustom _ d => Some (map Qred d) | _ => None end | _ => None end) (fs_heap fs)) (w_fsets (run silent empty_world l)).
Theorem C76_custom_refuted : exists l l' : list (op Q), echo l l' /\ clean silent empty_world l' /\ tally76 l <> tally76 l'.
Proof.
  pose (d := [ONewEpic "A" (Some tz_UTC) 0 86399999999 None None None; ONewFrameSet MINUTE 1 "fs" 5; OAddFrameSet 0 0; OAddIndicator 0 cnt] : list (op Q)).
  exists (d ++ [t76 1600086400 (100#1); t76 1600086400 (100#1)]), (d ++ [t76 1600086400 (100#1)]).
  split; [echoes|]. split; [apply fine76_clean; vm_compute; reflexivity|]. vm_compute. discriminate.
Qed.
Print Assumptions C76_custom_refuted.
