(** C07 for whole programs. *)
From Coq Require Import QArith.
From Verif Require Import EnvelopeProofs WorldExamples.
Open Scope Z_scope.

(** In every state of every program that opens and closes at the quotes, max_result and min_result of every trade are the extrema of the results it
    had when ordered and after each revaluation since; only a backtest provider lowers the ordered quantity. *)
Theorem C07_program : forall (w : world Q) i t, reach quoted_call w -> w_trades w !! i = Some t -> exists q t0 l, created q t0 /\ watched (set_oq t0 (tr_oq t)) t l /\
  is_max (tr_max t) (l ++ [result t0]) /\ is_min (tr_min t) (l ++ [result t0]) /\ (tr_oq t = q \/ 0 <= tr_oq t < q /\ backtested w t).
Proof. exact program_extrema. Qed.
Print Assumptions C07_program.
(** They bracket the result at all times on other providers, and once something was closed on backtest ones. *)
Theorem C07_program_bracket : forall (w : world Q) i t, reach quoted_call w -> w_trades w !! i = Some t -> ~ backtested w t \/ tr_closes t <> [] /\ tr_oq t <> 0 ->
  (tr_min t <= result t <= tr_max t)%Q.
Proof. exact program_bracket. Qed.
Print Assumptions C07_program_bracket.
(** On every provider they bracket the result from the first tick after the opening on, whatever the program does next. *)
Theorem C07_program_ticked : forall pr l1 eid tk l2 (e : epic Q) i t t', programs_ok quoted_call pr -> Forall (op_ok quoted_call) (l1 ++ l2) -> let w := run pr empty_world l1 in
  w_epics w !! eid = Some e -> registered w (ep_prov e) i -> w_trades w !! i = Some t -> closed t = false -> snd (step pr w (OTick eid tk)) = Ok () ->
  w_trades (run pr empty_world (l1 ++ OTick eid tk :: l2)) !! i = Some t' -> (tr_min t' <= result t' <= tr_max t')%Q.
Proof. exact program_ticked. Qed.
Print Assumptions C07_program_ticked.

(** 5 sold against 2 bought: 3 remain, with the extrema of 5; the next tick brings them in order. *)
Definition shop07 : list (op Q) := [ONewProvider PBacktests; ONewStrategy "s0"; ONewEpic "A" (Some tz_UTC) 0 86399999999 None None (Some 0%nat);
  OTick 0 (tk_s 1600000000 (100#1) (101#1)); OAddStrategy 0 0; buy 0 2 0; sell 0 5 0].
Definition figures (l : list (op Q)) : list (Q * Q * Q) := map (fun t => (Qred (tr_min t), Qred (result t), Qred (tr_max t))) (w_trades (run quiet empty_world l)).
Example C07_program_ex : programs_ok quoted_call quiet /\ Forall (op_ok quoted_call) shop07 /\
  figures shop07 = [((-2)%Q, (-2)%Q, (-2)%Q); ((-5)%Q, (-3)%Q, (-5)%Q)] /\
  figures (shop07 ++ [OTick 0 (tk_s 1600000001 (102#1) (103#1))]) = [((-2)%Q, (-2)%Q, (-2)%Q); ((-9)%Q, (-9)%Q, (-5)%Q)] /\
  figures (shop07 ++ [OTick 0 (tk_s 1600000001 (98#1) (99#1))]) = [((-2)%Q, (-2)%Q, (-2)%Q); ((-5)%Q, 3%Q, 3%Q)].
Proof.
  split; [intros sid cb eid w; exact I|]. split; [repeat constructor|]. split; [vm_compute; reflexivity|]. split; vm_compute; reflexivity.
Qed.
Example C07_program_ticked_ex : let w := run quiet empty_world shop07 in registered w 0 1 /\ option_map closed (w_trades w !! 1%nat) = Some false /\
  option_map ep_prov (w_epics w !! 0%nat) = Some 0%nat /\ snd (step quiet w (OTick 0 (tk_s 1600000001 (102#1) (103#1)))) = Ok ().
Proof. split; [eexists; split; [vm_compute; reflexivity|simpl; set_solver]|]. split; [vm_compute; reflexivity|]. split; vm_compute; reflexivity. Qed.
