(** Property C63 (estrade/epic.py:206-271, estrade/trade.py:112-160,211-284, estrade/trade_provider.py:63-193): prices and dates of
    what whole programs open and close. *)
From Verif Require Import MarketProofs StrategyExamples ReentrantExamples.
Open Scope Z_scope.

(** C63: in one step of a program, from any state, whatever is opened or closed is so at the last tick its epic has after the
    step, and nothing else changes in the terms of a trade. *)
Theorem C63_step : forall {F} `{Num F} pr (w : world F) o, programs_ok at_market pr -> op_ok at_market o ->
  at_last_tick (w_epics (fst (step pr w o))) (w_trades w) (w_trades (fst (step pr w o))).
Proof. exact @step_market. Qed.
Print Assumptions C63_step.
(** In a whole program, each trade was opened, and each close made, at a tick its epic accepted (or at the placeholder tick
    epics start with). *)
Theorem C63_run : forall {F} `{Num F} pr l, programs_ok at_market pr -> Forall (op_ok at_market) l ->
  forall i (t : trade F), w_trades (run pr empty_world l) !! i = Some t ->
  (exists tk, tk ∈ fake_tick :: accepted pr empty_world l (tr_epic t) /\ opened_at tk t) /\
  (forall c, c ∈ tr_closes t -> exists tk, tk ∈ fake_tick :: accepted pr empty_world l (tr_epic t) /\ closed_at tk t (terms c)).
Proof. exact @run_market. Qed.
Print Assumptions C63_run.
(** The dates of a trade opened after the first tick of its epic are those of the epic's clock and in order: opening, closes,
    last tick. *)
Theorem C63_order : forall {F} `{Num F} (P : cmd F -> Prop) (w : world F) i t e, (forall c, P c -> at_market c) -> reach P w ->
  w_trades w !! i = Some t -> w_epics w !! tr_epic t = Some e -> ar_tz (tr_dt t) = ep_tz e -> well_dated e t.
Proof. exact @reach_chronological. Qed.
Print Assumptions C63_order.
(** Also with callbacks that send ticks. *)
Theorem C63_order_reentrant : forall {F} `{Num F} pr d l (w : world F) i t e, rprograms_ok at_market pr -> Forall (op_ok at_market) l ->
  reach at_market w -> w_trades (rrun d pr w l) !! i = Some t -> w_epics (rrun d pr w l) !! tr_epic t = Some e ->
  ar_tz (tr_dt t) = ep_tz e -> well_dated e t.
Proof. intros F H pr d l w i t e Hp Hl Hr. apply (reach_chronological at_market); [auto|now apply rrun_reach]. Qed.
Print Assumptions C63_order_reentrant.

(** A trade bought at the ask of the first tick, sold in two parts at the bids of the second and third. *)
Definition l63 : list (op Q) := ops_base ++ [buy 0 5 0; OTick 0 (tk_s 1600000060 (102#1) (103#1)); OCmd (CClose 0 (Some 2) "");
  OTick 0 (tk_s 1600000120 (104#1) (105#1)); OCmd (CClose 0 None "")].
Definition w63 : world Q := run quiet empty_world l63.
Example C63_ex : programs_ok at_market quiet /\ Forall (op_ok at_market) l63 /\
  accepted quiet empty_world l63 0 = [tk_s 1600000000 (100#1) (101#1); tk_s 1600000060 (102#1) (103#1); tk_s 1600000120 (104#1) (105#1)] /\
  map (fun t => (tr_ov t, tr_dt t, map terms (tr_closes t))) (w_trades w63) =
    [(101#1, dt_s 1600000000, [(102#1, 2, dt_s 1600000060); (104#1, 3, dt_s 1600000120)])] /\
  map (fun t => ar_tz (tr_dt t)) (w_trades w63) = map ep_tz (firstn 1 (w_epics w63)).
Proof. split; [apply quiet_ok|]. split; [repeat constructor|]. split; [vm_compute; reflexivity|]. split; vm_compute; reflexivity. Qed.

(** The price of a close of nothing is that of an earlier tick: closing a closed trade again records its price when it was closed. *)
Theorem C63_closed_again_refuted : exists (w : world Q) t e c, reach at_market w /\ w_trades w !! 0%nat = Some t /\
  w_epics w !! tr_epic t = Some e /\ last (tr_closes t) = Some c /\ tc_dt c = tk_dt (ep_last e) /\ tc_qty c = 0 /\
  ~ (tc_value c == exit_price (tr_dir t) (ep_last e))%Q.
Proof.
  set (w := world_of [buy 0 5 0; OCmd (CClose 0 None ""); OTick 0 (tk_s 1600000060 (102#1) (103#1)); OCmd (CClose 0 None "")]).
  let t := eval vm_compute in (w_trades w !! 0%nat) in let e := eval vm_compute in (w_epics w !! 0%nat) in
  match t with Some ?t => match e with Some ?e => let c := eval vm_compute in (last (tr_closes t)) in match c with Some ?c => exists w, t, e, c end end end.
  split; [apply world_of_reach; ops_ok|]. split; [vm_compute; reflexivity|]. split; [vm_compute; reflexivity|].
  split; [vm_compute; reflexivity|]. split; [vm_compute; reflexivity|]. split; [vm_compute; reflexivity|]. intros E. vm_compute in E. discriminate E.
Qed.
Print Assumptions C63_closed_again_refuted.
