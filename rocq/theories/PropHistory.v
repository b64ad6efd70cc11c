(** Property C72 (estrade/trade.py, trade_provider.py, strategy.py, epic.py): the record of a run is only ever added to. *)
From Coq Require Import QArith.
From Verif Require Import HistoryProofs WorldExamples.
From Verif Require Import SpecHistory.
Open Scope Z_scope.

(** Whatever a program does from a state on, callbacks sending ticks and creating objects included: trades keep what they were opened with and
    their closes, ledgers grow at the end, requests stay, epics keep their settings and registrations, frame sets their definitions. *)
Theorem C72_append_only : forall {F} `{Num F} depth (pr : rprograms F) l w, remembered w (rrun depth pr w l).
Proof. exact @rrun_kept. Qed.
Print Assumptions C72_append_only.
Theorem C72_append_only_run : forall {F} `{Num F} (pr : programs F) l w, remembered w (run pr w l).
Proof. exact @run_kept. Qed.
Print Assumptions C72_append_only_run.
(** The same between the beginning and any later point of a callback. *)
Theorem C72_inside_callbacks : forall {F} `{Num F} depth (pr : rprograms F) s w, remembered w (fst (run_rscript (rtick depth pr) w s)).
Proof. exact @rscript_kept. Qed.
Print Assumptions C72_inside_callbacks.
(** Results that are booked stay booked, in order, to the last bit. *)
Theorem C72_booked_results : forall {F} `{Num F} depth (pr : rprograms F) l (w : world F) i t, w_trades w !! i = Some t ->
  exists t', w_trades (rrun depth pr w l) !! i = Some t' /\ map (close_result t) (tr_closes t) `prefix_of` map (close_result t') (tr_closes t').
Proof. exact @later_booked. Qed.
Print Assumptions C72_booked_results.
(** A trade found closed has its final result, in every later state of every program. *)
Theorem C72_settled : forall (P : cmd Q -> Prop) pr l (w : world Q) i t, (forall c, P c -> sane_call c) -> programs_ok P pr -> Forall (op_ok P) l -> reach P w ->
  w_trades w !! i = Some t -> closed t = true ->
  exists t', w_trades (run pr w l) !! i = Some t' /\ closed t' = true /\ Qeq (result t') (result t) /\ tr_max t' = tr_max t /\ tr_min t' = tr_min t.
Proof. exact later_settled. Qed.
Print Assumptions C72_settled.

(** A BUY closed in two parts, a SELL netted against another BUY; then more of the same. *)
Definition past := [buy 0 5 0; OCmd (CClose 0 (Some 2) ""); OTick 0 (tk_s 1600000009 (103#1) (104#1)); OCmd (CClose 0 None ""); buy 0 4 0].
Definition future := [sell 0 3 0; OTick 0 (tk_s 1600000019 (90#1) (91#1)); OCmd (CClose 0 (Some 1) ""); OCmd (CClose 1 None ""); OCmd (CRun 0 0)].
Example C72_ex : let w := world_of past in let w' := run quiet w future in reach sane_call w /\
  map (fun t => (tr_oq t, length (tr_closes t), closed t)) (w_trades w) = [(5, 2%nat, true); (4, 0%nat, false)] /\
  map (fun t => (tr_oq t, length (tr_closes t), closed t)) (w_trades w') = [(5, 3%nat, true); (4, 2%nat, true); (0, 0%nat, true)] /\
  map result (w_trades w) <> map result (w_trades w') /\ (result <$> w_trades w !! 0%nat) = (result <$> w_trades w' !! 0%nat).
Proof. split; [apply world_of_reach; ops_ok|]. split; [vm_compute; reflexivity|]. split; [vm_compute; reflexivity|]. split; [vm_compute; discriminate|vm_compute; reflexivity]. Qed.
(** A close with a negative quantity re-opens a closed trade (hypothesis on the calls needed in C72_settled). *)
Theorem C72_settled_negative_quantity_refuted : exists (w : world Q) l t t', reach any_call w /\ w_trades w !! 0%nat = Some t /\ closed t = true /\
  w_trades (run quiet w l) !! 0%nat = Some t' /\ closed t' = false.
Proof.
  destruct (w_trades (world_of past) !! 0%nat) as [t|] eqn:Ht; [|vm_compute in Ht; discriminate].
  destruct (w_trades (run quiet (world_of past) [OCmd (CClose 0 (Some (-2)) "")]) !! 0%nat) as [t'|] eqn:Ht'; [|vm_compute in Ht'; discriminate].
  exists (world_of past), [OCmd (CClose 0 (Some (-2)) "")], t, t'. split; [apply world_of_reach; ops_ok|]. split; [exact Ht|].
  split; [apply (f_equal (option_map closed)) in Ht; vm_compute in Ht; now injection Ht|]. split; [exact Ht'|apply (f_equal (option_map closed)) in Ht'; vm_compute in Ht'; now injection Ht'].
Qed.
