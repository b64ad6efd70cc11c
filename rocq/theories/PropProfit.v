(** Property C66 (estrade/strategy.py:120-225, estrade/trade.py:112-451, estrade/epic.py:206-330): where the result of a strategy comes
    from.  Exact arithmetic (rationals). *)
From Verif Require Import ProfitExamples.
Open Scope Z_scope.

(** The result of a closed trade is the sum over its closes of the quantity times the difference of the quotes of two ticks accepted
    by its epic: the one at which it was opened, the one at which that quantity was closed (ask to bid for a BUY, bid to ask for a SELL). *)
Theorem C66_trade : forall (pr : programs Q) l, programs_ok market_call pr -> Forall (op_ok market_call) l ->
  forall i t, w_trades (run pr empty_world l) !! i = Some t -> Forall cent_quotes (accepted pr empty_world l (tr_epic t)) -> closed t = true ->
  exists fs, fills_of (fake_tick :: accepted pr empty_world l (tr_epic t)) t fs /\ (result t == sum_of (map fl_gain fs))%Q.
Proof. exact run_trade_fills. Qed.
Print Assumptions C66_trade.
(** The result of a strategy without open trades is the sum over all its fills; nothing is lost in rounding. *)
Theorem C66_strategy : forall (pr : programs Q) l sid s, programs_ok market_call pr -> Forall (op_ok market_call) l -> w_strats (run pr empty_world l) !! sid = Some s ->
  (forall e, Forall cent_quotes (accepted pr empty_world l e)) -> flat_book (run pr empty_world l) s ->
  exists fss, Forall2 (fun i fs => exists t, w_trades (run pr empty_world l) !! i = Some t /\ fills_of (fake_tick :: accepted pr empty_world l (tr_epic t)) t fs) (st_trades s) fss /\
    (strategy_result (run pr empty_world l) s TNone == sum_of (map fl_gain (concat fss)))%Q.
Proof. exact run_strategy_fills. Qed.
Print Assumptions C66_strategy.
(** No strategy earns more per unit than the highest bid less the lowest ask, nor loses more than the highest ask less the lowest bid. *)
Theorem C66_bounds : forall bl bh al ah, cents bl -> cents bh -> cents al -> cents ah -> forall (pr : programs Q) l w sid s,
  programs_ok market_call pr -> Forall (quoted_op bl bh al ah) l -> reach market_call w -> w_trades w = [] ->
  (forall e ep, w_epics w !! e = Some ep -> quoted bl bh al ah (ep_last ep)) -> w_strats (run pr w l) !! sid = Some s -> flat_book (run pr w l) s ->
  ((bl - ah) * inject_Z (units (run pr w l) s) <= strategy_result (run pr w l) s TNone <= (bh - al) * inject_Z (units (run pr w l) s))%Q.
Proof. exact strategy_bounds. Qed.
Print Assumptions C66_bounds.
(** While the quotes do not move, every strategy loses exactly the spread on every unit it trades. *)
Theorem C66_flat_market : forall b a (pr : programs Q) l w sid s, cents b -> cents a -> programs_ok market_call pr -> Forall (quoted_op b b a a) l ->
  reach market_call w -> w_trades w = [] -> (forall e ep, w_epics w !! e = Some ep -> quoted b b a a (ep_last ep)) ->
  w_strats (run pr w l) !! sid = Some s -> flat_book (run pr w l) s ->
  (strategy_result (run pr w l) s TNone == - ((a - b) * inject_Z (units (run pr w l) s)))%Q.
Proof. exact flat_market. Qed.
Print Assumptions C66_flat_market.

(** Two ticks at 100/101: 2 bought and sold, 1 sold and bought back, twice. *)
Example C66_flat_ex : cents (100#1) /\ cents (101#1) /\ programs_ok market_call churn /\ Forall (quoted_op (100#1) (100#1) (101#1) (101#1)) l66 /\ reach market_call w66 /\
  w_trades w66 = [] /\ (forall e ep, w_epics w66 !! e = Some ep -> quoted (100#1) (100#1) (101#1) (101#1) (ep_last ep)) /\
  w_strats (run churn w66 l66) !! 0%nat = Some (s66 l66) /\ flat_book (run churn w66 l66) (s66 l66) /\ units (run churn w66 l66) (s66 l66) = 6 /\
  (strategy_result (run churn w66 l66) (s66 l66) TNone == -6)%Q.
Proof.
  split; [now exists 10000|]. split; [now exists 10100|]. split; [exact churn_ok|]. split; [repeat constructor; vm_compute; discriminate|]. split; [exact w66_reach|].
  split; [vm_compute; reflexivity|]. split; [exact w66_quoted|]. split; [vm_compute; reflexivity|]. split; [apply flat_book_b; vm_compute; reflexivity|].
  split; vm_compute; reflexivity.
Qed.
(** The market rises while 4 units are held; the callbacks sell 3 of them, and close the rest with their own. *)
Example C66_ex : programs_ok market_call churn /\ Forall (op_ok market_call) (ops66 ++ m66) /\
  (forall e, Forall cent_quotes (accepted churn empty_world (ops66 ++ m66) e)) /\ flat_book (run churn empty_world (ops66 ++ m66)) (s66 m66) /\
  w_strats (run churn empty_world (ops66 ++ m66)) !! 0%nat = Some (s66 m66) /\
  map Qred (results_of (run churn empty_world (ops66 ++ m66)) (st_trades (s66 m66))) = [-2#1; -1#1; 16#1; -2#1]%Q /\
  (strategy_result (run churn empty_world (ops66 ++ m66)) (s66 m66) TNone == 11)%Q.
Proof.
  split; [exact churn_ok|]. split; [repeat constructor|]. split; [intros e; apply accepted_cents; repeat (apply Forall_cons; split; [first [exact I|apply cent_s]|]); constructor|].
  split; [apply flat_book_b; vm_compute; reflexivity|]. split; [vm_compute; reflexivity|]. split; vm_compute; reflexivity.
Qed.

(** Without a first tick before the first trade this is false: a trade opened before the first tick of its epic has the price 0. *)
Theorem C66_early_trade_refuted : exists (pr : programs Q) l w s, programs_ok market_call pr /\ Forall (quoted_op (100#1) (100#1) (101#1) (101#1)) l /\
  reach market_call w /\ w_trades w = [] /\ w_strats (run pr w l) !! 0%nat = Some s /\ flat_book (run pr w l) s /\
  (strategy_result (run pr w l) s TNone == 100)%Q /\ units (run pr w l) s = 1.
Proof.
  exists quiet, early66, (run quiet empty_world first66), (strat_of (run quiet (run quiet empty_world first66) early66) 0).
  split; [apply quiet_ok|]. split; [repeat constructor; vm_compute; discriminate|]. split; [apply run_reach; [apply quiet_ok|repeat constructor|apply reach_empty]|].
  split; [vm_compute; reflexivity|]. split; [vm_compute; reflexivity|]. split; [apply flat_book_b; vm_compute; reflexivity|]. split; vm_compute; reflexivity.
Qed.
Print Assumptions C66_early_trade_refuted.
