(** Properties C69 and C70 (the whole program): units do not matter, charts do not influence trading. *)
From Verif Require Import UnitsExamples.
From Coq Require Import QArith.
Open Scope Z_scope.

(** C69: a program run in other units - prices multiplied and moved, quantities multiplied, with a negative factor the market upside
    down and BUY and SELL exchanged - goes through corresponding states, however its frame sets and indicators differ. *)
Theorem C69_converted : forall u, units_ok u -> forall pr pr' l l', programs_in u pr pr' -> ops_in u pr empty_world l l' ->
  charts_fine pr empty_world l -> charts_fine pr' empty_world l' -> converted u (run pr empty_world l) (run pr' empty_world l').
Proof. exact run_converted. Qed.
Print Assumptions C69_converted.
(** The quantities of corresponding trades are multiplied alike, and their results by the factor of the prices times that of the quantities. *)
Theorem C69_trade : forall u t t', units_ok u -> trade_in u t t' ->
  closed_quantities t' = u_size u * closed_quantities t /\ opened_quantities t' = u_size u * opened_quantities t /\ closed t' = closed t /\
  (result t' == u_gain u * result t)%Q /\ (opened_result t' == u_gain u * opened_result t)%Q /\ (closed_result t' == u_gain u * closed_result t)%Q.
Proof. exact trade_converted. Qed.
Print Assumptions C69_trade.
(** So is the result of a strategy; its profit factor is unchanged when the losses are at least 1 in both units (or the results do not
    change), and multiplied like the results when there are no losses. *)
Theorem C69_strategy : forall u w w' s a, units_ok u -> converted u w w' -> (strategy_result w' s a == u_gain u * strategy_result w s a)%Q.
Proof. exact strategy_converted. Qed.
Print Assumptions C69_strategy.
Theorem C69_profit_factor : forall u w w' s a, units_ok u -> converted u w w' -> let rs := results_of w (sel_trades s a) in
  exists v v', profit_factor w s a = Ok v /\ profit_factor w' s a = Ok v' /\
    (losses rs == 0 -> v' == u_gain u * v)%Q /\ (1 <= losses rs -> 1 <= u_gain u * losses rs -> v' == v)%Q /\ (u_gain u == 1 -> v' == v)%Q.
Proof. exact pf_converted. Qed.
Print Assumptions C69_profit_factor.

Ltac in_units := split; [vm_compute; reflexivity|split; [right; split; (match goal with |- cents ?v => let z := eval vm_compute in (Qnum v * 100 / Zpos (Qden v)) in exists z; vm_compute; reflexivity end)|right; split; intros E; vm_compute in E; discriminate E]].
(** A BUY of 2 of which 1 is closed, with charts; the SELL of 10 of which 5 are closed in the upturned market, without charts. *)
Example C69_ex : units_ok upturned /\ programs_in upturned (trader BUY 2 1) (trader SELL 10 5) /\
  ops_in upturned (trader BUY 2 1) empty_world (charted ++ feed quotes) (stage ++ feed quotes') /\
  charts_fine (trader BUY 2 1) empty_world (charted ++ feed quotes) /\ charts_fine (trader SELL 10 5) empty_world (stage ++ feed quotes') /\
  map (fun t => Qred (result t)) (w_trades (run (trader BUY 2 1) empty_world (charted ++ feed quotes))) = [(4#1)%Q] /\
  map (fun t => Qred (result t)) (w_trades (run (trader SELL 10 5) empty_world (stage ++ feed quotes'))) = [(60#1)%Q].
Proof.
  split; [split; [intros E; discriminate E|reflexivity]|]. split; [exact (trader_in upturned BUY 2 1)|]. split; [|split; [|split; [|split; vm_compute; reflexivity]]].
  - unfold charted. rewrite <- app_assoc. apply stage_in. do 4 (apply oi_left; [reflexivity|]).
    do 4 (apply oi_tick; [split; [reflexivity|split; in_units]|]). apply oi_nil.
  - repeat (split; [first [exact I|vm_compute; reflexivity]|]). exact I.
  - repeat (split; [first [exact I|vm_compute; reflexivity]|]). exact I.
Qed.

(** A profit factor of 1 becomes 1/2 when the quantities are divided by 100: losses below 1 are taken for 1. *)
Theorem C69_profit_factor_refuted : exists u l l' s v v', units_ok u /\ ops_in u quiet empty_world l l' /\
  w_strats (run quiet empty_world l) !! 0%nat = Some s /\ profit_factor (run quiet empty_world l) s TNone = Ok v /\ profit_factor (run quiet empty_world l') s TNone = Ok v' /\
  (v == 1#2)%Q /\ (v' == 1)%Q.
Proof.
  exists {| u_price := 1; u_offset := 0; u_size := 100 |}, (halves 1), (halves 100). eexists _, _, _. split; [split; [intros E; discriminate E|reflexivity]|]. split.
  - unfold halves. apply oi_same; [exact I|]. apply oi_same; [exact I|].
    assert (forall u k k' r b, call_in {| u_price := 1; u_offset := 0; u_size := 100 |} u (COpen 0 (Dir BUY) k r b) (COpen 0 (Dir BUY) k' r b) \/ k' <> 100 * k) as Ho.
    { intros u k k' r b. destruct (decide (k' = 100 * k)) as [->|Hn]; [left|now right]. split; [exact (ci_open {| u_price := 1; u_offset := 0; u_size := 100 |} 0 (Dir BUY) k r b)|left; reflexivity]. }
    assert (forall k, price_in {| u_price := 1; u_offset := 0; u_size := 100 |} k k) as Hp. { intros k. split; [simpl; ring|]. split; left; reflexivity. }
    do 2 (apply oi_tick; [split; [reflexivity|split; apply Hp]|]; repeat (apply oi_cmd; [first [exact (conj (ci_close {| u_price := 1; u_offset := 0; u_size := 100 |} 0 None "") I)|destruct (Ho (run quiet empty_world []) 1 100 (Some 0%nat) "") as [[Hc _]|Hn]; [split; [exact Hc|left; reflexivity]|exfalso; now apply Hn]]|])).
    apply oi_tick; [split; [reflexivity|split; apply Hp]|]. apply oi_cmd; [exact (conj (ci_close {| u_price := 1; u_offset := 0; u_size := 100 |} 1 None "") I)|]. apply oi_nil.
  - split; [vm_compute; reflexivity|]. split; [vm_compute; reflexivity|]. split; [vm_compute; reflexivity|]. split; vm_compute; reflexivity.
Qed.
(** Quotes finer than cents: 40 points of an instrument quoted with four decimals give nothing, the same quotes multiplied by 10000 give 40. *)
Theorem C69_fine_quotes_refuted : exists (k : Q) (t t' : trade Q), k == 10000 /\ w_trades (run quiet empty_world (pips 1)) !! 0%nat = Some t /\ w_trades (run quiet empty_world (pips k)) !! 0%nat = Some t' /\
  tr_ov t' == k * tr_ov t /\ tr_cv t' == k * tr_cv t /\ result t == 0 /\ result t' == 40.
Proof.
  exists (10000#1)%Q. eexists _, _. split; [reflexivity|]. split; [vm_compute; reflexivity|]. split; [vm_compute; reflexivity|]. split; [vm_compute; reflexivity|]. split; [vm_compute; reflexivity|]. split; vm_compute; reflexivity.
Qed.

(** C70: for strategies that do not look at frame sets and indicators, these change nothing as long as they raise nothing: the trades, books,
    strategies, epics and callbacks are those of the program without its frame sets. *)
Theorem C70_removed : forall {F} `{Num F} (pr : programs F) l, chart_blind pr -> charts_fine pr empty_world l ->
  no_charts (run pr empty_world l) = no_charts (run pr empty_world (without_charts l)).
Proof. exact @charts_removed. Qed.
Print Assumptions C70_removed.
(** Two programs that differ in their charts only. *)
Theorem C70_others : forall {F} `{Num F} (pr : programs F) l l', chart_blind pr -> without_charts l = without_charts l' ->
  charts_fine pr empty_world l -> charts_fine pr empty_world l' -> no_charts (run pr empty_world l) = no_charts (run pr empty_world l').
Proof. exact @chart_runs. Qed.
Print Assumptions C70_others.
Example C70_ex : chart_blind (trader BUY 2 1) /\ charts_fine (trader BUY 2 1) empty_world (charted ++ feed quotes) /\
  without_charts (charted ++ feed quotes) = stage ++ feed quotes /\ length (w_log (run (trader BUY 2 1) empty_world (charted ++ feed quotes))) = 4%nat.
Proof.
  split; [apply trader_blind|]. split; [repeat (split; [first [exact I|vm_compute; reflexivity]|]); exact I|]. split; vm_compute; reflexivity.
Qed.
