(** Results of trades and strategies on Python floats: C06-C10, C19. *)
From Coq Require Import Reals.
From Flocq Require Import Core BinarySingleNaN.
From Verif Require Import FloatTradeExamples SpecFloatTrade SpecTrade World.
Open Scope R_scope.

(** C06 on floats: prices finite and at most 2^1000: the result of a fully closed trade does not move any more. *)
Theorem C06_closed_result_frozen_b64 : forall (t t' : trade b64), closed t = true -> rtc trade_call t t' -> within 1000 (tr_ov t) ->
  Forall (fun c => within 1000 (tc_value c)) (tr_closes t') -> is_finite (result t) = true -> is_finite (result t') = true /\ real (result t') = real (result t).
Proof. exact closed_frozen_b64. Qed.
Print Assumptions C06_closed_result_frozen_b64.
(** Bought at 0.02, closed at 0.85, then closed again at 0.86 (for nothing). *)
Example C06_ex_b64 : closed ftrade_full = true /\ is_finite (result ftrade_full) = true /\ rtc trade_call ftrade_full ftrade_again /\ length (tr_closes ftrade_again) = 2%nat /\
  Forall (fun c => within 1000 (tc_value c)) (tr_closes ftrade_again) /\ feqb (result ftrade_again) (dec 332) = true.
Proof. exact ftrade_full_ex. Qed.

(** C08 on floats: a trade opened from quotes of k and j cents takes the right sides; its result is minus the spread times the quantity, up to
    2^-19 (the valuation price is not 0). *)
Theorem C08_open_b64 : forall (tk : tick b64) k j e d q s ref t, decimal k (tk_bid tk) -> decimal j (tk_ask tk) -> (Z.abs k <= 100 * 2 ^ 30)%Z -> (Z.abs j <= 100 * 2 ^ 30)%Z ->
  (Z.abs q <= 2 ^ 53)%Z -> (Z.abs ((j - k) * q) <= 100 * 2 ^ 30)%Z -> (match d with BUY => k | SELL => j end <> 0)%Z -> open_from_tick tk e (Dir d) q s ref = Ok t ->
  decimal (match d with BUY => j | SELL => k end) (tr_ov t) /\ decimal (match d with BUY => k | SELL => j end) (tr_cv t) /\ tr_oq t = q /\ tr_dt t = tk_dt tk /\
  is_finite (result t) = true /\ Rabs (real (result t) - - IZR ((j - k) * q) / 100) <= / 2 ^ 19.
Proof. exact open_b64. Qed.
Print Assumptions C08_open_b64.
Example C08_ex_b64 : exists t, open_from_tick (ftick 1030 1035) 0 (Dir SELL) 2 None "t" = Ok t /\ decimal 1030 (tk_bid (ftick 1030 1035)) /\ decimal 1035 (tk_ask (ftick 1030 1035)) /\
  feqb (result t) (dec (-10)) = true.
Proof. eexists. split; [reflexivity|]. split; [apply dec_decimal; easy|]. split; [apply dec_decimal; easy|vm_compute; reflexivity]. Qed.

(** C07 on floats: a trade of quantity [q] opened, updated and closed from quotes of at most [b] cents, 2 b q <= 100 * 2^30, at most
    900 closes: every result observed along the history is between min_result - 0.002 and max_result + 0.002. *)
Theorem C07_envelope_near_b64 : forall b q, (0 < b)%Z -> (0 < q)%Z -> (2 * b * q <= 100 * 2 ^ 30)%Z -> forall t l, priced b q t l -> (Z.of_nat (length (tr_closes t)) <= 900)%Z ->
  is_finite (tr_max t) = true /\ is_finite (tr_min t) = true /\
  forall x, x ∈ l -> is_finite x = true /\ real (tr_min t) - 2 / 1000 <= real x <= real (tr_max t) + 2 / 1000.
Proof. exact envelope_near. Qed.
Print Assumptions C07_envelope_near_b64.
(** C09 on floats: a tick-driven close moves the result by at most 0.002. *)
Theorem C09_result_near_b64 : forall b q, (0 < b)%Z -> (0 < q)%Z -> (2 * b * q <= 100 * 2 ^ 30)%Z -> forall t l tk n ref t' c,
  cent_quotes b tk -> qty_ok n -> priced b q t l -> close_from_tick t tk n ref = Ok (t', c) -> (Z.of_nat (length (tr_closes t')) <= 900)%Z ->
  is_finite (result t') = true /\ Rabs (real (result t') - real (result (update_from_tick t tk))) <= 2 / 1000.
Proof. exact close_near. Qed.
Print Assumptions C09_result_near_b64.
(** BUY 4 at 0.02, 3 closed at 0.85: the result exceeds max_result by float noise. *)
Example C07_near_ex : priced 100 4 ftrade_closed [result ftrade_closed; result (update_from_tick ftrade_open (ftick 85 86)); result ftrade_open] /\
  length (tr_closes ftrade_closed) = 1%nat /\ fltb (tr_max ftrade_closed) (result ftrade_closed) = true /\ (2 * 100 * 4 <= 100 * 2 ^ 30)%Z.
Proof. split; [exact fpriced|]. split; [vm_compute; reflexivity|]. split; [vm_compute; reflexivity|discriminate]. Qed.

(** C10 on floats: a trade priced in cents, closed by positive quantities (at most 900 closes, 2^53 units, gross moves up to 2^30): the
    average result of its closed part is defined, finite and between the averages of two of its closes. *)
Theorem C10_averages_b64 : forall (t : trade b64) z g, cent_pnl t z g -> (g <= 100 * 2 ^ 30)%Z -> Forall (fun c => 0 < tc_qty c)%Z (tr_closes t) -> tr_closes t <> [] ->
  (closed_quantities t <= 2 ^ 53)%Z -> (Z.of_nat (length (tr_closes t)) <= 900)%Z ->
  exists v c1 c2, closed_result_avg t = Ok v /\ c1 ∈ tr_closes t /\ c2 ∈ tr_closes t /\ is_finite v = true /\ real (close_result_avg t c1) <= real v <= real (close_result_avg t c2).
Proof. exact averages_cents. Qed.
Print Assumptions C10_averages_b64.
(** 4 units bought at 0.02, 1 closed at 0.85 and 2 at 0.86: averages 0.83 and 0.84, overall 0.84. *)
Example C10_ex_b64 : cent_pnl ftrade_two 335 335 /\ length (tr_closes ftrade_two) = 2%nat /\ map tc_qty (tr_closes ftrade_two) = [1; 2]%Z /\
  match closed_result_avg ftrade_two with Ok v => feqb v (dec 84) = true | Err _ => False end.
Proof. exact ftrade_two_ex. Qed.

(** C19 on floats: trades priced in cents with at most 900 closes in all (each trade counting for 4 more) and gross moves up to 2^30 units:
    the result of the strategy is the float of the exact sum of the profits and losses. *)
Theorem C19_result_b64 : forall (w : world b64) s a ts ps, Forall2 (fun i t => w_trades w !! i = Some t) (sel_trades s a) ts -> Forall2 (fun t p => cent_pnl t (fst p) (snd p)) ts ps ->
  (SpecTrade.total (map (fun t => Z.of_nat (length (tr_closes t)) + 4) ts) <= 900)%Z -> (SpecTrade.total (map snd ps) <= 100 * 2 ^ 30)%Z ->
  decimal (SpecTrade.total (map fst ps)) (strategy_result w s a).
Proof. exact result_cents. Qed.
Print Assumptions C19_result_b64.
(** 3.52 (3 of 4 closed) and 1.26: the result of the first trade is not the float of 3.52, that of the strategy is the float of 4.78. *)
Example C19_ex_b64 : w_trades fworld !! 0%nat = Some (ftr 0) /\ w_trades fworld !! 1%nat = Some (ftr 1) /\ cent_pnl (ftr 0) 352 352 /\ cent_pnl (ftr 1) 126 126 /\
  feqb (result (ftr 0)) (dec 352) = false /\ match w_strats fworld with s :: _ => st_trades s = [0; 1]%nat /\ feqb (strategy_result fworld s TNone) (dec 478) = true | [] => False end.
Proof. exact fworld_ex. Qed.

(** The profit factor of up to 2^20 such trades is a finite number, not negative. *)
Theorem C19_profit_factor_b64 : forall (w : world b64) s a ts ps, Forall2 (fun i t => w_trades w !! i = Some t) (sel_trades s a) ts -> Forall2 (fun t p => cent_pnl t (fst p) (snd p)) ts ps ->
  Forall (fun t => Z.of_nat (length (tr_closes t)) <= 900)%Z ts -> Forall (fun p => snd p <= 100 * 2 ^ 30)%Z ps -> (Z.of_nat (length ts) < 2 ^ 20)%Z ->
  exists v, profit_factor w s a = Ok v /\ is_finite v = true /\ 0 <= real v.
Proof. exact profit_factor_cents. Qed.
Print Assumptions C19_profit_factor_b64.
