(** Properties C03-C10 (estrade/trade.py). *)
From Verif Require Import TradeProofs.
Open Scope Z_scope.

(** A running example: BUY 5 at 100.10/100.00, updates and partial closes. *)
Definition dt_ex : arrow := arrow_of_utc tz_UTC 1600000000000000.
Definition tk_ex (b a : Q) : tick Q := {| tk_dt := dt_ex; tk_bid := b; tk_ask := a |}.
Definition trade_ex : trade Q := Eval vm_compute in trade_init BUY 5 (10010#100) dt_ex 0 (Some (100#1)%Q) (Some 0%nat) "t".
Definition after {A} (r : res (A * tclose Q)) (d : A) : A := match r with Ok (t, _) => t | Err _ => d end.
Definition trade_ex2 : trade Q := Eval vm_compute in after (close_from_tick trade_ex (tk_ex (10100#100) (10110#100)) (Some 2) "c") trade_ex.
Definition trade_ex3 : trade Q := Eval vm_compute in after (close_from_tick trade_ex2 (tk_ex (9900#100) (9910#100)) None "c") trade_ex.

Lemma trade_ex_created : created 5 trade_ex. Proof.
  assert (trade_ex = trade_init BUY 5 (10010#100) dt_ex 0 (Some (100#1)%Q) (Some 0%nat) "t") as -> by (vm_compute; reflexivity).
  constructor.
Qed.
Lemma trade_ex2_run : rtc trade_call trade_ex trade_ex2.
Proof.
  apply rtc_once.
  destruct (close_from_tick trade_ex (tk_ex (10100#100) (10110#100)) (Some 2) "c") as [[t c]|e] eqn:E.
  - assert (trade_ex2 = t) as -> by (vm_compute in E; now injection E). eapply call_close_tick; [|exact E]. simpl. lia.
  - exfalso. vm_compute in E. discriminate.
Qed.
Lemma trade_ex3_run : rtc trade_call trade_ex trade_ex3.
Proof.
  eapply rtc_r; [apply trade_ex2_run|].
  destruct (close_from_tick trade_ex2 (tk_ex (9900#100) (9910#100)) None "c") as [[t c]|e] eqn:E.
  - assert (trade_ex3 = t) as -> by (vm_compute in E; now injection E). eapply call_close_tick; [|exact E]. simpl. lia.
  - exfalso. vm_compute in E. discriminate.
Qed.

(** C03: quantity accounting along every history of updates and non-negative closes; every arithmetic. *)
Theorem C03_quantity_accounting : forall {F} `{Num F} q (t t' : trade F),
  0 <= q -> created q t -> rtc trade_call t t' ->
  tr_oq t' = q /\
  opened_quantities t' + closed_quantities t' = q /\
  0 <= opened_quantities t' <= q /\
  (forall i c, tr_closes t' !! i = Some c -> 0 <= tc_qty c <= q - booked (take i (tr_closes t'))) /\
  (forall t'', trade_call t' t'' -> opened_quantities t'' <= opened_quantities t').
Proof. exact @quantity_accounting. Qed.
Print Assumptions C03_quantity_accounting.

(** closed_quantities is the sum of the recorded quantities. *)
Theorem C03_closed_is_booked : forall {F} (t : trade F), closed_quantities t = booked (tr_closes t).
Proof. exact @closed_quantities_booked. Qed.
Print Assumptions C03_closed_is_booked.

Example C03_ex : created 5 trade_ex /\ rtc trade_call trade_ex trade_ex2 /\
  opened_quantities trade_ex2 = 3 /\ closed_quantities trade_ex2 = 2.
Proof. split; [apply trade_ex_created|]. split; [apply trade_ex2_run|]. split; vm_compute; reflexivity. Qed.

(** C04: default and clamping of the closed quantity, and what a close leaves alone. *)
Theorem C04_close_quantity : forall {F} (t : trade F) v d q ref t' c,
  close t v d q ref = Ok (t', c) ->
  (q = None \/ q = Some 0 -> tc_qty c = opened_quantities t) /\
  (forall z, q = Some z -> 0 < z -> tc_qty c = Z.min z (opened_quantities t)) /\
  opened_quantities t' = opened_quantities t - tc_qty c /\
  tr_closes t' = tr_closes t ++ [c] /\ tc_value c = v /\ d = DtAware (tc_dt c) /\
  tr_ov t' = tr_ov t /\ tr_dir t' = tr_dir t /\ tr_oq t' = tr_oq t /\ tr_epic t' = tr_epic t /\
  tr_strat t' = tr_strat t /\ tr_dt t' = tr_dt t.
Proof. exact @close_spec. Qed.
Print Assumptions C04_close_quantity.

Example C04_ex : exists t' c, close trade_ex2 (101#1)%Q (DtAware dt_ex) (Some 7) "x" = Ok (t', c) /\ tc_qty c = 3.
Proof. eexists _, _. split; [vm_compute; reflexivity|vm_compute; reflexivity]. Qed.

(** C04: a fully closed trade stays fully closed; later closes record quantity 0. *)
Theorem C04_closed_stays_closed : forall {F} `{Num F} (t t' : trade F),
  closed t = true -> rtc trade_call t t' ->
  closed t' = true /\ opened_quantities t' = 0 /\
  Forall (fun c => tc_qty c = 0) (drop (length (tr_closes t)) (tr_closes t')).
Proof. exact @closed_later_zero. Qed.
Print Assumptions C04_closed_stays_closed.

Example C04_closed_ex : closed trade_ex3 = true /\ exists t', trade_call trade_ex3 t' /\ length (tr_closes t') = 3%nat.
Proof.
  split; [reflexivity|]. eexists. split; [|shelve].
  eapply (call_close _ (7#1)%Q (DtAware dt_ex) (Some 4) "y"); [simpl; lia|]. reflexivity.
  Unshelve. reflexivity.
Qed.

(** C04: with a negative quantity a closed trade is reopened (the code checks no sign). *)
Theorem C04_negative_close_refuted : exists (t t' : trade Q) c,
  created 5 t /\ (exists t0, rtc trade_call t t0 /\ closed t0 = true /\
    close t0 (100#1)%Q (DtAware dt_ex) (Some (-3)) "z" = Ok (t', c)) /\ closed t' = false /\ opened_quantities t' = 3.
Proof.
  exists trade_ex. eexists _, _. split; [apply trade_ex_created|]. split.
  - exists trade_ex3. split; [apply trade_ex3_run|]. split; reflexivity.
  - split; reflexivity.
Qed.
Print Assumptions C04_negative_close_refuted.

Open Scope Q_scope.
(** C05: with prices in whole cents the result is the exact profit and loss. *)
Theorem C05_pnl_exact : forall (t : trade Q), cents (tr_ov t) -> cents (tr_cv t) ->
  (forall c, c ∈ tr_closes t -> cents (tc_value c)) ->
  result t == sgn (tr_dir t) * (pnl (fun v => v - tr_ov t) (tr_closes t)
                                + (tr_cv t - tr_ov t) * inject_Z (opened_quantities t)).
Proof. exact pnl_exact. Qed.
Print Assumptions C05_pnl_exact.

(** C05: for arbitrary prices each per-unit difference is first rounded to cents. *)
Theorem C05_pnl_rounded : forall (t : trade Q), exists u : Q -> Q,
  (forall v, round_cent (sgn (tr_dir t) * (v - tr_ov t)) (u v)) /\
  result t == pnl u (tr_closes t) + u (tr_cv t) * inject_Z (opened_quantities t).
Proof. exact pnl_rounded. Qed.
Print Assumptions C05_pnl_rounded.

Example C05_ex : cents (tr_ov trade_ex2) /\ cents (tr_cv trade_ex2) /\
  (forall c, c ∈ tr_closes trade_ex2 -> cents (tc_value c)) /\ result trade_ex2 == 45#10.
Proof.
  split_and!.
  - exists 10010%Z. reflexivity.
  - exists 10100%Z. reflexivity.
  - intros c Hc. apply elem_of_list_singleton in Hc as ->. exists 10100%Z. reflexivity.
  - vm_compute. reflexivity.
Qed.

(** C06: once fully closed, price fields never move again (every arithmetic)... *)
Theorem C06_closed_frozen : forall {F} `{Num F} (t t' : trade F),
  closed t = true -> rtc trade_call t t' ->
  closed t' = true /\ tr_cv t' = tr_cv t /\ tr_max t' = tr_max t /\ tr_min t' = tr_min t.
Proof. exact @closed_frozen. Qed.
Print Assumptions C06_closed_frozen.
(** ... and neither does the result. *)
Theorem C06_closed_result_frozen : forall (t t' : trade Q),
  closed t = true -> rtc trade_call t t' -> result t' == result t.
Proof. exact closed_result_frozen. Qed.
Print Assumptions C06_closed_result_frozen.

Example C06_ex : closed trade_ex3 = true /\ result trade_ex3 == -15#10 /\ update trade_ex3 (7#1) = trade_ex3.
Proof. split_and!; vm_compute; reflexivity. Qed.

(** C07: max_result and min_result are the extrema of the observed results, and bracket the result. *)
Theorem C07_envelope : forall (t : trade Q) l, observed t l ->
  is_max (tr_max t) l /\ is_min (tr_min t) l /\ tr_min t <= result t <= tr_max t.
Proof. exact envelope. Qed.
Print Assumptions C07_envelope.

Example C07_ex : exists l, observed trade_ex3 l /\ length l = 3%nat /\ tr_max trade_ex3 == 45#10 /\ tr_min trade_ex3 == -15#10.
Proof.
  eexists. split.
  - eapply (obs_close trade_ex2 _ (tk_ex (9900#100) (9910#100)) None "c"); [|reflexivity].
    eapply (obs_close trade_ex _ (tk_ex (10100#100) (10110#100)) (Some 2%Z) "c"); [|reflexivity].
    eapply obs_created, trade_ex_created.
  - split_and!; vm_compute; reflexivity.
Qed.

(** C07: with an explicit close price the result can leave the envelope. *)
Theorem C07_envelope_explicit_close_refuted : exists (t t' : trade Q) c l,
  observed t l /\ close t (200#1) (DtAware dt_ex) None "x" = Ok (t', c) /\ tr_max t' < result t'.
Proof.
  exists trade_ex. eexists _, _, _. split; [eapply obs_created, trade_ex_created|]. split; [reflexivity|].
  vm_compute. reflexivity.
Qed.
Print Assumptions C07_envelope_explicit_close_refuted.

(** C08: opening side, valuation side and initial result. *)
Theorem C08_open_buy : forall (tk : tick Q) e q s ref t, open_from_tick tk e (Dir BUY) q s ref = Ok t ->
  tr_ov t = tk_ask tk /\ tr_dt t = tk_dt tk /\ tr_oq t = q /\ tr_epic t = e /\ tr_strat t = s /\ tr_dir t = BUY /\
  tr_closes t = [] /\
  (~ tk_bid tk == 0 -> tr_cv t = tk_bid tk /\ result t == - (tk_spread tk) * inject_Z q).
Proof. exact open_buy. Qed.
Print Assumptions C08_open_buy.
Theorem C08_open_sell : forall (tk : tick Q) e q s ref t, open_from_tick tk e (Dir SELL) q s ref = Ok t ->
  tr_ov t = tk_bid tk /\ tr_dt t = tk_dt tk /\ tr_oq t = q /\ tr_epic t = e /\ tr_strat t = s /\ tr_dir t = SELL /\
  tr_closes t = [] /\
  (~ tk_ask tk == 0 -> tr_cv t = tk_ask tk /\ result t == - (tk_spread tk) * inject_Z q).
Proof. exact open_sell. Qed.
Print Assumptions C08_open_sell.
Theorem C08_bad_direction : forall {F} `{Num F} (tk : tick F) e q s ref,
  open_from_tick tk e BadDir q s ref = Err TradeException.
Proof. reflexivity. Qed.
Print Assumptions C08_bad_direction.

Example C08_ex : exists t, open_from_tick (tk_ex (100#1) (10010#100)) 0 (Dir BUY) 5 None "t" = Ok t /\ result t == -1#2.
Proof. eexists. split; [reflexivity|]. vm_compute. reflexivity. Qed.

(** C08: a closing-side price of exactly 0 is falsy and replaced by the open price: the trade shows no loss. *)
Theorem C08_price_zero_refuted : exists (tk : tick Q) t,
  tk_bid tk <= tk_ask tk /\ open_from_tick tk 0 (Dir BUY) 5 None "t" = Ok t /\ tr_cv t = tk_ask tk /\
  ~ result t == - (tk_spread tk) * inject_Z 5.
Proof.
  exists (tk_ex 0 1). eexists. split; [vm_compute; discriminate|]. split; [vm_compute; reflexivity|]. split; [vm_compute; reflexivity|].
  vm_compute. discriminate.
Qed.
Print Assumptions C08_price_zero_refuted.

(** C09: a tick-driven close books the closing side of the quote and keeps the result. *)
Theorem C09_close_from_tick : forall (t : trade Q) tk q ref t' c,
  closed t = false -> close_from_tick t tk q ref = Ok (t', c) ->
  tr_closes t' = tr_closes t ++ [c] /\ tc_value c = (match tr_dir t with BUY => tk_bid tk | SELL => tk_ask tk end) /\
  tc_dt c = tk_dt tk /\ result t' == result (update_from_tick t tk).
Proof. exact close_tick_books. Qed.
Print Assumptions C09_close_from_tick.

Example C09_ex : closed trade_ex2 = false /\ exists c, close_from_tick trade_ex2 (tk_ex (9900#100) (9910#100)) None "c" = Ok (trade_ex3, c).
Proof. split; [reflexivity|]. eexists. reflexivity. Qed.

(** C10: averages are defined and within the range of the per-close averages. *)
Theorem C10_averages : forall q (t t' : trade Q), (0 < q)%Z -> created q t -> rtc trade_call t t' ->
  (exists v, result_avg t' = Ok v) /\
  (exists v, closed_result_avg t' = Ok v /\
     (tr_closes t' <> [] -> exists c1 c2, c1 ∈ tr_closes t' /\ c2 ∈ tr_closes t' /\
        close_result_avg t' c1 <= v <= close_result_avg t' c2)).
Proof. exact averages. Qed.
Print Assumptions C10_averages.

Example C10_ex : result_avg trade_ex3 = Ok (-3#10) /\ closed_result_avg trade_ex3 = Ok (-3#10).
Proof. split; vm_compute; reflexivity. Qed.
