(** Properties on Python floats (IEEE-754 binary64): C01, C02, C05, C07, C34, C38, C39, C41, C42, C43. *)
From Coq Require Import Reals.
From Flocq Require Import Core BinarySingleNaN.
From Verif Require Import FloatExamples SpecTick SpecTrade SpecFrames.
Open Scope R_scope.

(** C01, finding: the order test lets a NaN bid through. *)
Theorem C01_nan_bid_refuted : exists (d : dtarg) (b a : numarg b64) (t : tick b64),
  tick_init d b a = Ok t /\ is_nan (tk_bid t) = true /\ fleb (tk_bid t) (tk_ask t) = false.
Proof. exists (DtAware utc0), (NFloat B754_nan), (NInt 1). eexists. split; [reflexivity|]. split; reflexivity. Qed.
Print Assumptions C01_nan_bid_refuted.

(** C02 on floats: the spread of a tick with finite quotes is never negative, even when it overflows. *)
Theorem C02_spread_nonneg_b64 : forall (d : dtarg) (b a : numarg b64) (t : tick b64), tick_init d b a = Ok t ->
  is_finite (tk_bid t) = true -> is_finite (tk_ask t) = true -> fleb (fofZ 0) (tk_spread t) = true.
Proof. exact tick_spread_b64. Qed.
Print Assumptions C02_spread_nonneg_b64.
(** Quotes up to 2^30: the value is within 0.00751 of the midpoint. *)
Theorem C02_value_near_midpoint_b64 : forall t : tick b64, quotes_within 30 t ->
  Rabs (real (tk_value t) - (real (tk_bid t) + real (tk_ask t)) / 2) <= 751 / 100000.
Proof. exact value_near_mid_b64. Qed.
Print Assumptions C02_value_near_midpoint_b64.
(** Quotes that are floats of whole cents: the spread is the float of the exact difference and the value is the float of a
    number of cents between bid and ask. *)
Theorem C02_value_between_quotes_b64 : forall (t : tick b64) k j, (Z.abs k <= 100 * 2 ^ 30)%Z -> (Z.abs j <= 100 * 2 ^ 30)%Z -> (k <= j)%Z ->
  decimal k (tk_bid t) -> decimal j (tk_ask t) -> decimal (j - k) (tk_spread t) /\ exists m, decimal m (tk_value t) /\ (k <= m <= j)%Z.
Proof. exact value_inside_b64. Qed.
Print Assumptions C02_value_between_quotes_b64.
Example C02_ex_b64 : let t := ftick 1030 1031 in decimal 1030 (tk_bid t) /\ decimal 1031 (tk_ask t) /\ quotes_within 30 t /\ feqb (tk_value t) (dec 1031) = true.
Proof. cbv zeta. split; [apply dec_decimal; discriminate|]. split; [apply dec_decimal; discriminate|]. split; [split; apply dec_within; discriminate|vm_compute; reflexivity]. Qed.

(** C05 on floats: prices that are floats of whole cents, up to 900 closes and an exposure up to 2^30: the result is within 0.001
    of the exact profit and loss. *)
Theorem C05_pnl_b64 : forall (t : trade b64) ko kv ks, decimal ko (tr_ov t) -> decimal kv (tr_cv t) -> Forall2 (fun c k => decimal k (tc_value c)) (tr_closes t) ks ->
  (Z.abs ko <= 100 * 2 ^ 30)%Z -> (Z.abs kv <= 100 * 2 ^ 30)%Z -> Forall (fun k => Z.abs k <= 100 * 2 ^ 30)%Z ks ->
  (Z.abs (opened_quantities t) <= 2 ^ 53)%Z -> Forall (fun c => Z.abs (tc_qty c) <= 2 ^ 53)%Z (tr_closes t) -> (Z.of_nat (length ks) <= 900)%Z ->
  (SpecTrade.total (zip_with (fun c k => Z.abs ((k - ko) * tc_qty c)) (tr_closes t) ks) + Z.abs ((kv - ko) * opened_quantities t) <= 100 * 2 ^ 30)%Z ->
  is_finite (result t) = true /\
  Rabs (real (result t) - IZR (side (tr_dir t) * (SpecTrade.total (zip_with (fun c k => (k - ko) * tc_qty c)%Z (tr_closes t) ks) + (kv - ko) * opened_quantities t)) / 100) <= 1 / 1000.
Proof. exact pnl_b64. Qed.
Print Assumptions C05_pnl_b64.
Example C05_ex_b64 : exists t c, close_from_tick ftrade1 (ftick 85 86) (Some 3%Z) "c" = Ok (t, c) /\ decimal 2 (tr_ov t) /\ decimal 85 (tr_cv t) /\
  Forall2 (fun c k => decimal k (tc_value c)) (tr_closes t) [85%Z] /\ opened_quantities t = 1%Z.
Proof. exact ftrade_ex. Qed.

(** C07, finding: on floats a partial close at the market price can push the result over max_result (0.83 * 4 against
    0.83 * 1 + round(0.83 * 3, 2)), and C09: the close changes the result. *)
Theorem C07_envelope_b64_refuted : exists (t : trade b64) l, observed t l /\ fltb (tr_max t) (result t) = true.
Proof. exact envelope_b64. Qed.
Print Assumptions C07_envelope_b64_refuted.
Theorem C09_result_kept_b64_refuted : exists (t t' : trade b64) tk q c, close_from_tick t tk q "c" = Ok (t', c) /\ feqb (result t') (result (update_from_tick t tk)) = false.
Proof. exact close_moves_b64. Qed.
Print Assumptions C09_result_kept_b64_refuted.

(** C34 on floats: finite quotes up to 2^1019 are comparable, hence C34_frame_content applies. *)
Theorem C34_comparable_b64 : forall l : list (tick b64), (forall t, t ∈ l -> quotes_within 1019 t) -> comparable l.
Proof. exact comparable_b64. Qed.
Print Assumptions C34_comparable_b64.
Example C34_ex_b64 : forall t, t ∈ fts -> quotes_within 1019 t.
Proof. intros t Ht. pose proof (fts_within 1019 ltac:(lia)) as H. rewrite Forall_forall in H. now apply H. Qed.

(** C38 on floats: finite quotes up to 2^1019. *)
Theorem C38_candle_order_b64 : forall u q ref mx i ha (T : tick b64 -> res unit -> Prop) fs0 (fs : fset b64) k f iv, (1 <= mx)%Z -> in_kind i = KCandle ha ->
  (forall t r, T t r -> quotes_within 1019 t) ->
  fset_init u q ref mx = Ok fs0 -> fs_hist (only i) T fs0 fs -> fs_heap fs !! k = Some f -> value_at fs (in_ref i) k = Some iv ->
  exists o hi lo la, c_open (fs_heap fs) f iv = Ok o /\ c_high (fs_heap fs) f iv = Ok hi /\ c_low (fs_heap fs) f iv = Ok lo /\ candle_last iv = Ok la /\
    is_finite o = true /\ is_finite hi = true /\ is_finite lo = true /\ is_finite la = true /\
    real lo <= real o /\ real lo <= real la /\ real o <= real hi /\ real la <= real hi.
Proof. exact candle_finite_b64. Qed.
Print Assumptions C38_candle_order_b64.
Example C38_ex_b64 : fs_hist (only fha) (fun t r => quotes_within 1019 t /\ r = Ok ()) (ffs0 1 5) (fst (frun fha)) /\
  prices_are (fprices (fst (frun fha)) "ha" 0) [1001; 1001; 1001; 1001]%Z && prices_are (fprices (fst (frun fha)) "ha" 1) [1001; 1031; 1001; 1031]%Z &&
  prices_are (fprices (fst (frun fha)) "ha" 2) [1016; 1016; 1016; 1016]%Z = true.
Proof. split; [apply frun_hist; [lia|vm_compute; reflexivity]|vm_compute; reflexivity]. Qed.

(** C39 on floats, quotes up to 2^30: the prices are floats of whole cents, head, body and tail are the floats of the exact
    differences (in cents, they add up to high - low), the height is the unrounded difference. *)
Theorem C39_geometry_b64 : forall u q ref mx i ha (T : tick b64 -> res unit -> Prop) fs0 (fs : fset b64) k f iv, (1 <= mx)%Z -> in_kind i = KCandle ha ->
  (forall t r, T t r -> quotes_within 30 t) ->
  fset_init u q ref mx = Ok fs0 -> fs_hist (only i) T fs0 fs -> fs_heap fs !! k = Some f -> value_at fs (in_ref i) k = Some iv ->
  exists o hi lo la co ch cl ca, c_open (fs_heap fs) f iv = Ok o /\ c_high (fs_heap fs) f iv = Ok hi /\ c_low (fs_heap fs) f iv = Ok lo /\ candle_last iv = Ok la /\
    decimal co o /\ decimal ch hi /\ decimal cl lo /\ decimal ca la /\ (cl <= co <= ch)%Z /\ (cl <= ca <= ch)%Z /\
    Rabs (real (candle_height hi lo) - IZR (ch - cl) / 100) <= / 2 ^ 18 /\
    if ((co =? 0) || (ca =? 0))%Z then candle_head o hi la = None /\ candle_body o la = None /\ candle_tail o lo la = None /\ candle_color o la = None
    else exists hd bd tl, candle_head o hi la = Some hd /\ candle_body o la = Some bd /\ candle_tail o lo la = Some tl /\
      decimal (ch - Z.max co ca) hd /\ decimal (Z.abs (co - ca)) bd /\ decimal (Z.min co ca - cl) tl /\
      candle_color o la = Some (if (co <? ca)%Z then GREEN else if (ca <? co)%Z then RED else BLACK).
Proof. intros u q ref mx i ha T fs0 fs k f iv. apply (geometry_b64 30). split; discriminate. Qed.
Print Assumptions C39_geometry_b64.
(** The head of the last example candle, where the difference of the floats is not a float of cents. *)
Example C39_ex_b64 : fs_hist (only fha) (fun t r => quotes_within 30 t /\ r = Ok ()) (ffs0 1 5) (fst (frun fha)) /\
  prices_are (fprices (fst (frun fha)) "ha" 1) [1001; 1031; 1001; 1031]%Z = true /\
  feqb (candle_height (dec 1031) (dec 1001)) (dec 30) = false /\ prices_are (match candle_body (dec 1001) (dec 1031) with Some b => Ok [b] | None => Ok [] end) [30%Z] = true.
Proof. split; [apply frun_hist; [lia|vm_compute; reflexivity]|]. split; [vm_compute; reflexivity|]. split; vm_compute; reflexivity. Qed.

(** C41 on floats, quotes up to 2^e with p * 2^(e+1) <= 2^30 and p <= 1000: the moving average is the float of a whole number of
    cents [m] nearest to the exact mean of the closing values (floats of the cents [ks]), and it lies between two of them. *)
Theorem C41_sma_b64 : forall e u q ref mx i mp (T : tick b64 -> res unit -> Prop) fs0 (fs : fset b64) k f iv p, (0 <= e)%Z -> (1 <= mx)%Z -> in_kind i = KSMA mp -> in_mopen i = false ->
  (forall t r, T t r -> quotes_within e t) -> fset_init u q ref mx = Ok fs0 -> fs_hist (only i) T fs0 fs -> fs_heap fs !! k = Some f -> value_at fs (in_ref i) k = Some iv ->
  (1 <= p <= mp)%Z -> (p <= 1000)%Z -> (p * 2 ^ (e + 1) <= 2 ^ 30)%Z ->
  exists s lc, valued_from fs (in_ref i) s /\ (s <= k)%nat /\ iv_data iv = DSMA lc /\
    if (Z.of_nat (S k - s) <? p)%Z then sma_value f lc p = Ok None
    else exists v m ks, sma_value f lc p = Ok (Some v) /\ Forall2 decimal ks (window (Z.to_nat p) k (closes fs)) /\ decimal m v /\ (2 * Z.abs (m * p - SpecTrade.total ks) <= p)%Z /\
      exists x y, x ∈ window (Z.to_nat p) k (closes fs) /\ y ∈ window (Z.to_nat p) k (closes fs) /\ real x <= real v <= real y.
Proof. exact sma_b64. Qed.
Print Assumptions C41_sma_b64.
(** Closing values 10.01, 10.31, 10.16; the last mean, 10.235, falls below the tie on floats. *)
Example C41_ex_b64 : fs_hist (only fsma) (fun t r => quotes_within 19 t /\ r = Ok ()) (ffs0 1 5) (fst (frun fsma)) /\ (2 * 2 ^ (19 + 1) <= 2 ^ 30)%Z /\
  prices_are (fsma_val (fst (frun fsma)) 2 0) [] && prices_are (fsma_val (fst (frun fsma)) 2 1) [1016%Z] && prices_are (fsma_val (fst (frun fsma)) 2 2) [1023%Z] = true.
Proof. split; [apply frun_small; [lia|vm_compute; reflexivity]|]. split; [discriminate|vm_compute; reflexivity]. Qed.

(** C42 on floats: finite quotes up to 2^800, less than 2^53 periods: the relative strength index is a finite float in [0, 100]. *)
Theorem C42_rsi_range_b64 : forall u q ref mx i p o (fs0 fs : fset b64) k iv, (2 <= mx)%Z -> (2 <= p * q < 2 ^ 53)%Z -> in_kind i = KRSI p o -> in_mopen i = false ->
  fset_init u q ref mx = Ok fs0 -> fs_hist (only i) (fun tk r => quotes_within 800 tk /\ r = Ok ()) fs0 fs -> value_at fs (in_ref i) k = Some iv ->
  exists s lc v, valued_from fs (in_ref i) s /\ (s <= k)%nat /\ iv_data iv = DRSI (p * q) lc v /\
    if (S k - (s - 1) <=? Z.to_nat (p * q))%nat then v = None
    else exists x, v = Some x /\ is_finite x = true /\ 0 <= real x <= 100.
Proof. exact rsi_hist_b64. Qed.
Print Assumptions C42_rsi_range_b64.
Example C42_ex_b64 : fs_hist (only frsi) (fun t r => quotes_within 800 t /\ r = Ok ()) (ffs0 1 5) (fst (frun frsi)) /\
  prices_are (match frsi_val (fst (frun frsi)) 2 with Some x => Ok [x] | None => Ok [] end) [6667%Z] = true.
Proof. split; [apply frun_hist; [lia|vm_compute; reflexivity]|vm_compute; reflexivity]. Qed.

(** C43 on floats, quotes up to 2^27: the pivot is the float of the number of cents [m] nearest to the third of high + low + close
    of the previous value, and the six levels are the floats of the exact levels, in order. *)
Theorem C43_pivots_b64 : forall u q ref mx i (T : tick b64 -> res unit -> Prop) fs0 (fs : fset b64) k f iv, (1 <= mx)%Z -> in_kind i = KPivot false -> (forall t r, T t r -> quotes_within 27 t) ->
  fset_init u q ref mx = Ok fs0 -> fs_hist (only i) T fs0 fs -> fs_heap fs !! k = Some f -> value_at fs (in_ref i) k = Some iv ->
  exists r, previous_value fs (in_ref i) k r /\
    match r with
    | None => pivot (fs_heap fs) f iv = Ok None /\ pivot_levels (fs_heap fs) f iv None None None None None None
    | Some (j, pv) => exists ch cl cc m p,
        decimal ch (tk_value (iv_high pv)) /\ decimal cl (tk_value (iv_low pv)) /\ decimal cc (tk_value (iv_last pv)) /\ (cl <= cc <= ch)%Z /\
        pivot (fs_heap fs) f iv = Ok (Some p) /\ decimal m p /\ (Z.abs (3 * m - (ch + cl + cc)) <= 1)%Z /\
        if (m =? 0)%Z then pivot_levels (fs_heap fs) f iv None None None None None None
        else exists s3 s2 s1 r1 r2 r3, pivot_levels (fs_heap fs) f iv (Some s3) (Some s2) (Some s1) (Some r1) (Some r2) (Some r3) /\
          decimal (cl - 2 * (ch - m)) s3 /\ decimal (m - (ch - cl)) s2 /\ decimal (2 * m - ch) s1 /\
          decimal (2 * m - cl) r1 /\ decimal (m + (ch - cl)) r2 /\ decimal (ch + 2 * (m - cl)) r3 /\
          real s3 <= real s2 /\ real s2 <= real s1 /\ real s1 <= real p /\ real p <= real r1 /\ real r1 <= real r2 /\ real r2 <= real r3
    end.
Proof. exact pivots_b64. Qed.
Print Assumptions C43_pivots_b64.
(** High 10.31, low 10.01, close 10.31. *)
Example C43_ex_b64 : fs_hist (only fpiv) (fun t r => quotes_within 27 t /\ r = Ok ()) (ffs0 2 5) (fst (frun2 fpiv)) /\
  prices_are (flevels (fst (frun2 fpiv)) 0) [] && prices_are (flevels (fst (frun2 fpiv)) 1) [981; 991; 1011; 1021; 1041; 1051; 1071]%Z = true.
Proof. split; [apply frun2_small; [lia|vm_compute; reflexivity]|vm_compute; reflexivity]. Qed.
