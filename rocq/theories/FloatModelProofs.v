(** The model on Python floats. *)
From Coq Require Import Reals.
From Flocq Require Import Core BinarySingleNaN Relative.
From Verif Require Export FloatProofs IndicatorFinalProofs.
From Verif Require Import SpecTick TickProofs.
From Coq Require Import Lra Psatz.
Open Scope R_scope.

Lemma ord_laws_b64 e : (0 <= e <= 1020)%Z -> ord_laws (F := b64) (within e).
Proof.
  intros He. split.
  - intros a [Fa _]. apply fle_fin; auto. lra.
  - intros a b c [Fa _] [Fb _] [Fc _] H1 H2. apply fle_fin in H1; auto. apply fle_fin in H2; auto. apply fle_fin; auto. lra.
  - intros a b [Fa _] [Fb _] H. apply fle_fin; auto. destruct (Rle_lt_dec (real a) (real b)) as [C|C]; [|lra]. apply fle_fin in C; auto. congruence.
  - intros a b [Fa _] [Fb _]. destruct (fleb b a) eqn:E; simpl.
    + apply fle_fin in E; auto. destruct (fltb a b) eqn:E2; [|auto]. apply flt_fin in E2; auto. lra.
    + apply flt_fin; auto. destruct (Rle_lt_dec (real b) (real a)) as [C|C]; [|auto]. apply fle_fin in C; auto. congruence.
  - intros a Ha. apply round2_bounded; [lia|auto].
  - intros a b Ha Hb. apply mean2_bounded; auto. lia.
  - intros a b c d Ha Hb Hc Hd. apply mean4_bounded; auto. lia.
  - intros a b [Fa _] [Fb _] H. destruct (round2_spec a Fa) as [_ Ga], (round2_spec b Fb) as [_ Gb]. apply fle_fin in H; auto. apply fle_fin; auto. now apply round2_mono_R.
  - intros a [Fa _]. destruct (round2_spec a Fa) as [_ Ga]. destruct (round2_spec _ Ga) as [_ Ga']. split; apply fle_fin; auto; rewrite round2_idem by auto; lra.
Qed.

(** Value of a tick. *)
Lemma spread_within e t : (0 <= e < 1023)%Z -> quotes_within e t -> within (e + 1) (tk_spread t).
Proof. intros He [Hb Ha]. apply round2_bounded; [lia|]. apply sub_bounded; auto. lia. Qed.
Lemma value_within e t : (0 <= e < 1022)%Z -> quotes_within e t -> within (e + 1) (tk_value t).
Proof.
  intros He Ht. pose proof (spread_within e t ltac:(lia) Ht) as Hs. destruct Ht as [Hb Ha]. apply round2_bounded; [lia|]. apply add_bounded; [lia|auto|]. apply half_fin; [lia|auto].
Qed.
Lemma value_finite e t : (0 <= e < 1022)%Z -> quotes_within e t -> is_finite (tk_value t) = true.
Proof. intros He Ht. now apply (value_within e t He). Qed.

Lemma comparable_b64 (l : list (tick b64)) : (forall t, t ∈ l -> quotes_within 1019 t) -> comparable l.
Proof.
  intros Hl. assert (forall t, t ∈ l -> is_finite (tk_value t) = true) as Hf by (intros t Ht; apply (value_finite 1019); [lia|auto]).
  split; [|split].
  - intros x Hx. destruct (fltb _ _) eqn:E; [|auto]. apply flt_fin in E; auto. lra.
  - intros x y z Hx Hy Hz H1 H2. apply flt_fin in H1; auto. apply flt_fin in H2; auto. apply flt_fin; auto. lra.
  - intros x y z Hx Hy Hz H1 H2. destruct (fltb (tk_value x) (tk_value z)) eqn:E; [|auto]. apply flt_fin in E; auto.
    destruct (Rlt_le_dec (real (tk_value x)) (real (tk_value y))) as [C|C]; [apply flt_fin in C; auto; congruence|].
    destruct (Rlt_le_dec (real (tk_value y)) (real (tk_value z))) as [D|D]; [apply flt_fin in D; auto; congruence|]. lra.
Qed.

Lemma hist_tick_weaken {F} `{Num F} (I : indicator F -> Prop) (T T' : tick F -> res unit -> Prop) fs0 fs : (forall t r, T t r -> T' t r) -> fs_hist I T fs0 fs -> fs_hist I T' fs0 fs.
Proof. intros HT. induction 1; [constructor|constructor; auto|constructor; auto|econstructor; eauto]. Qed.

(** ** Rounding errors *)
Lemma rnd_err x e : (-1000 <= e)%Z -> Rabs x <= bpow radix2 e -> Rabs (rnd x - x) <= bpow radix2 (e - 53).
Proof.
  intros He Hx. eapply Rle_trans; [apply error_le_half_ulp; typeclasses eauto|].
  assert (ulp radix2 fexp64 x <= ulp radix2 fexp64 (bpow radix2 e)) as Hu.
  { change fexp64 with (FLT_exp (-1074) 53). apply ulp_le; [typeclasses eauto|typeclasses eauto|]. rewrite (Rabs_pos_eq (bpow radix2 e)) by apply bpow_ge_0. exact Hx. }
  rewrite ulp_bpow in Hu. assert (fexp64 (e + 1) = e - 53 + 1)%Z as E by (unfold SpecFloat.fexp, SpecFloat.emin; lia). rewrite E, bpow_S in Hu. lra.
Qed.
Lemma cent_range x k j : IZR k - / 4 <= x * 100 <= IZR j + / 4 -> (k <= cent x <= j)%Z.
Proof.
  intros [H1 H2]. apply ZnearestE_le in H1, H2. fold (cent x) in H1, H2.
  assert (ZnearestE (IZR k - / 4) = k) as E1 by (apply Znearest_imp; replace (IZR k - / 4 - IZR k) with (- / 4) by ring; rewrite Rabs_Ropp, Rabs_pos_eq; lra).
  assert (ZnearestE (IZR j + / 4) = j) as E2 by (apply Znearest_imp; replace (IZR j + / 4 - IZR j) with (/ 4) by ring; rewrite Rabs_pos_eq; lra). lia.
Qed.
Lemma decimal_round2 x : is_finite x = true -> decimal (cent (real x)) (round2 x).
Proof. intros Fx. destruct (round2_spec x Fx) as [E Fy]. split; [exact Fy|exact E]. Qed.
Lemma decimal_real k x : decimal k x -> real x = rnd (IZR k / 100). Proof. intros [_ E]. exact E. Qed.
Lemma decimal_err k x e : (-1000 <= e)%Z -> Rabs (IZR k / 100) <= bpow radix2 e -> decimal k x -> Rabs (real x - IZR k / 100) <= bpow radix2 (e - 53).
Proof. intros He Hk Hd. rewrite (decimal_real k x Hd). now apply rnd_err. Qed.
Lemma decimal_le k j x y : decimal k x -> decimal j y -> (k <= j)%Z -> real x <= real y.
Proof. intros Hx Hy Hkj. rewrite (decimal_real k x Hx), (decimal_real j y Hy). apply rnd_le. apply IZR_le in Hkj. lra. Qed.
Lemma decimal_within k x e : (-1000 <= e)%Z -> Rabs (IZR k / 100) <= bpow radix2 e -> decimal k x -> within e x.
Proof. intros He Hk [Fx E]. split; [auto|]. change (real x = rnd (IZR k / 100)) in E. rewrite E. apply rnd_abs_le; [apply rnd_bpow; lia|auto]. Qed.
Lemma decimal_cent k x : decimal k x -> Rabs (IZR k / 100) <= bpow radix2 40 -> cent (real x) = k.
Proof.
  intros Hd Hk. pose proof (decimal_err k x 40 ltac:(lia) Hk Hd) as H. change (bpow radix2 (40 - 53)) with (/ IZR (2 ^ 13)) in H. 
  assert (k <= cent (real x) <= k)%Z; [|lia]. apply cent_range. apply Rabs_le_inv in H. change (2 ^ 13)%Z with 8192%Z in H. lra.
Qed.

(** Floats of cents: differences rounded to cents are exact. *)
Lemma sub_decimal k j x y : decimal k x -> decimal j y -> Rabs (IZR k / 100) <= bpow radix2 32 -> Rabs (IZR j / 100) <= bpow radix2 32 ->
  decimal (k - j) (round2 (fsub x y)) /\ within 33 (fsub x y) /\ Rabs (real (fsub x y) - IZR (k - j) / 100) <= / 2 ^ 18.
Proof.
  intros Hx Hy Hk Hj. pose proof (decimal_within _ _ 32 ltac:(lia) Hk Hx) as Wx. pose proof (decimal_within _ _ 32 ltac:(lia) Hj Hy) as Wy.
  destruct (sub_bounded x y 32 ltac:(lia) Wx Wy) as [E W]. change (32 + 1)%Z with 33%Z in W.
  pose proof (decimal_err _ _ 32 ltac:(lia) Hk Hx) as Ex. pose proof (decimal_err _ _ 32 ltac:(lia) Hj Hy) as Ey.
  assert (Rabs (real x - real y) <= bpow radix2 33) as B. { change 33%Z with (32 + 1)%Z. rewrite bpow_S. destruct Wx as [_ Wx], Wy as [_ Wy]. eapply Rle_trans; [apply Rabs_triang|]. rewrite Rabs_Ropp. lra. }
  pose proof (rnd_err _ 33 ltac:(lia) B) as Ed. rewrite <- E in Ed.
  change (bpow radix2 (32 - 53)) with (/ IZR (2 ^ 21)) in Ex, Ey. change (bpow radix2 (33 - 53)) with (/ IZR (2 ^ 20)) in Ed. change (2 ^ 21)%Z with 2097152%Z in *. change (2 ^ 20)%Z with 1048576%Z in *.
  apply Rabs_le_inv in Ex, Ey, Ed. assert (Rabs (real (fsub x y) - IZR (k - j) / 100) <= / 2 ^ 18) as Hd by (apply Rabs_le; rewrite minus_IZR; lra).
  split; [|auto]. assert (cent (real (fsub x y)) = k - j)%Z as <-; [|apply decimal_round2, W].
  assert (k - j <= cent (real (fsub x y)) <= k - j)%Z; [|lia]. apply cent_range. apply Rabs_le_inv in Hd. lra.
Qed.

(** ** Ticks *)
Lemma sign_real (x : b64) : if Bsign x then real x <= 0 else 0 <= real x.
Proof.
  destruct x as [[]| [] | |[] m ex Hm]; cbn [Bsign B2R]; try lra; unfold F2R; cbn [Fnum Fexp cond_Zopp]; pose proof (bpow_gt_0 radix2 ex) as Hp.
  - assert (IZR (Z.opp (Zpos m)) <= 0) as Hm' by (apply IZR_le; lia). rewrite <- (Rmult_0_l (bpow radix2 ex)). apply Rmult_le_compat_r; lra.
  - assert (0 <= IZR (Zpos m)) as Hm' by (apply IZR_le; lia). apply Rmult_le_pos; lra.
Qed.
Lemma spread_nonneg_b64 (t : tick b64) : is_finite (tk_bid t) = true -> is_finite (tk_ask t) = true -> fltb (tk_ask t) (tk_bid t) = false -> fleb f0 (tk_spread t) = true.
Proof.
  intros Fb Fa Hlt. unfold tk_spread. set (a := tk_ask t) in *. set (b := tk_bid t) in *.
  assert (real b <= real a) as Hle. { destruct (Rle_lt_dec (real b) (real a)) as [C|C]; [auto|]. apply flt_fin in C; auto. congruence. }
  pose proof (Bminus_correct 53 1024 prec53 prec53_1024 mode_NE a b Fa Fb) as B. change (round_mode mode_NE) with ZnearestE in B. change (Bminus mode_NE a b) with (fsub a b) in B.
  destruct (Rlt_bool_spec (Rabs (rnd (real a - real b))) (bpow radix2 1024)) as [Hs|Hs].
  - destruct B as (E & Fd & _). destruct (round2_spec _ Fd) as [E2 F2]. apply fle_fin; [reflexivity|auto|]. change (real f0) with 0. rewrite E2.
    replace 0 with (rnd 0) by (apply round_0; typeclasses eauto). apply rnd_le. assert (0 <= cent (real (fsub a b)))%Z as Hc; [|apply IZR_le in Hc; lra].
    unfold cent. rewrite <- (ZnearestE_IZR 0). apply ZnearestE_le. rewrite E. assert (0 <= rnd (real a - real b)); [|lra]. replace 0 with (rnd 0) by (apply round_0; typeclasses eauto). apply rnd_le. lra.
  - destruct B as [B S]. assert (Bsign a = false) as Ha.
    { destruct (Bsign a) eqn:Ea; [|auto]. exfalso. assert (Bsign b = false) as Eb by (now destruct (Bsign b)).
      pose proof (sign_real a) as La. rewrite Ea in La. pose proof (sign_real b) as Lb. rewrite Eb in Lb.
      replace (real a - real b) with 0 in Hs by lra. rewrite round_0, Rabs_R0 in Hs by typeclasses eauto. pose proof (bpow_gt_0 radix2 1024). lra. }
    rewrite Ha in B. change (binary_overflow 53 1024 mode_NE false) with (B2SF (B754_infinity (prec := 53) (emax := 1024) false)) in B. apply B2SF_inj in B. rewrite B. reflexivity.
Qed.

Lemma within_abs e x : within e x -> - bpow radix2 e <= real x <= bpow radix2 e.
Proof. intros [_ H]. now apply Rabs_le_inv. Qed.
Lemma value_near_mid_b64 (t : tick b64) : quotes_within 30 t -> Rabs (real (tk_value t) - (real (tk_bid t) + real (tk_ask t)) / 2) <= 751 / 100000.
Proof.
  intros Ht. pose proof (spread_within 30 t ltac:(lia) Ht) as Ws. destruct Ht as [Wb Wa]. unfold tk_value, tk_spread in *.
  set (b := tk_bid t) in *. set (a := tk_ask t) in *. set (d := fsub a b) in *. set (s := round2 d) in *. set (h := fdiv s (fofZ 2)). set (v := fadd b h).
  destruct (sub_bounded a b 30 ltac:(lia) Wa Wb) as [Ed Wd]. change (30 + 1)%Z with 31%Z in *. fold d in Ed, Wd.
  destruct (half_fin s 30 ltac:(lia) Ws) as [Eh Wh]. fold h in Eh, Wh.
  destruct (add_bounded b h 30 ltac:(lia) Wb Wh) as [Ev Wv]. change (30 + 1)%Z with 31%Z in *. fold v in Ev, Wv.
  destruct (round2_spec d (proj1 Wd)) as [Es _]. fold s in Es. destruct (round2_spec v (proj1 Wv)) as [Er _].
  pose proof (cent_half (real d)) as Cd. pose proof (cent_half (real v)) as Cv.
  pose proof (within_abs _ _ Wa) as Ba. pose proof (within_abs _ _ Wb) as Bb. pose proof (within_abs _ _ Wd) as Bd. pose proof (within_abs _ _ Ws) as Bs. pose proof (within_abs _ _ Wh) as Bh. pose proof (within_abs _ _ Wv) as Bv.
  assert (Rabs (real a - real b) <= bpow radix2 31) as H1 by (change 31%Z with (30 + 1)%Z; rewrite bpow_S; apply Rabs_le; lra). apply (rnd_err _ 31 ltac:(lia)) in H1. rewrite <- Ed in H1.
  assert (Rabs (IZR (cent (real d)) / 100) <= bpow radix2 32) as H2. { change 32%Z with (31 + 1)%Z. rewrite bpow_S. apply Rabs_le_inv in Cd. assert (1 <= bpow radix2 31) by (apply (bpow_le radix2 0 31); lia). apply Rabs_le. lra. } apply (rnd_err _ 32 ltac:(lia)) in H2. rewrite <- Es in H2.
  assert (Rabs (real s / 2) <= bpow radix2 30) as H3. { change 31%Z with (30 + 1)%Z in Bs. rewrite bpow_S in Bs. apply Rabs_le. lra. } apply (rnd_err _ 30 ltac:(lia)) in H3. rewrite <- Eh in H3.
  assert (Rabs (real b + real h) <= bpow radix2 31) as H4 by (change 31%Z with (30 + 1)%Z; rewrite bpow_S; apply Rabs_le; lra). apply (rnd_err _ 31 ltac:(lia)) in H4. rewrite <- Ev in H4.
  assert (Rabs (IZR (cent (real v)) / 100) <= bpow radix2 32) as H5. { change 32%Z with (31 + 1)%Z. rewrite bpow_S. apply Rabs_le_inv in Cv. assert (1 <= bpow radix2 31) by (apply (bpow_le radix2 0 31); lia). apply Rabs_le. lra. } apply (rnd_err _ 32 ltac:(lia)) in H5. rewrite <- Er in H5.
  change (bpow radix2 (31 - 53)) with (/ IZR (2 ^ 22)) in *. change (bpow radix2 (32 - 53)) with (/ IZR (2 ^ 21)) in *. change (bpow radix2 (30 - 53)) with (/ IZR (2 ^ 23)) in *.
  change (2 ^ 22)%Z with 4194304%Z in *. change (2 ^ 21)%Z with 2097152%Z in *. change (2 ^ 23)%Z with 8388608%Z in *.
  clear - Cd Cv H1 H2 H3 H4 H5. apply Rabs_le_inv in Cd, Cv, H1, H2, H3, H4, H5. apply Rabs_le. lra.
Qed.
Lemma value_inside_b64 (t : tick b64) k j : (Z.abs k <= 100 * 2 ^ 30)%Z -> (Z.abs j <= 100 * 2 ^ 30)%Z -> (k <= j)%Z -> decimal k (tk_bid t) -> decimal j (tk_ask t) ->
  decimal (j - k) (tk_spread t) /\ exists m, decimal m (tk_value t) /\ (k <= m <= j)%Z.
Proof.
  intros Hk Hj Hkj Db Da.
  assert (forall z, (Z.abs z <= 100 * 2 ^ 30)%Z -> Rabs (IZR z / 100) <= bpow radix2 30) as Hz.
  { intros z Hz. apply IZR_le in Hz. rewrite abs_IZR, mult_IZR in Hz. change (IZR (2 ^ 30)) with (bpow radix2 30) in Hz. unfold Rdiv. rewrite Rabs_mult, (Rabs_pos_eq (/ 100)) by lra. lra. }
  apply Hz in Hk as Bk. apply Hz in Hj as Bj. assert (bpow radix2 30 <= bpow radix2 32) as H30 by (apply bpow_le; lia).
  assert (Rabs (IZR k / 100) <= bpow radix2 32) as Bk' by lra. assert (Rabs (IZR j / 100) <= bpow radix2 32) as Bj' by lra.
  destruct (sub_decimal _ _ _ _ Da Db Bj' Bk') as (Ds & _). change (round2 (fsub (tk_ask t) (tk_bid t))) with (tk_spread t) in Ds. split; [auto|].
  pose proof (decimal_within _ _ 30 ltac:(lia) Bk Db) as Wb. pose proof (decimal_within _ _ 30 ltac:(lia) Bj Da) as Wa. pose proof (spread_within 30 t ltac:(lia) (conj Wb Wa)) as Ws. change (30 + 1)%Z with 31%Z in Ws.
  unfold tk_value. set (b := tk_bid t) in *. set (s := tk_spread t) in *. set (h := fdiv s (fofZ 2)). set (v := fadd b h).
  destruct (half_fin s 30 ltac:(lia) Ws) as [Eh Wh]. fold h in Eh, Wh.
  destruct (add_bounded b h 30 ltac:(lia) Wb Wh) as [Ev Wv]. change (30 + 1)%Z with 31%Z in *. fold v in Ev, Wv.
  exists (cent (real v)). split; [apply decimal_round2, Wv|]. apply cent_range.
  pose proof (decimal_err _ _ 30 ltac:(lia) Bk Db) as Eb. fold b in Eb.
  assert (Rabs (IZR (j - k) / 100) <= bpow radix2 31) as Bs. { change 31%Z with (30 + 1)%Z. rewrite bpow_S, minus_IZR. apply Rabs_le_inv in Bj, Bk. apply Rabs_le. lra. }
  pose proof (decimal_err _ _ 31 ltac:(lia) Bs Ds) as Es.
  pose proof (within_abs _ _ Wb) as Wb'. pose proof (within_abs _ _ Ws) as Ws'. pose proof (within_abs _ _ Wh) as Wh'.
  assert (Rabs (real s / 2) <= bpow radix2 30) as H3. { change 31%Z with (30 + 1)%Z in Ws'. rewrite bpow_S in Ws'. apply Rabs_le. lra. } apply (rnd_err _ 30 ltac:(lia)) in H3. rewrite <- Eh in H3.
  assert (Rabs (real b + real h) <= bpow radix2 31) as H4 by (change 31%Z with (30 + 1)%Z; rewrite bpow_S; apply Rabs_le; lra). apply (rnd_err _ 31 ltac:(lia)) in H4. rewrite <- Ev in H4.
  change (bpow radix2 (31 - 53)) with (/ IZR (2 ^ 22)) in *. change (bpow radix2 (30 - 53)) with (/ IZR (2 ^ 23)) in *. change (2 ^ 22)%Z with 4194304%Z in *. change (2 ^ 23)%Z with 8388608%Z in *.
  rewrite minus_IZR in Es. apply IZR_le in Hkj. clear - Hkj Eb Es H3 H4. apply Rabs_le_inv in Eb, Es, H3, H4. lra.
Qed.

(** ** Candles *)
Lemma candle_prices_b64 e u q ref mx i ha (T : tick b64 -> res unit -> Prop) fs0 (fs : fset b64) k f iv : (0 <= e <= 1019)%Z -> (1 <= mx)%Z -> in_kind i = KCandle ha -> (forall t r, T t r -> quotes_within e t) ->
  fset_init u q ref mx = Ok fs0 -> fs_hist (only i) T fs0 fs -> fs_heap fs !! k = Some f -> value_at fs (in_ref i) k = Some iv ->
  exists o hi lo la, c_open (fs_heap fs) f iv = Ok o /\ c_high (fs_heap fs) f iv = Ok hi /\ c_low (fs_heap fs) f iv = Ok lo /\ candle_last iv = Ok la /\
    (rounded (within (e + 1)) o /\ rounded (within (e + 1)) hi /\ rounded (within (e + 1)) lo /\ rounded (within (e + 1)) la) /\
    real lo <= real o /\ real lo <= real la /\ real o <= real hi /\ real la <= real hi.
Proof.
  intros He Hmx Hi HT E0 Hh Ef Hv. destruct (hist_candle u q ref mx i ha T fs0 fs k f iv Hmx Hi E0 Hh Ef Hv) as (_ & o & hi & lo & la & E1 & E2 & E3 & E4).
  exists o, hi, lo, la. split; [auto|]. split; [auto|]. split; [auto|]. split; [auto|]. pose proof (ord_laws_b64 (e + 1) ltac:(lia)) as L.
  assert (fs_hist (only i) (fun tk _ => P_tick (within (e + 1)) tk) fs0 fs) as Hh'. { apply (hist_tick_weaken _ T); [|auto]. intros t r Ht. apply HT in Ht. apply value_within; auto. lia. }
  pose proof (hist_candle_rounded (within (e + 1)) L u q ref mx (only i) fs0 fs k f (in_ref i) iv o hi lo la Hmx E0 Hh' Ef Hv E1 E2 E3 E4) as R. split; [exact R|].
  destruct (hist_candle_order (within (e + 1)) L u q ref mx (only i) fs0 fs k f (in_ref i) iv o hi lo la Hmx E0 Hh' Ef Hv E1 E2 E3 E4) as (O1 & O2 & O3 & O4).
  destruct R as (R1 & R2 & R3 & R4). apply (rounded_P _ L) in R1, R2, R3, R4. destruct R1 as [F1 _], R2 as [F2 _], R3 as [F3 _], R4 as [F4 _].
  apply fle_fin in O1; auto. apply fle_fin in O2; auto. apply fle_fin in O3; auto. apply fle_fin in O4; auto.
Qed.

Lemma candle_finite_b64 u q ref mx i ha (T : tick b64 -> res unit -> Prop) fs0 (fs : fset b64) k f iv : (1 <= mx)%Z -> in_kind i = KCandle ha -> (forall t r, T t r -> quotes_within 1019 t) ->
  fset_init u q ref mx = Ok fs0 -> fs_hist (only i) T fs0 fs -> fs_heap fs !! k = Some f -> value_at fs (in_ref i) k = Some iv ->
  exists o hi lo la, c_open (fs_heap fs) f iv = Ok o /\ c_high (fs_heap fs) f iv = Ok hi /\ c_low (fs_heap fs) f iv = Ok lo /\ candle_last iv = Ok la /\
    is_finite o = true /\ is_finite hi = true /\ is_finite lo = true /\ is_finite la = true /\
    real lo <= real o /\ real lo <= real la /\ real o <= real hi /\ real la <= real hi.
Proof.
  intros Hmx Hi HT E0 Hh Ef Hv. destruct (candle_prices_b64 1019 u q ref mx i ha T fs0 fs k f iv ltac:(lia) Hmx Hi HT E0 Hh Ef Hv) as (o & hi & lo & la & E1 & E2 & E3 & E4 & (R1 & R2 & R3 & R4) & O).
  exists o, hi, lo, la. do 4 (split; [auto|]). pose proof (ord_laws_b64 1020 ltac:(lia)) as L. apply (rounded_P _ L) in R1, R2, R3, R4. destruct R1 as [F1 _], R2 as [F2 _], R3 as [F3 _], R4 as [F4 _]. auto 8.
Qed.
Lemma tick_spread_b64 (d : dtarg) (b a : numarg b64) (t : tick b64) : tick_init d b a = Ok t ->
  is_finite (tk_bid t) = true -> is_finite (tk_ask t) = true -> fleb (fofZ 0) (tk_spread t) = true.
Proof.
  intros E Fb Fa. destruct (proj1 (tick_accepts d b a t) E) as (? & ? & ? & _ & _ & _ & Hlt & _ & <- & <-). now apply spread_nonneg_b64.
Qed.
