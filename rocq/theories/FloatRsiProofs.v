(** Candle geometry and relative strength on Python floats. *)
From Coq Require Import Reals.
From Flocq Require Import Core BinarySingleNaN Relative.
From Verif Require Export FloatModelProofs.
From Coq Require Import Lra Psatz.
Open Scope R_scope.

(** ** Geometry of candles *)
Lemma rounded_decimal e o : (0 <= e <= 31)%Z -> rounded (within e) o -> exists k, decimal k o /\ Rabs (IZR k / 100) <= bpow radix2 32.
Proof.
  intros He (x & [Fx Bx] & ->). exists (cent (real x)). split; [now apply decimal_round2|]. pose proof (cent_half (real x)) as H. apply Rabs_le_inv in H, Bx.
  assert (bpow radix2 e <= bpow radix2 31) as B by (apply bpow_le; lia). change 32%Z with (31 + 1)%Z. rewrite bpow_S. assert (1 <= bpow radix2 31) by (apply (bpow_le radix2 0 31); lia). apply Rabs_le. lra.
Qed.
Lemma bpow32_40 k : Rabs (IZR k / 100) <= bpow radix2 32 -> Rabs (IZR k / 100) <= bpow radix2 40.
Proof. intros B. assert (bpow radix2 32 <= bpow radix2 40) by (apply bpow_le; lia). lra. Qed.
Lemma decimal_lt k j x y : decimal k x -> decimal j y -> Rabs (IZR k / 100) <= bpow radix2 32 -> Rabs (IZR j / 100) <= bpow radix2 32 -> (k < j)%Z <-> real x < real y.
Proof.
  intros Hx Hy Bk Bj. split.
  - intros H. assert (k <= j)%Z as Hle by lia. pose proof (decimal_le _ _ _ _ Hx Hy Hle) as L. destruct (Req_dec (real x) (real y)) as [E|N]; [|lra].
    pose proof (decimal_cent _ _ Hx (bpow32_40 _ Bk)) as C1. pose proof (decimal_cent _ _ Hy (bpow32_40 _ Bj)) as C2. rewrite E in C1. lia.
  - intros H. destruct (Z_lt_le_dec k j) as [C|C]; [auto|]. pose proof (decimal_le _ _ _ _ Hy Hx C). lra.
Qed.
Lemma abs_decimal k x : decimal k x -> decimal (Z.abs k) (fabs x) /\ real (fabs x) = Rabs (real x).
Proof.
  intros [Fx E]. change (real x = rnd (IZR k / 100)) in E. assert (real (fabs x) = Rabs (real x)) as A by (apply (B2R_Babs 53 1024)). split; [|auto]. split; [change (fabs x) with (Babs x); now rewrite is_finite_Babs|].
  rewrite A, E. change (Rabs (rnd (IZR k / 100)) = rnd (IZR (Z.abs k) / 100)). rewrite <- (round_NE_abs radix2 fexp64). rewrite abs_IZR. f_equal. unfold Rdiv. rewrite Rabs_mult, (Rabs_pos_eq (/ 100)) by lra. reflexivity.
Qed.
Lemma abs_sub_decimal k j x y : decimal k x -> decimal j y -> Rabs (IZR k / 100) <= bpow radix2 32 -> Rabs (IZR j / 100) <= bpow radix2 32 -> decimal (Z.abs (k - j)) (round2 (fabs (fsub x y))).
Proof.
  intros Hx Hy Bk Bj. destruct (sub_decimal _ _ _ _ Hx Hy Bk Bj) as (_ & [Fd _] & Hd).
  assert (real (fabs (fsub x y)) = Rabs (real (fsub x y))) as A by (apply (B2R_Babs 53 1024)). assert (is_finite (fabs (fsub x y)) = true) as Fa by (change (fabs (fsub x y)) with (Babs (fsub x y)); now rewrite is_finite_Babs).
  assert (cent (real (fabs (fsub x y))) = Z.abs (k - j)) as <-; [|now apply decimal_round2].
  assert (Z.abs (k - j) <= cent (real (fabs (fsub x y))) <= Z.abs (k - j))%Z; [|lia]. apply cent_range. rewrite A, abs_IZR. set (d := real (fsub x y)) in *. set (z := IZR (k - j)) in *. clearbody d z. clear - Hd.
  assert (Rabs (Rabs d - Rabs (z / 100)) <= / 2 ^ 18) as H by (eapply Rle_trans; [apply Rabs_triang_inv2|exact Hd]). unfold Rdiv in H. rewrite Rabs_mult, (Rabs_pos_eq (/ 100)) in H by lra. apply Rabs_le_inv in H. lra.
Qed.
Lemma truthy_decimal k x : decimal k x -> Rabs (IZR k / 100) <= bpow radix2 32 -> ftruthy x = negb (k =? 0)%Z.
Proof.
  intros Hx Bk. unfold ftruthy. f_equal. destruct (Z.eqb_spec k 0) as [->|N].
  - apply feq_fin; [apply Hx|reflexivity|]. change (real f0) with 0. rewrite (decimal_real _ _ Hx). unfold Rdiv. rewrite Rmult_0_l. apply round_0. typeclasses eauto.
  - destruct (feqb x f0) eqn:E; [|auto]. apply feq_fin in E; [|apply Hx|reflexivity]. change (real f0) with 0 in E. pose proof (decimal_cent _ _ Hx (bpow32_40 _ Bk)) as C. rewrite E in C. unfold cent in C. rewrite Rmult_0_l, (ZnearestE_IZR 0) in C. lia.
Qed.
Lemma max_decimal k j x y : decimal k x -> decimal j y -> Rabs (IZR k / 100) <= bpow radix2 32 -> Rabs (IZR j / 100) <= bpow radix2 32 -> decimal (Z.max k j) (fmax x y).
Proof.
  intros Hx Hy Bk Bj. unfold fmax. destruct (fltb x y) eqn:E.
  - apply flt_fin in E; [|apply Hx|apply Hy]. apply (decimal_lt _ _ _ _ Hx Hy Bk Bj) in E. now rewrite Z.max_r by lia.
  - destruct (Z_lt_le_dec k j) as [C|C]; [apply (decimal_lt _ _ _ _ Hx Hy Bk Bj), flt_fin in C; [congruence|apply Hx|apply Hy]|now rewrite Z.max_l by lia].
Qed.
Lemma min_decimal k j x y : decimal k x -> decimal j y -> Rabs (IZR k / 100) <= bpow radix2 32 -> Rabs (IZR j / 100) <= bpow radix2 32 -> decimal (Z.min k j) (fmin x y).
Proof.
  intros Hx Hy Bk Bj. unfold fmin. destruct (fltb y x) eqn:E.
  - apply flt_fin in E; [|apply Hy|apply Hx]. apply (decimal_lt _ _ _ _ Hy Hx Bj Bk) in E. now rewrite Z.min_r by lia.
  - destruct (Z_lt_le_dec j k) as [C|C]; [apply (decimal_lt _ _ _ _ Hy Hx Bj Bk), flt_fin in C; [congruence|apply Hy|apply Hx]|now rewrite Z.min_l by lia].
Qed.

Lemma geometry_b64 e u q ref mx i ha (T : tick b64 -> res unit -> Prop) fs0 (fs : fset b64) k f iv : (0 <= e <= 30)%Z -> (1 <= mx)%Z -> in_kind i = KCandle ha -> (forall t r, T t r -> quotes_within e t) ->
  fset_init u q ref mx = Ok fs0 -> fs_hist (only i) T fs0 fs -> fs_heap fs !! k = Some f -> value_at fs (in_ref i) k = Some iv ->
  exists o hi lo la co ch cl ca, c_open (fs_heap fs) f iv = Ok o /\ c_high (fs_heap fs) f iv = Ok hi /\ c_low (fs_heap fs) f iv = Ok lo /\ candle_last iv = Ok la /\
    decimal co o /\ decimal ch hi /\ decimal cl lo /\ decimal ca la /\ (cl <= co <= ch)%Z /\ (cl <= ca <= ch)%Z /\
    Rabs (real (candle_height hi lo) - IZR (ch - cl) / 100) <= / 2 ^ 18 /\
    if ((co =? 0) || (ca =? 0))%Z then candle_head o hi la = None /\ candle_body o la = None /\ candle_tail o lo la = None /\ candle_color o la = None
    else exists hd bd tl, candle_head o hi la = Some hd /\ candle_body o la = Some bd /\ candle_tail o lo la = Some tl /\
      decimal (ch - Z.max co ca) hd /\ decimal (Z.abs (co - ca)) bd /\ decimal (Z.min co ca - cl) tl /\
      candle_color o la = Some (if (co <? ca)%Z then GREEN else if (ca <? co)%Z then RED else BLACK).
Proof.
  intros He Hmx Hi HT E0 Hh Ef Hv. destruct (candle_prices_b64 e u q ref mx i ha T fs0 fs k f iv ltac:(lia) Hmx Hi HT E0 Hh Ef Hv) as (o & hi & lo & la & E1 & E2 & E3 & E4 & (R1 & R2 & R3 & R4) & O1 & O2 & O3 & O4).
  assert (0 <= e + 1 <= 31)%Z as He' by lia. destruct (rounded_decimal _ _ He' R1) as (co & D1 & B1), (rounded_decimal _ _ He' R2) as (ch & D2 & B2), (rounded_decimal _ _ He' R3) as (cl & D3 & B3), (rounded_decimal _ _ He' R4) as (ca & D4 & B4).
  exists o, hi, lo, la, co, ch, cl, ca. do 8 (split; [assumption|]).
  assert (forall a b x y, decimal a x -> decimal b y -> Rabs (IZR a / 100) <= bpow radix2 32 -> Rabs (IZR b / 100) <= bpow radix2 32 -> real x <= real y -> (a <= b)%Z) as Hle.
  { intros a b x y Ha Hb Ba Bb H. destruct (Z_lt_le_dec b a) as [C|C]; [|auto]. apply (decimal_lt _ _ _ _ Hb Ha Bb Ba) in C. lra. }
  assert (cl <= co)%Z as L1 by eauto. assert (cl <= ca)%Z as L2 by eauto. assert (co <= ch)%Z as L3 by eauto. assert (ca <= ch)%Z as L4 by eauto.
  split; [lia|]. split; [lia|]. split; [now apply sub_decimal|].
  pose proof (truthy_decimal _ _ D1 B1) as T1. pose proof (truthy_decimal _ _ D4 B4) as T4. unfold candle_head, candle_body, candle_tail, candle_color. rewrite T1, T4, !Bool.negb_involutive.
  destruct ((co =? 0) || (ca =? 0))%Z eqn:Ez; [auto|]. do 3 eexists. split; [reflexivity|]. split; [reflexivity|]. split; [reflexivity|].
  assert (Rabs (IZR (Z.max co ca) / 100) <= bpow radix2 32) as Bm by (destruct (Z.max_spec co ca) as [[_ ->]|[_ ->]]; auto). assert (Rabs (IZR (Z.min co ca) / 100) <= bpow radix2 32) as Bn by (destruct (Z.min_spec co ca) as [[_ ->]|[_ ->]]; auto).
  split; [apply sub_decimal; auto; now apply max_decimal|]. split; [now apply abs_sub_decimal|]. split; [apply sub_decimal; auto; now apply min_decimal|].
  assert (forall a b x y, decimal a x -> decimal b y -> Rabs (IZR a / 100) <= bpow radix2 32 -> Rabs (IZR b / 100) <= bpow radix2 32 -> fltb x y = (a <? b)%Z) as Hlt.
  { intros a b x y Ha Hb Ba Bb. destruct (Z.ltb_spec a b) as [C|C]; [apply flt_fin; [apply Ha|apply Hb|now apply (decimal_lt a b)]|]. destruct (fltb x y) eqn:E; [|auto]. apply flt_fin in E; [|apply Ha|apply Hb]. apply (decimal_lt _ _ _ _ Ha Hb Ba Bb) in E. lia. }
  rewrite (Hlt co ca), (Hlt ca co) by auto. destruct (co <? ca)%Z, (ca <? co)%Z; reflexivity.
Qed.

(** ** Relative strength *)
(** Multiples of 2^-59, among which the floats of cents. *)
Definition mult59 (x : R) : Prop := exists z, x = IZR z * bpow radix2 (-59).
Lemma mult59_0 : mult59 0. Proof. exists 0%Z. lra. Qed.
Lemma mult59_plus x y : mult59 x -> mult59 y -> mult59 (x + y).
Proof. intros [a ->] [b ->]. exists (a + b)%Z. rewrite plus_IZR. lra. Qed.
Lemma mult59_opp x : mult59 x -> mult59 (- x). Proof. intros [a ->]. exists (- a)%Z. rewrite opp_IZR. lra. Qed.
Lemma mult59_big y : generic_format radix2 fexp64 y -> bpow radix2 (-7) <= Rabs y -> mult59 y.
Proof.
  intros G H. rewrite G. unfold F2R. cbn [Fnum Fexp]. set (m := Ztrunc _). set (c := cexp radix2 fexp64 y).
  assert (-59 <= c)%Z as Hc. { unfold c, cexp. assert (-7 < mag radix2 y)%Z as Hm by (apply mag_gt_bpow; exact H). unfold SpecFloat.fexp, SpecFloat.emin. lia. }
  exists (m * radix2 ^ (c + 59))%Z. rewrite mult_IZR, IZR_Zpower, Rmult_assoc, <- bpow_plus by lia. do 2 f_equal. lia.
Qed.
Lemma rnd_mult59 x : mult59 x -> mult59 (rnd x).
Proof.
  intros [z ->]. destruct (Z_lt_le_dec (Z.abs z) (2 ^ 53)) as [C|C]; [exists z; apply rnd_F2R; [auto|lia]|].
  apply mult59_big; [apply generic_format_round; typeclasses eauto|]. rewrite <- (round_NE_abs radix2 fexp64). apply Rle_trans with (bpow radix2 (-6)); [apply bpow_le; lia|].
  rewrite <- (rnd_bpow (-6)) by lia. apply rnd_le. rewrite Rabs_mult, <- abs_IZR, (Rabs_pos_eq (bpow radix2 (-59))) by apply bpow_ge_0. change (-6)%Z with (53 + -59)%Z. rewrite bpow_plus. apply Rmult_le_compat_r; [apply bpow_ge_0|].
  change (bpow radix2 53) with (IZR (2 ^ 53)). now apply IZR_le.
Qed.
Lemma decimal_mult59 k x : decimal k x -> mult59 (real x).
Proof.
  intros Hd. rewrite (decimal_real _ _ Hd). destruct (Z.eq_dec k 0%Z) as [->|N]; [unfold Rdiv; rewrite Rmult_0_l, round_0 by typeclasses eauto; apply mult59_0|].
  apply mult59_big; [apply generic_format_round; typeclasses eauto|]. rewrite <- (round_NE_abs radix2 fexp64), <- (rnd_bpow (-7)) by lia. apply rnd_le.
  unfold Rdiv. rewrite Rabs_mult, <- abs_IZR, (Rabs_pos_eq (/ 100)) by lra. assert (1 <= Z.abs k)%Z as H by lia. apply IZR_le in H. change (bpow radix2 (-7)) with (/ 128). lra.
Qed.
Lemma mult59_nz x : mult59 x -> x <> 0 -> bpow radix2 (-59) <= Rabs x.
Proof.
  intros [z ->] N. rewrite Rabs_mult, <- abs_IZR, (Rabs_pos_eq (bpow radix2 (-59))) by apply bpow_ge_0. rewrite <- (Rmult_1_l (bpow radix2 (-59))) at 1. apply Rmult_le_compat_r; [apply bpow_ge_0|].
  apply IZR_le. assert (z <> 0)%Z; [|lia]. intros ->. apply N. lra.
Qed.

(** A change between closing values: bounded, multiple of 2^-59. *)
Definition change_ok (x : b64) : Prop := within 803 x /\ mult59 (real x).
Lemma sub_change x y : within 801 x -> within 801 y -> mult59 (real x) -> mult59 (real y) -> change_ok (fsub x y).
Proof.
  intros Wx Wy Mx My. destruct (sub_bounded x y 801 ltac:(lia) Wx Wy) as [E W]. split; [apply (bounded_weaken _ 803) in W; [auto|lia]|]. rewrite E. apply rnd_mult59. unfold Rminus. apply mult59_plus; [auto|]. now apply mult59_opp.
Qed.
Lemma fchanges_ok (l : list b64) : Forall (fun x => within 801 x /\ mult59 (real x)) l -> Forall change_ok (fchanges l).
Proof.
  induction l as [|a l IH]; intros H; [constructor|]. destruct l as [|b l]; [constructor|]. rewrite fchanges_cons2. apply Forall_cons in H as [[Wa Ma] H]. pose proof (Forall_inv H) as [Wb Mb]. constructor; [now apply sub_change|now apply IH].
Qed.
Definition sums_ok (m : nat) (ps ns : b64) : Prop :=
  is_finite ps = true /\ is_finite ns = true /\ mult59 (real ps) /\ mult59 (real ns) /\ 0 <= real ps <= INR m * bpow radix2 803 /\ - (INR m * bpow radix2 803) <= real ns <= 0.
Lemma rnd_0 : rnd 0 = 0. Proof. apply round_0. typeclasses eauto. Qed.
Lemma sums_step m ps ns v : (Z.of_nat (S m) < 2 ^ 53)%Z -> sums_ok m ps ns -> change_ok v ->
  let '(ps', ns') := if fleb f0 v then (fadd ps v, ns) else (ps, fadd ns v) in sums_ok (S m) ps' ns'.
Proof.
  intros Hm (Fp & Fn & Mp & Mn & Bp & Bn) [[Fv Bv] Mv]. apply Rabs_le_inv in Bv. pose proof (bpow_gt_0 radix2 803) as H803.
  assert (rnd (INR (S m) * bpow radix2 803) = INR (S m) * bpow radix2 803) as Er by (rewrite INR_IZR_INZ; apply rnd_F2R; lia). assert (INR (S m) * bpow radix2 803 <= bpow radix2 856) as Hb.
  { rewrite INR_IZR_INZ. change 856%Z with (53 + 803)%Z. rewrite bpow_plus. apply Rmult_le_compat_r; [lra|]. change (bpow radix2 53) with (IZR (2 ^ 53)). apply IZR_le. lia. }
  rewrite S_INR in *. destruct (fleb f0 v) eqn:E.
  - apply fle_fin in E; [|reflexivity|auto]. change (real f0) with 0 in E. assert (0 <= real ps + real v <= (INR m + 1) * bpow radix2 803) as [S1 S2] by lra.
    destruct (add_fin ps v 856) as [Ea [Fa _]]; auto; [lia|apply Rabs_le; lra|]. split; [auto|]. split; [auto|]. rewrite Ea. split; [apply rnd_mult59; now apply mult59_plus|]. split; [auto|].
    rewrite S_INR. split; [|lra]. apply rnd_le in S1, S2. rewrite rnd_0 in S1. rewrite Er in S2. lra.
  - assert (real v < 0) as Hv. { destruct (Rlt_le_dec (real v) 0) as [C|C]; [auto|]. assert (fleb f0 v = true) by (apply fle_fin; [reflexivity|auto|exact C]). congruence. }
    assert (- ((INR m + 1) * bpow radix2 803) <= real ns + real v <= 0) as [S1 S2] by lra.
    destruct (add_fin ns v 856) as [Ea [Fa _]]; auto; [lia|apply Rabs_le; lra|]. split; [auto|]. split; [auto|]. split; [auto|]. rewrite Ea. split; [apply rnd_mult59; now apply mult59_plus|].
    rewrite S_INR. split; [lra|]. apply rnd_le in S1, S2. rewrite rnd_0 in S2. rewrite rnd_opp, Er in S1. lra.
Qed.
Lemma sums_fold (l : list b64) m ps ns : (Z.of_nat (m + length l) < 2 ^ 53)%Z -> Forall change_ok l -> sums_ok m ps ns ->
  let '(ps', ns') := fold_left (fun '(p, n) v => if fleb f0 v then (fadd p v, n) else (p, fadd n v)) l (ps, ns) in sums_ok (m + length l) ps' ns'.
Proof.
  revert m ps ns. induction l as [|v l IH]; intros m ps ns Hm Hl Hs; cbn [fold_left length] in *; [now rewrite Nat.add_0_r|].
  apply Forall_cons in Hl as [Hv Hl]. pose proof (sums_step m ps ns v ltac:(lia) Hs Hv) as St. rewrite Nat.add_succ_r, <- Nat.add_succ_l.
  destruct (fleb f0 v); (apply IH; [lia|auto|exact St]).
Qed.
Lemma build_sums_b64 (l : list b64) : (Z.of_nat (length l) < 2 ^ 53)%Z -> Forall change_ok l -> let '(ps, ns) := build_sums l in sums_ok (length l) ps ns.
Proof.
  intros Hn Hl. apply (sums_fold l 0 f0 f0); auto. unfold sums_ok. change (real f0) with 0. change (is_finite f0) with true. simpl INR. rewrite Rmult_0_l. split; [auto|]. split; [auto|]. split; [apply mult59_0|]. split; [apply mult59_0|]. lra.
Qed.

Lemma divr_ok (x y : b64) : is_finite y = true -> real y <> 0 -> fdivr x y = Ok (fdiv x y).
Proof. intros Fy Hy. unfold fdivr. destruct (feqb y f0) eqn:E; [|auto]. apply feq_fin in E; [|auto|reflexivity]. change (real f0) with 0 in E. contradiction. Qed.

Lemma build_rsi_b64 n (l : list b64) : (1 <= n < 2 ^ 53)%Z -> Z.of_nat (length l) = n -> Forall change_ok l ->
  exists x, build_rsi n l = Ok x /\ is_finite x = true /\ 0 <= real x <= 100.
Proof.
  intros Hn Hl Hc. pose proof (build_sums_b64 l ltac:(lia) Hc) as Hs. unfold build_rsi. destruct (build_sums l) as [ps ns]. destruct Hs as (Fp & Fn & Mp & Mn & Bp & Bn).
  destruct (ofZ_fin 100 ltac:(lia)) as [V100 F100]. destruct (ofZ_fin 1 ltac:(lia)) as [V1 F1]. destruct (ofZ_fin 0 ltac:(lia)) as [V0 F0'].
  destruct (feqb ns f0) eqn:E1; [exists (fofZ 100); rewrite V100; split; [auto|]; split; [auto|lra]|].
  destruct (feqb ps f0) eqn:E2; [exists (fofZ 0); rewrite V0; split; [auto|]; split; [auto|lra]|].
  assert (real ns <> 0) as Nn. { intros C. assert (feqb ns f0 = true) by (apply feq_fin; [auto|reflexivity|exact C]). congruence. }
  destruct (ofZ_fin n ltac:(lia)) as [Vn Fnn]. assert (1 <= IZR n <= bpow radix2 53) as Rn by (change (bpow radix2 53) with (IZR (2 ^ 53)); split; apply IZR_le; lia).
  assert (INR (length l) * bpow radix2 803 <= bpow radix2 856) as Hb. { rewrite INR_IZR_INZ, Hl. change 856%Z with (53 + 803)%Z. rewrite bpow_plus. apply Rmult_le_compat_r; [apply bpow_ge_0|lra]. }
  (* averages *)
  assert (forall x, 0 <= x -> 0 <= x / IZR n <= x) as Hdiv. { intros x Hx. split; [apply Rmult_le_pos; [auto|left; apply Rinv_0_lt_compat; lra]|]. unfold Rdiv. rewrite <- (Rmult_1_r x) at 2. apply Rmult_le_compat_l; [auto|]. rewrite <- Rinv_1. apply Rinv_le; lra. }
  rewrite !divr_ok by (rewrite ?Vn; auto; lra). cbn [rbind].
  destruct (div_fin ps (fofZ n) 856) as [Ep [Fpa _]]; [lia|auto|rewrite Vn; lra|rewrite Vn; destruct (Hdiv (real ps)); [lra|]; rewrite Rabs_pos_eq; lra|]. rewrite Vn in Ep.
  assert (0 <= real (fdiv ps (fofZ n)) <= bpow radix2 856) as Bpa. { rewrite Ep. destruct (Hdiv (real ps)) as [D1 D2]; [lra|]. apply rnd_le in D1. rewrite rnd_0 in D1. split; [auto|]. rewrite <- (rnd_bpow 856) by lia. apply rnd_le. lra. }
  assert (Rabs (real ns / IZR n) = - real ns / IZR n) as Ean. { unfold Rdiv. rewrite Rabs_mult, (Rabs_left1 (real ns)), (Rabs_pos_eq (/ IZR n)) by (try (left; apply Rinv_0_lt_compat); lra). reflexivity. }
  destruct (div_fin ns (fofZ n) 856) as [En [Fna _]]; [lia|auto|rewrite Vn; lra|rewrite Vn, Ean; destruct (Hdiv (- real ns)); lra|]. rewrite Vn in En.
  assert (bpow radix2 (-112) <= Rabs (real (fdiv ns (fofZ n)))) as Bna.
  { rewrite En, <- (round_NE_abs radix2 fexp64), <- (rnd_bpow (-112)) by lia. apply rnd_le. rewrite Ean. pose proof (mult59_nz _ Mn Nn) as H59. rewrite Rabs_left1 in H59 by lra.
    change (-112)%Z with (-59 + - (53))%Z. rewrite bpow_plus, bpow_opp. unfold Rdiv. apply Rmult_le_compat; [apply bpow_ge_0|left; apply Rinv_0_lt_compat, bpow_gt_0|lra|]. apply Rinv_le; lra. }
  set (pa := fdiv ps (fofZ n)) in *. set (na := fdiv ns (fofZ n)) in *. pose proof (bpow_gt_0 radix2 (-112)) as H112.
  assert (real (fabs na) = Rabs (real na)) as Eab by (apply (B2R_Babs 53 1024)). assert (is_finite (fabs na) = true) as Fab by (change (fabs na) with (Babs na); now rewrite is_finite_Babs).
  rewrite divr_ok by (rewrite ?Eab; auto; lra). cbn [rbind].
  assert (0 <= real pa / Rabs (real na) <= bpow radix2 968) as Brs.
  { split; [apply Rmult_le_pos; [lra|left; apply Rinv_0_lt_compat; lra]|]. change 968%Z with (856 + - (-112))%Z. rewrite bpow_plus, bpow_opp. unfold Rdiv. apply Rmult_le_compat; [lra|left; apply Rinv_0_lt_compat; lra|lra|]. apply Rinv_le; lra. }
  destruct (div_fin pa (fabs na) 968) as [Ers [Frs _]]; [lia|auto|rewrite Eab; lra|rewrite Eab, Rabs_pos_eq; lra|]. rewrite Eab in Ers. set (rs := fdiv pa (fabs na)) in *.
  assert (0 <= real rs <= bpow radix2 968) as Bs. { rewrite Ers. destruct Brs as [B1 B2]. apply rnd_le in B1, B2. rewrite rnd_0 in B1. rewrite rnd_bpow in B2 by lia. lra. }
  assert (1 <= bpow radix2 968) as H968 by (apply (bpow_le radix2 0 968); lia).
  assert (1 <= 1 + real rs <= bpow radix2 969) as B1s by (change 969%Z with (968 + 1)%Z; rewrite bpow_S; lra).
  destruct (add_fin (fofZ 1) rs 969) as [Es [Fs _]]; [lia|auto|auto|rewrite V1, Rabs_pos_eq; lra|]. rewrite V1 in Es. set (s := fadd (fofZ 1) rs) in *.
  assert (rnd 1 = 1) as R1 by (change 1 with (bpow radix2 0); apply rnd_bpow; lia). assert (rnd 100 = 100) as R100 by (rewrite <- V100; apply rnd_val).
  assert (1 <= real s) as Bss. { rewrite Es. destruct B1s as [B1 _]. apply rnd_le in B1. rewrite R1 in B1. exact B1. }
  rewrite divr_ok by (auto; lra). cbn [rbind].
  assert (0 <= 100 / real s <= 100) as Bd. { split; [apply Rmult_le_pos; [lra|left; apply Rinv_0_lt_compat; lra]|]. unfold Rdiv. rewrite <- (Rmult_1_r 100) at 2. apply Rmult_le_compat_l; [lra|]. rewrite <- Rinv_1. apply Rinv_le; lra. }
  assert (100 <= bpow radix2 7) as H7 by (change (bpow radix2 7) with 128; lra).
  destruct (div_fin (fofZ 100) s 7) as [Ed [Fd _]]; [lia|auto|lra|rewrite V100, Rabs_pos_eq; lra|]. rewrite V100 in Ed. set (d := fdiv (fofZ 100) s) in *.
  assert (0 <= real d <= 100) as Bdd. { rewrite Ed. destruct Bd as [B1 B2]. apply rnd_le in B1, B2. rewrite rnd_0 in B1. rewrite R100 in B2. lra. }
  destruct (sub_fin (fofZ 100) d 7) as [Ex [Fx _]]; [lia|auto|auto|rewrite V100, Rabs_pos_eq; lra|]. rewrite V100 in Ex. set (x := fsub (fofZ 100) d) in *.
  assert (0 <= real x <= 100) as Bx. { rewrite Ex. assert (0 <= 100 - real d) as B1 by lra. assert (100 - real d <= 100) as B2 by lra. apply rnd_le in B1, B2. rewrite rnd_0 in B1. rewrite R100 in B2. lra. }
  exists (round2 x). split; [reflexivity|]. destruct (round2_spec x Fx) as [Er Fr]. split; [auto|]. rewrite Er.
  assert (0 <= cent (real x) <= 10000)%Z as [C1 C2] by (apply cent_range; lra). apply IZR_le in C1, C2. split; [rewrite <- rnd_0; apply rnd_le; lra|]. apply Rle_trans with (rnd 100); [apply rnd_le|]; lra.
Qed.

Lemma value_ok t : quotes_within 800 t -> within 801 (tk_value t) /\ mult59 (real (tk_value t)).
Proof.
  intros Ht. split; [now apply (value_within 800)|]. pose proof (spread_within 800 t ltac:(lia) Ht) as Hs. destruct Ht as [Hb Ha]. eapply decimal_mult59. apply decimal_round2.
  destruct (half_fin (tk_spread t) 800 ltac:(lia) Hs) as [_ Wh]. now apply (add_bounded (tk_bid t) _ 800 ltac:(lia) Hb Wh).
Qed.
Lemma Forall_window {A} (P : A -> Prop) p k (l : list A) : Forall P l -> Forall P (window (F := A) p k l).
Proof. intros H. unfold window. now apply Forall_drop, Forall_take. Qed.

Lemma rsi_hist_b64 u q ref mx i p o (fs0 fs : fset b64) k iv : (2 <= mx)%Z -> (2 <= p * q < 2 ^ 53)%Z -> in_kind i = KRSI p o -> in_mopen i = false ->
  fset_init u q ref mx = Ok fs0 -> fs_hist (only i) (fun tk r => quotes_within 800 tk /\ r = Ok ()) fs0 fs -> value_at fs (in_ref i) k = Some iv ->
  exists s lc v, valued_from fs (in_ref i) s /\ (s <= k)%nat /\ iv_data iv = DRSI (p * q) lc v /\
    if (S k - (s - 1) <=? Z.to_nat (p * q))%nat then v = None
    else exists x, v = Some x /\ is_finite x = true /\ 0 <= real x <= 100.
Proof.
  intros Hmx Hn Hi Hmo E0 Hh Hv. assert (fs_hist (only i) no_exn fs0 fs) as Hh1 by (apply (hist_tick_weaken _ _ _ _ _) with (2 := Hh); intros t r [_ H]; exact H).
  assert (fs_hist (only i) (fun tk _ => quotes_within 800 tk) fs0 fs) as Hh2 by (apply (hist_tick_weaken _ _ _ _ _) with (2 := Hh); intros t r [H _]; exact H).
  pose proof (fset_init_wf _ _ _ _ _ E0) as (_ & H0 & _).
  destruct (hist_all_vals (only i) (quotes_within 800) mx q (fun _ => True) fs0 fs) as (_ & _ & Hl); auto; [lia|exact (base_init _ _ _ _ _ E0)|].
  destruct (rsi_hist u q ref mx i p o fs0 fs k iv Hmx ltac:(lia) Hi Hmo E0 Hh1 Hv) as (s & lc & v & H1 & H2 & H3 & H4). exists s, lc, v. split; [auto|]. split; [auto|]. split; [auto|].
  destruct (Nat.leb_spec (S k - (s - 1)) (Z.to_nat (p * q))) as [Hle|Hgt]; [auto|]. destruct H4 as (x & -> & Hx). exists x. split; [auto|].
  assert (Forall (fun c => within 801 c /\ mult59 (real c)) (closes fs)) as Hc. { unfold closes. unfold lasts in Hl. rewrite Forall_fmap in Hl. apply Forall_fmap. eapply Forall_impl; [exact Hl|]. intros fr Hfr. now apply value_ok. }
  assert (k < length (fs_heap fs))%nat as Hk by (unfold value_at in Hv; destruct (fs_heap fs !! k) eqn:E; [now apply lookup_lt_Some in E|discriminate]).
  destruct (build_rsi_b64 (p * q) (fchanges (window (S (Z.to_nat (p * q))) k (closes fs)))) as (x' & Ex & Hx'); [lia| |apply fchanges_ok, Forall_window, Hc|rewrite Hx in Ex; injection Ex as <-; exact Hx'].
  rewrite fchanges_length. unfold window. rewrite drop_length, take_length. unfold closes. rewrite map_length. lia.
Qed.
