(** Results of strategies on Python floats (C19). *)
From Coq Require Import Reals.
From Flocq Require Import Core BinarySingleNaN.
From Verif Require Export FloatAverageProofs SpecFloatTrade.
From Verif Require Import SpecTrade TradeProofs World SpecWorld StrategyProofs.
From Coq Require Import Lra Psatz.
Open Scope R_scope.

(** Error bound of the result of a trade, in units of 2^-21. *)
Definition slack (t : trade b64) : Z := (Z.of_nat (length (tr_closes t)) + 3)%Z.
Lemma cent_pnl_near t z g : cent_pnl t z g -> (Z.of_nat (length (tr_closes t)) <= 900)%Z -> (g <= 100 * 2 ^ 30)%Z -> near (IZR (slack t) * / 2 ^ 21) z (result t) /\ (Z.abs z <= g)%Z.
Proof.
  intros (ko & kv & ks & Do & Dv & Dk & Bo & Bv & Bk & Bq & Bc & -> & ->) Hn Hg. pose proof (Forall2_length _ _ _ Dk) as El. split.
  - destruct (pnl_sharp_b64 t ko kv ks Do Dv Dk Bo Bv Bk Bq Bc ltac:(lia) Hg) as [Fr Br]. split; [auto|]. eapply Rle_trans; [exact Br|]. right. f_equal. unfold slack. rewrite plus_IZR, <- INR_IZR_INZ, El. reflexivity.
  - assert (forall y, Z.abs (side (tr_dir t) * y) = Z.abs y) as Hs by (intros y; destruct (tr_dir t); cbn [side]; lia). rewrite Hs.
    assert (Z.abs (total (zip_with (fun c k => (k - ko) * tc_qty c) (tr_closes t) ks)) <= total (zip_with (fun c k => Z.abs ((k - ko) * tc_qty c)) (tr_closes t) ks))%Z as HS.
    { clear. revert ks. induction (tr_closes t) as [|c l IH]; intros [|k ks]; cbn [zip_with total]; try lia. specialize (IH ks). lia. } lia.
Qed.
Lemma total_nonneg l : Forall (fun z => 0 <= z)%Z l -> (0 <= total l)%Z. Proof. induction 1; cbn [total]; lia. Qed.
Lemma gross_nonneg t z g : cent_pnl t z g -> (0 <= g)%Z.
Proof.
  intros (ko & kv & ks & _ & _ & _ & _ & _ & _ & _ & _ & _ & ->). pose proof (Z.abs_nonneg ((kv - ko) * opened_quantities t)).
  assert (0 <= total (zip_with (fun c k => Z.abs ((k - ko) * tc_qty c)) (tr_closes t) ks))%Z; [|lia]. clear. revert ks. induction (tr_closes t) as [|c l IH]; intros [|k ks]; cbn [zip_with total]; try lia. specialize (IH ks). lia.
Qed.
Lemma sum_near (ts : list (trade b64)) (ps : list (Z * Z)) acc w n : Forall2 (fun t p => cent_pnl t (fst p) (snd p)) ts ps ->
  Forall (fun t => Z.of_nat (length (tr_closes t)) <= 900)%Z ts -> (Z.abs w + total (map snd ps) <= 100 * 2 ^ 30)%Z -> (0 <= n)%Z -> (n + total (map slack ts) + Z.of_nat (length ts) <= 8000)%Z -> near (IZR n * / 2 ^ 21) w acc ->
  near (IZR (n + total (map slack ts) + Z.of_nat (length ts)) * / 2 ^ 21) (w + total (map fst ps)) (fold_left fadd (map result ts) acc).
Proof.
  intros Hl. revert acc w n. induction Hl as [|t [z g] ts ps Ht Hl IH]; intros acc w n Hn Hb H0 H8 Ha; cbn [map total length fold_left fst snd] in *.
  - rewrite !Z.add_0_r. exact Ha.
  - apply Forall_cons in Hn as [Hn Hn'].
    assert (0 <= total (map snd ps))%Z as Hg0. { clear - Hl. induction Hl as [|u p us ps Hu Hl IH]; cbn [map total]; [lia|]. apply gross_nonneg in Hu. lia. }
    assert (0 <= total (map slack ts))%Z as Hsl. { clear. induction ts as [|u us IH]; cbn [map total]; [lia|]. unfold slack at 1. lia. }
    assert (0 <= slack t)%Z as Hs by (unfold slack; lia).
    assert (g <= 100 * 2 ^ 30)%Z as Hg by lia. destruct (cent_pnl_near _ _ _ Ht Hn Hg) as [Nt Bz].
    replace (n + (slack t + total (map slack ts)) + Z.of_nat (S (length ts)))%Z with ((n + slack t + 1) + total (map slack ts) + Z.of_nat (length ts))%Z by lia. rewrite Z.add_assoc.
    assert (IZR n <= 8000) as Rn by (apply IZR_le; lia). assert (IZR (slack t) <= 8000) as Rs by (apply IZR_le; lia).
    apply IH; [auto|lia|lia|lia|].
    replace (IZR (n + slack t + 1) * / 2 ^ 21) with (IZR n * / 2 ^ 21 + IZR (slack t) * / 2 ^ 21 + / 2 ^ 21) by (rewrite !plus_IZR; ring). apply near_add; [lia|lia|lra|lra|auto|auto].
Qed.
Lemma result_cents (w : world b64) s a ts ps : Forall2 (fun i t => w_trades w !! i = Some t) (sel_trades s a) ts -> Forall2 (fun t p => cent_pnl t (fst p) (snd p)) ts ps ->
  (total (map (fun t => Z.of_nat (length (tr_closes t)) + 4) ts) <= 900)%Z -> (total (map snd ps) <= 100 * 2 ^ 30)%Z ->
  decimal (total (map fst ps)) (strategy_result w s a).
Proof.
  intros Hi Hl Hn Hb. unfold strategy_result. assert (results_of w (sel_trades s a) = map result ts) as ->.
  { unfold results_of. f_equal. clear - Hi. induction Hi as [|i t l ts Ht Hl IH]; [auto|]. cbn [omap list_omap]. rewrite Ht. cbn. f_equal. exact IH. }
  assert (total (map slack ts) + Z.of_nat (length ts) <= 900)%Z as H9. { revert Hn. clear. generalize 900%Z. induction ts as [|t ts IH]; intros n H; cbn [map total length] in *; [lia|]. specialize (IH (n - (Z.of_nat (length (tr_closes t)) + 4))%Z ltac:(lia)). unfold slack at 1. lia. }
  assert (Forall (fun t => Z.of_nat (length (tr_closes t)) <= 900)%Z ts) as H9'.
  { revert Hn. clear. intros Hn. assert (forall n, (total (map (fun t => Z.of_nat (length (tr_closes t)) + 4) ts) <= n)%Z -> Forall (fun t => Z.of_nat (length (tr_closes t)) <= n)%Z ts) as H; [|auto]. clear Hn.
    induction ts as [|t ts IH]; intros n H; cbn [map total] in H; constructor.
    - assert (0 <= total (map (fun t => Z.of_nat (length (tr_closes t)) + 4) ts))%Z by (clear; induction ts; cbn [map total]; lia). lia.
    - apply IH. lia. }
  apply near_round. pose proof (sum_near ts ps f0 0 0 Hl H9' ltac:(cbn; lia) ltac:(lia) ltac:(lia)) as H.
  rewrite !Z.add_0_l in H. eapply near_weaken; [|apply H].
  - apply IZR_le in H9. lra.
  - split; [reflexivity|]. change (real f0) with 0. unfold Rdiv. rewrite !Rmult_0_l, Rminus_0_r, Rabs_R0. lra.
Qed.

(** ** Averages (C10) *)
Lemma closed_sum_b64 (t : trade b64) ko ks : decimal ko (tr_ov t) -> Forall2 (fun c k => decimal k (tc_value c)) (tr_closes t) ks ->
  (Z.abs ko <= 100 * 2 ^ 30)%Z -> Forall (fun k => Z.abs k <= 100 * 2 ^ 30)%Z ks ->
  Forall (fun c => Z.abs (tc_qty c) <= 2 ^ 53)%Z (tr_closes t) -> (Z.of_nat (length ks) <= 900)%Z ->
  (total (zip_with (fun c k => Z.abs ((k - ko) * tc_qty c)) (tr_closes t) ks) <= 100 * 2 ^ 30)%Z ->
  near (INR (length ks) * / 2 ^ 21) (side (tr_dir t) * total (zip_with (fun c k => (k - ko) * tc_qty c)%Z (tr_closes t) ks)) (closed_result t) /\
  Forall2 (fun c k => decimal (side (tr_dir t) * (k - ko)) (close_result_avg t c)) (tr_closes t) ks.
Proof.
  intros Do Dk Bo Bk Bc Hn Hb. set (d := tr_dir t).
  set (ws := map (fun z => side d * z)%Z (zip_with (fun c k => (k - ko) * tc_qty c)%Z (tr_closes t) ks)).
  assert (forall z, Z.abs (side d * z) = Z.abs z) as Hs by (intros z; destruct d; cbn [side]; lia).
  assert (map Z.abs ws = zip_with (fun c k => Z.abs ((k - ko) * tc_qty c)) (tr_closes t) ks) as Ews.
  { unfold ws. clear - Hs. revert ks. induction (tr_closes t) as [|c l IH]; intros [|k ks]; simpl; auto. f_equal; [apply Hs|apply IH]. }
  assert (forall l : list Z, (0 <= total (map Z.abs l))%Z) as Hp by (intros l; induction l as [|z l IH]; simpl; lia).
  assert (forall z (l : list Z), z ∈ l -> (Z.abs z <= total (map Z.abs l))%Z) as Hel. { intros z l Hz. induction Hz as [z l|z y l Hz IH]; simpl; [pose proof (Hp l); lia|pose proof (Z.abs_nonneg y); lia]. }
  assert (Forall2 (fun c k => decimal (side d * (k - ko)) (close_result_avg t c)) (tr_closes t) ks) as Ha.
  { clear - Dk Bk Do Bo. induction Dk as [|c k l ks' Hc Hl IH]; constructor.
    - apply Forall_cons in Bk as [Bk _]. unfold close_result_avg. fold d. exact (diff_decimal d k ko _ _ Bk Bo Hc Do).
    - apply Forall_cons in Bk as [_ Bk]. now apply IH. }
  split; [|exact Ha].
  assert (Forall2 decimal ws (map (close_result t) (tr_closes t))) as Hd.
  { assert (Forall (fun w => Z.abs w <= 100 * 2 ^ 30)%Z ws) as Bw. { apply Forall_forall. intros z Hz. apply Hel in Hz. rewrite Ews in Hz. lia. }
    clear - Ha Bc Bw. unfold ws in *. clear ws. induction Ha as [|c k l ks' Hc Hl IH]; simpl in *; constructor.
    - apply Forall_cons in Bc as [Bc _]. apply Forall_cons in Bw as [Bw _]. rewrite Z.mul_assoc in Bw |- *. unfold close_result. now apply mul_decimal_round.
    - apply Forall_cons in Bc as [_ Bc]. apply Forall_cons in Bw as [_ Bw]. now apply IH. }
  assert (length (map (close_result t) (tr_closes t)) = length ks) as El by (rewrite map_length; now apply Forall2_length in Dk).
  destruct (sum_decimal _ _ f0 0 0 Hd) as [Fs Hsum]; [rewrite El; lia|rewrite Ews; simpl; lia|reflexivity|change (real f0) with 0; simpl; unfold Rdiv; rewrite Rmult_0_l, Rminus_0_r, Rabs_R0; lra|].
  change (fold_left fadd (map (close_result t) (tr_closes t)) f0) with (closed_result t) in Fs, Hsum. rewrite Z.add_0_l, Nat.add_0_l, El in Hsum. unfold ws in Hsum. rewrite total_scale in Hsum. split; auto.
Qed.
Lemma closed_avg_b64 (t : trade b64) ko ks : decimal ko (tr_ov t) -> Forall2 (fun c k => decimal k (tc_value c)) (tr_closes t) ks ->
  (Z.abs ko <= 100 * 2 ^ 30)%Z -> Forall (fun k => Z.abs k <= 100 * 2 ^ 30)%Z ks -> Forall (fun c => 0 < tc_qty c)%Z (tr_closes t) -> tr_closes t <> [] -> (closed_quantities t <= 2 ^ 53)%Z -> (Z.of_nat (length ks) <= 900)%Z ->
  (total (zip_with (fun c k => Z.abs ((k - ko) * tc_qty c)) (tr_closes t) ks) <= 100 * 2 ^ 30)%Z ->
  exists v c1 c2, closed_result_avg t = Ok v /\ c1 ∈ tr_closes t /\ c2 ∈ tr_closes t /\ is_finite v = true /\ real (close_result_avg t c1) <= real v <= real (close_result_avg t c2).
Proof.
  intros Do Dk Bo Bk Hq Hne Hcq Hn Hb. rewrite closed_quantities_booked in Hcq.
  assert (Forall (fun c => tc_qty c <= booked (tr_closes t))%Z (tr_closes t) /\ (1 <= booked (tr_closes t))%Z) as [Hqb H1].
  { clear - Hq Hne. unfold booked. induction Hq as [|c l Hc Hl IH]; [easy|]. cbn [map total].
    assert (0 <= total (map tc_qty l))%Z as H0 by (clear - Hl; induction Hl; cbn [map total]; lia). split; [|lia]. constructor; [lia|]. destruct l as [|c' l]; [constructor|]. destruct IH as [IH _]; [discriminate|]. eapply Forall_impl; [exact IH|]. cbn beta. intros x Hx. lia. }
  destruct (closed_sum_b64 t ko ks Do Dk Bo Bk) as [[Fs Bs] Ha]; auto.
  { apply Forall_forall. intros c Hc. rewrite Forall_forall in Hq, Hqb. specialize (Hq _ Hc). specialize (Hqb _ Hc). lia. }
  set (S := (side (tr_dir t) * total (zip_with (fun c k => (k - ko) * tc_qty c)%Z (tr_closes t) ks))%Z) in *. set (p := booked (tr_closes t)) in *.
  set (ds := map (fun k => side (tr_dir t) * (k - ko))%Z ks).
  assert (ds <> []) as Hds. { unfold ds. destruct ks as [|k ks]; [|discriminate]. inversion Dk as [E|]. now rewrite <- E in Hne. }
  destruct (exists_min ds Hds) as (a & Ia & Hmin). destruct (exists_max ds Hds) as (c & Ic & Hmax).
  assert (a * p <= S <= c * p)%Z as HS.
  { unfold S, p, booked. unfold ds in Hmin, Hmax. clear - Hmin Hmax Hq Dk. induction Dk as [|x k l ks' Hc Hl IH]; cbn [zip_with map total] in *; [lia|]. apply Forall_cons in Hq as [Hx Hq].
    assert (a <= side (tr_dir t) * (k - ko) <= c)%Z as Hk by (split; [apply Hmin|apply Hmax]; left). destruct IH as [I1 I2]; [auto|intros z Hz; apply Hmin; now right|intros z Hz; apply Hmax; now right|]. nia. }
  assert (Z.abs S <= 100 * 2 ^ 30)%Z as BS.
  { assert (Z.abs S <= total (zip_with (fun c k => Z.abs ((k - ko) * tc_qty c)) (tr_closes t) ks))%Z; [|lia]. unfold S. assert (forall y, Z.abs (side (tr_dir t) * y) = Z.abs y) as Hs by (intros y; destruct (tr_dir t); cbn [side]; lia). rewrite Hs.
    clear. revert ks. induction (tr_closes t) as [|c l IH]; intros [|k ks]; cbn [zip_with total]; try lia. specialize (IH ks). lia. }
  destruct (ofZ_fin p ltac:(lia)) as [Vp Fp]. assert (1 <= IZR p) as Hp' by (apply (IZR_le 1); lia). assert (0 < / IZR p) as Hi by (apply Rinv_0_lt_compat; lra). assert (/ IZR p <= 1) as Hi1 by (rewrite <- Rinv_1; apply Rinv_le; lra).
  assert (INR (length ks) * / 2 ^ 21 <= / 2000) as Hd. { assert (INR (length ks) <= 900) by (rewrite INR_IZR_INZ; now apply (IZR_le _ 900)). lra. }
  assert (Rabs (real (closed_result t) / IZR p - IZR S / 100 / IZR p) <= / 2000) as E1.
  { replace (real (closed_result t) / IZR p - IZR S / 100 / IZR p) with ((real (closed_result t) - IZR S / 100) * / IZR p) by (field; lra). rewrite Rabs_mult, (Rabs_pos_eq (/ IZR p)) by lra.
    apply Rle_trans with (/ 2000 * 1); [|lra]. apply Rmult_le_compat; [apply Rabs_pos|lra|lra|lra]. }
  assert (IZR a / 100 <= IZR S / 100 / IZR p <= IZR c / 100) as E2.
  { destruct HS as [H2 H3]. apply IZR_le in H2, H3. rewrite mult_IZR in H2, H3. split.
    - apply (Rmult_le_reg_r (IZR p)); [lra|]. replace (IZR S / 100 / IZR p * IZR p) with (IZR S / 100) by (field; lra). lra.
    - apply (Rmult_le_reg_r (IZR p)); [lra|]. replace (IZR S / 100 / IZR p * IZR p) with (IZR S / 100) by (field; lra). lra. }
  assert (Rabs (real (closed_result t) / IZR p) <= bpow radix2 31) as B.
  { assert (Rabs (IZR S / 100 / IZR p) <= bpow radix2 30) as B1. { unfold Rdiv at 1. rewrite Rabs_mult, (Rabs_pos_eq (/ IZR p)) by lra. pose proof (abs_cents _ BS). pose proof (Rabs_pos (IZR S / 100)). apply Rle_trans with (Rabs (IZR S / 100) * 1); [apply Rmult_le_compat_l; lra|lra]. }
    change 31%Z with (30 + 1)%Z. rewrite bpow_S. assert (1 <= bpow radix2 30) by (apply (bpow_le radix2 0 30); lia). apply Rabs_le_inv in E1, B1. apply Rabs_le. lra. }
  destruct (div_fin (closed_result t) (fofZ p) 31) as [E [Ff _]]; [lia|auto|rewrite Vp; lra|rewrite Vp; auto|]. rewrite Vp in E. pose proof (rnd_err _ 31 ltac:(lia) B) as Ed. rewrite <- E in Ed. change (bpow radix2 (31 - 53)) with (/ IZR (2 ^ 22)) in Ed. change (2 ^ 22)%Z with 4194304%Z in Ed.
  set (y := fdiv (closed_result t) (fofZ p)) in *.
  assert (a <= cent (real y) <= c)%Z as Hm. { apply cent_range. apply Rabs_le_inv in E1, Ed. lra. }
  pose proof (decimal_round2 y Ff) as Dy.
  unfold ds in Ia, Ic. apply elem_of_list_fmap in Ia as (ka & -> & Ia), Ic as (kc & -> & Ic). apply elem_of_list_lookup in Ia as [ia Ia], Ic as [ic Ic].
  destruct (Forall2_lookup_r _ _ _ _ _ Ha Ia) as (c1 & L1 & D1), (Forall2_lookup_r _ _ _ _ _ Ha Ic) as (c2 & L2 & D2).
  exists (round2 y), c1, c2. split.
  { unfold closed_result_avg. rewrite closed_quantities_booked. fold p. destruct (tr_closes t) eqn:Et; [easy|]. unfold fdivr. destruct (feqb (fofZ p) f0) eqn:Ez; [|reflexivity].
    apply feq_fin in Ez; [|auto|reflexivity]. change (real f0) with 0 in Ez. rewrite Vp in Ez. lra. }
  split; [eapply elem_of_list_lookup_2; eauto|]. split; [eapply elem_of_list_lookup_2; eauto|]. split; [apply Dy|]. split; [eapply decimal_le; [exact D1|exact Dy|lia]|eapply decimal_le; [exact Dy|exact D2|lia]].
Qed.
Lemma averages_cents (t : trade b64) z g : cent_pnl t z g -> (g <= 100 * 2 ^ 30)%Z -> Forall (fun c => 0 < tc_qty c)%Z (tr_closes t) -> tr_closes t <> [] -> (closed_quantities t <= 2 ^ 53)%Z -> (Z.of_nat (length (tr_closes t)) <= 900)%Z ->
  exists v c1 c2, closed_result_avg t = Ok v /\ c1 ∈ tr_closes t /\ c2 ∈ tr_closes t /\ is_finite v = true /\ real (close_result_avg t c1) <= real v <= real (close_result_avg t c2).
Proof.
  intros (ko & kv & ks & D1 & D2 & D3 & B1 & B2 & B3 & B4 & B5 & _ & ->) Hg Hq Hne Hcq Hn. apply (closed_avg_b64 t ko ks); auto.
  - now rewrite <- (Forall2_length _ _ _ D3).
  - lia.
Qed.

(** ** Profit factor (C19) *)
Lemma pf_sums (l : list b64) k ps ns : Forall (within 31) l -> (Z.of_nat (k + length l) < 2 ^ 20)%Z -> is_finite ps = true -> is_finite ns = true ->
  0 <= real ps <= IZR (Z.of_nat k) * bpow radix2 31 -> - (IZR (Z.of_nat k) * bpow radix2 31) <= real ns <= 0 ->
  let '(p, n) := fold_left (fun '(p, n) x => if fleb f0 x then (fadd p x, n) else (p, fadd n x)) l (ps, ns) in
  is_finite p = true /\ is_finite n = true /\ 0 <= real p <= bpow radix2 51 /\ - bpow radix2 51 <= real n <= 0.
Proof.
  intros Hl. revert k ps ns. induction Hl as [|x l [Fx Bx] Hl IH]; intros k ps ns Hk Fp Fn Bp Bn; cbn [fold_left length] in *.
  - assert (IZR (Z.of_nat k) * bpow radix2 31 <= bpow radix2 51) as Hb. { change 51%Z with (20 + 31)%Z. rewrite bpow_plus. apply Rmult_le_compat_r; [apply bpow_ge_0|]. change (bpow radix2 20) with (IZR (2 ^ 20)). apply IZR_le. lia. }
    split; [auto|]. split; [auto|]. lra.
  - assert (IZR (Z.of_nat (S k)) * bpow radix2 31 = IZR (Z.of_nat k) * bpow radix2 31 + bpow radix2 31) as ES by (rewrite Nat2Z.inj_succ, succ_IZR; ring).
    assert (rnd (IZR (Z.of_nat (S k)) * bpow radix2 31) = IZR (Z.of_nat (S k)) * bpow radix2 31) as ER. { apply rnd_F2R; [|lia]. rewrite Z.abs_eq by lia. apply Z.lt_trans with (2 ^ 20)%Z; [lia|reflexivity]. }
    assert (IZR (Z.of_nat (S k)) * bpow radix2 31 <= bpow radix2 51) as Hb. { change 51%Z with (20 + 31)%Z. rewrite bpow_plus. apply Rmult_le_compat_r; [apply bpow_ge_0|]. change (bpow radix2 20) with (IZR (2 ^ 20)). apply IZR_le. lia. }
    pose proof (bpow_ge_0 radix2 31) as H31. apply Rabs_le_inv in Bx.
    destruct (fleb f0 x) eqn:Ex.
    + apply fle_fin in Ex; [|reflexivity|auto]. change (real f0) with 0 in Ex.
      destruct (add_fin ps x 51) as [E [Ff _]]; [lia|auto|auto|rewrite Rabs_pos_eq; lra|].
      apply (IH (S k)); [lia|auto|auto| |lra]. rewrite E. split; [rewrite <- rnd_0; apply rnd_le; lra|]. rewrite <- ER. apply rnd_le. lra.
    + assert (real x <= 0) as Hx. { destruct (Rle_or_lt (real x) 0) as [?|C]; [auto|]. assert (fleb f0 x = true) by (apply fle_fin; [reflexivity|auto|change (real f0) with 0; lra]). congruence. }
      destruct (add_fin ns x 51) as [E [Ff _]]; [lia|auto|auto|rewrite Rabs_left1; lra|].
      apply (IH (S k)); [lia|auto|auto|lra|]. rewrite E. split; [rewrite <- ER, <- rnd_opp; apply rnd_le; lra|]. rewrite <- rnd_0. apply rnd_le. lra.
Qed.
Lemma profit_factor_fin (w : world b64) s a : Forall (within 31) (results_of w (sel_trades s a)) -> (Z.of_nat (length (results_of w (sel_trades s a))) < 2 ^ 20)%Z ->
  exists v, profit_factor w s a = Ok v /\ is_finite v = true /\ 0 <= real v.
Proof.
  intros Hl Hn. unfold profit_factor, build_sums. pose proof (pf_sums _ 0 f0 f0 Hl Hn eq_refl eq_refl) as H. change (real f0) with 0 in H. cbn [Z.of_nat] in H. rewrite Rmult_0_l in H.
  destruct (fold_left _ _ _) as [ps ns]. destruct H as (Fp & Fn & Bp & Bn); [lra|lra|].
  destruct (feqb ns f0) eqn:E0; [exists ps; split; [auto|]; split; [auto|lra]|].
  set (ns' := if fltb (fabs ns) (fofZ 1) then fofZ 1 else ns). destruct (ofZ_fin 1 ltac:(lia)) as [V1 F1].
  assert (is_finite (fabs ns) = true /\ real (fabs ns) = Rabs (real ns)) as [Fa Va]. { change (fabs ns) with (Babs ns). rewrite is_finite_Babs, B2R_Babs. auto. }
  assert (is_finite ns' = true /\ 1 <= Rabs (real ns')) as [Fn' Bn'].
  { unfold ns'. destruct (fltb (fabs ns) (fofZ 1)) eqn:E1; [rewrite V1, Rabs_R1; split; [auto|lra]|]. split; [auto|]. destruct (Rle_or_lt 1 (Rabs (real ns))) as [?|C]; [auto|].
    assert (fltb (fabs ns) (fofZ 1) = true); [|congruence]. apply flt_fin; [auto|auto|]. rewrite V1, Va. exact C. }
  assert (real ns' <> 0) as Nz. { intros C. rewrite C, Rabs_R0 in Bn'. lra. }
  rewrite divr_ok by auto. cbn [rbind].
  assert (Rabs (real ps / real ns') <= bpow radix2 51) as Bd.
  { unfold Rdiv. rewrite Rabs_mult, Rabs_inv, (Rabs_pos_eq (real ps)) by lra. assert (0 < / Rabs (real ns') <= 1) as Hi. { split; [apply Rinv_0_lt_compat; lra|]. rewrite <- Rinv_1. apply Rinv_le; lra. }
    apply Rle_trans with (real ps * 1); [apply Rmult_le_compat_l; lra|lra]. }
  destruct (div_fin ps ns' 51) as [E [Ff _]]; [lia|auto|auto|auto|]. destruct (round2_spec _ Ff) as [_ Fr].
  exists (fabs (round2 (fdiv ps ns'))). split; [reflexivity|]. change (fabs (round2 (fdiv ps ns'))) with (Babs (round2 (fdiv ps ns'))). rewrite is_finite_Babs, B2R_Babs. split; [exact Fr|apply Rabs_pos].
Qed.
Lemma profit_factor_cents (w : world b64) s a ts ps : Forall2 (fun i t => w_trades w !! i = Some t) (sel_trades s a) ts -> Forall2 (fun t p => cent_pnl t (fst p) (snd p)) ts ps ->
  Forall (fun t => Z.of_nat (length (tr_closes t)) <= 900)%Z ts -> Forall (fun p => snd p <= 100 * 2 ^ 30)%Z ps -> (Z.of_nat (length ts) < 2 ^ 20)%Z ->
  exists v, profit_factor w s a = Ok v /\ is_finite v = true /\ 0 <= real v.
Proof.
  intros Hi Hl Hn Hb Hc. assert (results_of w (sel_trades s a) = map result ts) as Er.
  { unfold results_of. f_equal. clear - Hi. induction Hi as [|i t l ts Ht Hl IH]; [auto|]. cbn [omap list_omap]. rewrite Ht. cbn. f_equal. exact IH. }
  apply profit_factor_fin; rewrite Er; [|now rewrite map_length]. clear - Hl Hn Hb. induction Hl as [|t p ts ps Ht Hl IH]; cbn [map]; [constructor|].
  apply Forall_cons in Hn as [Hn Hn'], Hb as [Hb Hb']. constructor; [|auto]. destruct (cent_pnl_near _ _ _ Ht Hn Hb) as [[Fr Br] Bz]. split; [auto|].
  assert (Z.abs (fst p) <= 100 * 2 ^ 30)%Z as Bz' by lia. apply abs_cents in Bz'. assert (IZR (slack t) <= 903) as Rs by (apply IZR_le; unfold slack; lia).
  change 31%Z with (30 + 1)%Z. rewrite bpow_S. assert (1 <= bpow radix2 30) by (apply (bpow_le radix2 0 30); lia). apply Rabs_le_inv in Br, Bz'. apply Rabs_le. lra.
Qed.
