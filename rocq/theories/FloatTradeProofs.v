(** Profit and loss on Python floats (C05). *)
From Coq Require Import Reals.
From Flocq Require Import Core BinarySingleNaN Relative.
From Verif Require Export FloatRsiProofs.
From Verif Require Import SpecTrade.
From Coq Require Import Lra Psatz.
Open Scope R_scope.

Lemma decimal_relative k x : decimal k x -> Rabs (real x - IZR k / 100) <= bpow radix2 (-53) * Rabs (IZR k / 100).
Proof.
  intros Hd. rewrite (decimal_real _ _ Hd). destruct (Z.eq_dec k 0%Z) as [->|N].
  - unfold Rdiv. rewrite Rmult_0_l, rnd_0, Rminus_0_r, Rabs_R0. lra.
  - replace (bpow radix2 (-53)) with (/ 2 * bpow radix2 (- 53 + 1)) by (change (-53 + 1)%Z with (-53 + 1)%Z; rewrite bpow_S; lra).
    change rnd with (round radix2 (FLT_exp (-1074) 53) ZnearestE). apply (relative_error_N_FLT radix2 (-1074) 53); [reflexivity|].
    apply Rle_trans with (bpow radix2 (-7)); [apply bpow_le; lia|]. unfold Rdiv. rewrite Rabs_mult, <- abs_IZR, (Rabs_pos_eq (/ 100)) by lra.
    assert (1 <= Z.abs k)%Z as H by lia. apply IZR_le in H. change (bpow radix2 (-7)) with (/ 128). lra.
Qed.
Lemma abs_cents z : (Z.abs z <= 100 * 2 ^ 30)%Z -> Rabs (IZR z / 100) <= bpow radix2 30.
Proof.
  intros Hz. apply IZR_le in Hz. rewrite abs_IZR, mult_IZR in Hz. change (IZR (2 ^ 30)) with (bpow radix2 30) in Hz. unfold Rdiv. rewrite Rabs_mult, (Rabs_pos_eq (/ 100)) by lra. lra.
Qed.
(** A number of cents times a quantity. *)
Lemma mul_decimal u q x : decimal u x -> (Z.abs q <= 2 ^ 53)%Z -> (Z.abs (u * q) <= 100 * 2 ^ 30)%Z ->
  is_finite (fmul x (fofZ q)) = true /\ Rabs (real (fmul x (fofZ q)) - IZR (u * q) / 100) <= / 2 ^ 20.
Proof.
  intros Hx Hq Hb. destruct (ofZ_fin q Hq) as [Vq Fq]. pose proof (decimal_relative _ _ Hx) as Er. pose proof (abs_cents _ Hb) as Hc. 
  assert (Rabs (real x * IZR q - IZR (u * q) / 100) <= / 2 ^ 23) as H1.
  { replace (real x * IZR q - IZR (u * q) / 100) with ((real x - IZR u / 100) * IZR q) by (rewrite mult_IZR; field). rewrite Rabs_mult. apply Rle_trans with (bpow radix2 (-53) * Rabs (IZR u / 100) * Rabs (IZR q)); [apply Rmult_le_compat_r; [apply Rabs_pos|auto]|].
    rewrite Rmult_assoc, <- Rabs_mult. replace (IZR u / 100 * IZR q) with (IZR (u * q) / 100) by (rewrite mult_IZR; field). apply Rle_trans with (bpow radix2 (-53) * bpow radix2 30); [apply Rmult_le_compat_l; [apply bpow_ge_0|auto]|]. rewrite <- bpow_plus. change (bpow radix2 (-53 + 30)) with (/ IZR (2 ^ 23)). right. f_equal. simpl. lra. }
  assert (Rabs (real x * IZR q) <= bpow radix2 31) as H2. { change 31%Z with (30 + 1)%Z. rewrite bpow_S. assert (1 <= bpow radix2 30) by (apply (bpow_le radix2 0 30); lia). apply Rabs_le_inv in H1, Hc. apply Rabs_le. lra. }
  destruct (mul_fin x (fofZ q) 31) as [E [Ff _]]; [lia|apply Hx|auto|rewrite Vq; auto|]. split; [auto|]. rewrite Vq in E. pose proof (rnd_err _ 31 ltac:(lia) H2) as H3. rewrite <- E in H3.
  change (bpow radix2 (31 - 53)) with (/ IZR (2 ^ 22)) in H3. change (2 ^ 22)%Z with 4194304%Z in H3. apply Rabs_le_inv in H1, H3. apply Rabs_le. lra.
Qed.
Lemma mul_decimal_round u q x : decimal u x -> (Z.abs q <= 2 ^ 53)%Z -> (Z.abs (u * q) <= 100 * 2 ^ 30)%Z -> decimal (u * q) (round2 (fmul x (fofZ q))).
Proof.
  intros Hx Hq Hb. destruct (mul_decimal _ _ _ Hx Hq Hb) as [Ff H]. assert (cent (real (fmul x (fofZ q))) = u * q)%Z as <-; [|now apply decimal_round2].
  assert (u * q <= cent (real (fmul x (fofZ q))) <= u * q)%Z; [|lia]. apply cent_range. apply Rabs_le_inv in H. lra.
Qed.

(** Sums of floats of cents. *)
Lemma sum_decimal (l : list b64) ws acc w n : Forall2 decimal ws l -> (Z.of_nat (n + length l) <= 1000)%Z -> (total (map Z.abs ws) + Z.abs w <= 100 * 2 ^ 30)%Z ->
  is_finite acc = true -> Rabs (real acc - IZR w / 100) <= INR n * / 2 ^ 21 ->
  is_finite (fold_left fadd l acc) = true /\ Rabs (real (fold_left fadd l acc) - IZR (w + total ws) / 100) <= INR (n + length l) * / 2 ^ 21.
Proof.
  intros Hl. revert acc w n. induction Hl as [|z x ws l Hx Hl IH]; intros acc w n Hn Hb Fa Ha; cbn [fold_left total map length] in *.
  - rewrite Z.add_0_r, Nat.add_0_r. auto.
  - assert (0 <= total (map Z.abs ws))%Z as Ht. { clear. induction ws; simpl; [lia|]. pose proof (Z.abs_nonneg a). lia. }
    assert (INR n <= 1000) as Hn'. { rewrite INR_IZR_INZ. apply (IZR_le _ 1000). lia. }
    pose proof (abs_cents w ltac:(lia)) as Bw. pose proof (abs_cents z ltac:(lia)) as Bz. pose proof (abs_cents (w + z) ltac:(lia)) as Bs. rewrite plus_IZR in Bs.
    pose proof (decimal_err _ _ 30 ltac:(lia) Bz Hx) as Ex. change (bpow radix2 (30 - 53)) with (/ IZR (2 ^ 23)) in Ex. change (2 ^ 23)%Z with 8388608%Z in Ex.
    assert (Rabs (real acc + real x) <= bpow radix2 31) as B. { change 31%Z with (30 + 1)%Z. rewrite bpow_S. assert (1 <= bpow radix2 30) by (apply (bpow_le radix2 0 30); lia). apply Rabs_le_inv in Bs, Ex, Ha. apply Rabs_le. lra. }
    destruct (add_fin acc x 31) as [E [Ff _]]; [lia|auto|apply Hx|auto|]. pose proof (rnd_err _ 31 ltac:(lia) B) as Ed. rewrite <- E in Ed. change (bpow radix2 (31 - 53)) with (/ IZR (2 ^ 22)) in Ed. change (2 ^ 22)%Z with 4194304%Z in Ed.
    destruct (IH (fadd acc x) (w + z)%Z (S n)) as [I1 I2]; [lia|lia|auto| |].
    + rewrite S_INR, plus_IZR. apply Rabs_le_inv in Ed, Ex, Ha. apply Rabs_le. lra.
    + split; [auto|]. rewrite Nat.add_succ_r, <- Nat.add_succ_l, Z.add_assoc. exact I2.
Qed.

(** Per-unit difference of prices. *)
Lemma diff_decimal d k j x y : (Z.abs k <= 100 * 2 ^ 30)%Z -> (Z.abs j <= 100 * 2 ^ 30)%Z -> decimal k x -> decimal j y ->
  decimal (side d * (k - j)) (match d with BUY => round2 (fsub x y) | SELL => round2 (fsub y x) end).
Proof.
  intros Hk Hj Hx Hy. apply abs_cents in Hk, Hj. assert (bpow radix2 30 <= bpow radix2 32) by (apply bpow_le; lia). destruct d; cbn [side].
  - rewrite Z.mul_1_l. apply sub_decimal; auto; lra.
  - replace (-1 * (k - j))%Z with (j - k)%Z by lia. apply sub_decimal; auto; lra.
Qed.

Lemma total_scale s l : total (map (fun z => s * z)%Z l) = (s * total l)%Z. Proof. induction l as [|z l IH]; simpl; lia. Qed.
(** The error counts the closes. *)
Lemma pnl_sharp_b64 (t : trade b64) ko kv ks : decimal ko (tr_ov t) -> decimal kv (tr_cv t) -> Forall2 (fun c k => decimal k (tc_value c)) (tr_closes t) ks ->
  (Z.abs ko <= 100 * 2 ^ 30)%Z -> (Z.abs kv <= 100 * 2 ^ 30)%Z -> Forall (fun k => Z.abs k <= 100 * 2 ^ 30)%Z ks ->
  (Z.abs (opened_quantities t) <= 2 ^ 53)%Z -> Forall (fun c => Z.abs (tc_qty c) <= 2 ^ 53)%Z (tr_closes t) -> (Z.of_nat (length ks) <= 900)%Z ->
  (total (zip_with (fun c k => Z.abs ((k - ko) * tc_qty c)) (tr_closes t) ks) + Z.abs ((kv - ko) * opened_quantities t) <= 100 * 2 ^ 30)%Z ->
  is_finite (result t) = true /\
  Rabs (real (result t) - IZR (side (tr_dir t) * (total (zip_with (fun c k => (k - ko) * tc_qty c)%Z (tr_closes t) ks) + (kv - ko) * opened_quantities t)) / 100) <= (INR (length ks) + 3) * / 2 ^ 21.
Proof.
  intros Do Dv Dk Bo Bv Bk Bq Bc Hn Hb. set (d := tr_dir t).
  set (ws := map (fun z => side d * z)%Z (zip_with (fun c k => (k - ko) * tc_qty c)%Z (tr_closes t) ks)).
  assert (forall z, Z.abs (side d * z) = Z.abs z) as Hs by (intros z; destruct d; cbn [side]; lia).
  assert (map Z.abs ws = zip_with (fun c k => Z.abs ((k - ko) * tc_qty c)) (tr_closes t) ks) as Ews.
  { unfold ws. clear - Hs. revert ks. induction (tr_closes t) as [|c l IH]; intros [|k ks]; simpl; auto. f_equal; [apply Hs|apply IH]. }
  assert (forall l : list Z, (0 <= total (map Z.abs l))%Z) as Hp by (intros l; induction l as [|z l IH]; simpl; lia).
  assert (forall z (l : list Z), z ∈ l -> (Z.abs z <= total (map Z.abs l))%Z) as Hel. { intros z l Hz. induction Hz as [z l|z y l Hz IH]; simpl; [pose proof (Hp l); lia|pose proof (Z.abs_nonneg y); lia]. }
  assert (Forall2 decimal ws (map (close_result t) (tr_closes t))) as Hd.
  { assert (Forall (fun w => Z.abs w <= 100 * 2 ^ 30)%Z ws) as Bw. { apply Forall_forall. intros z Hz. apply Hel in Hz. rewrite Ews in Hz. pose proof (Z.abs_nonneg ((kv - ko) * opened_quantities t)). lia. }
    clear - Dk Bk Bc Bw Do Bo. unfold ws in *. clear ws. induction Dk as [|c k l ks' Hc Hl IH]; simpl in *; constructor.
    - apply Forall_cons in Bk as [Bk _]. apply Forall_cons in Bc as [Bc _]. apply Forall_cons in Bw as [Bw _]. rewrite Z.mul_assoc in Bw |- *. unfold close_result.
      apply mul_decimal_round; auto. unfold close_result_avg. fold d. exact (diff_decimal d k ko _ _ Bk Bo Hc Do).
    - apply Forall_cons in Bk as [_ Bk]. apply Forall_cons in Bc as [_ Bc]. apply Forall_cons in Bw as [_ Bw]. now apply IH. }
  assert (length (map (close_result t) (tr_closes t)) = length ks) as El by (rewrite map_length; now apply Forall2_length in Dk).
  destruct (sum_decimal _ _ f0 0 0 Hd) as [Fs Hsum]; [rewrite El; lia|rewrite Ews; pose proof (Z.abs_nonneg ((kv - ko) * opened_quantities t)); simpl; lia|reflexivity|change (real f0) with 0; simpl; unfold Rdiv; rewrite Rmult_0_l, Rminus_0_r, Rabs_R0; lra|].
  change (fold_left fadd (map (close_result t) (tr_closes t)) f0) with (closed_result t) in Fs, Hsum. rewrite Z.add_0_l, Nat.add_0_l, El in Hsum. unfold ws in Hsum. rewrite total_scale in Hsum.
  set (S := total (zip_with (fun c k => (k - ko) * tc_qty c)%Z (tr_closes t) ks)) in *. set (O := ((kv - ko) * opened_quantities t)%Z) in *.
  assert (is_finite (opened_result t) = true /\ Rabs (real (opened_result t) - IZR (side d * O) / 100) <= / 2 ^ 20) as [Fo Ho].
  { unfold opened_result, opened_result_avg. destruct (closed t) eqn:Ec.
    - unfold closed in Ec. apply Z.eqb_eq in Ec. unfold O. rewrite Ec, !Z.mul_0_r. change (fmul (fofZ 0) (fofZ 0)) with (f0 (F := b64)). split; [reflexivity|]. change (real f0) with 0. simpl. unfold Rdiv. rewrite Rmult_0_l, Rminus_0_r, Rabs_R0. lra.
    - replace (round2 match tr_dir t with BUY => fsub (tr_cv t) (tr_ov t) | SELL => fsub (tr_ov t) (tr_cv t) end) with (match d with BUY => round2 (fsub (tr_cv t) (tr_ov t)) | SELL => round2 (fsub (tr_ov t) (tr_cv t)) end) by (unfold d; destruct (tr_dir t); reflexivity).
      unfold O. rewrite Z.mul_assoc. apply mul_decimal; [exact (diff_decimal d kv ko _ _ Bv Bo Dv Do)|auto|]. rewrite <- Z.mul_assoc, Hs. fold O. rewrite <- Ews in Hb. pose proof (Hp ws). lia. }
  assert (INR (length ks) <= 900) as Hn'. { rewrite INR_IZR_INZ. now apply (IZR_le _ 900). }
  assert (Z.abs (side d * S + side d * O) <= 100 * 2 ^ 30)%Z as Btot. { rewrite <- Z.mul_add_distr_l, Hs. assert (Z.abs S <= total (zip_with (fun c k => Z.abs ((k - ko) * tc_qty c)) (tr_closes t) ks))%Z as HS.
    { unfold S. clear. revert ks. induction (tr_closes t) as [|c l IH]; intros [|k ks]; simpl; try lia. specialize (IH ks). lia. } lia. }
  apply abs_cents in Btot. rewrite plus_IZR in Btot.
  assert (Rabs (real (opened_result t) + real (closed_result t)) <= bpow radix2 31) as B. { change 31%Z with (30 + 1)%Z. rewrite bpow_S. assert (1 <= bpow radix2 30) by (apply (bpow_le radix2 0 30); lia). apply Rabs_le_inv in Btot, Ho, Hsum. apply Rabs_le. lra. }
  destruct (add_fin (opened_result t) (closed_result t) 31) as [E [Ff _]]; [lia|auto|auto|auto|]. pose proof (rnd_err _ 31 ltac:(lia) B) as Ed. rewrite <- E in Ed. change (bpow radix2 (31 - 53)) with (/ IZR (2 ^ 22)) in Ed. change (2 ^ 22)%Z with 4194304%Z in Ed.
  split; [exact Ff|]. change (fadd (opened_result t) (closed_result t)) with (result t) in Ed. rewrite Z.mul_add_distr_l, plus_IZR. apply Rabs_le_inv in Ed, Ho, Hsum. apply Rabs_le. lra.
Qed.
Lemma pnl_b64 (t : trade b64) ko kv ks : decimal ko (tr_ov t) -> decimal kv (tr_cv t) -> Forall2 (fun c k => decimal k (tc_value c)) (tr_closes t) ks ->
  (Z.abs ko <= 100 * 2 ^ 30)%Z -> (Z.abs kv <= 100 * 2 ^ 30)%Z -> Forall (fun k => Z.abs k <= 100 * 2 ^ 30)%Z ks ->
  (Z.abs (opened_quantities t) <= 2 ^ 53)%Z -> Forall (fun c => Z.abs (tc_qty c) <= 2 ^ 53)%Z (tr_closes t) -> (Z.of_nat (length ks) <= 900)%Z ->
  (total (zip_with (fun c k => Z.abs ((k - ko) * tc_qty c)) (tr_closes t) ks) + Z.abs ((kv - ko) * opened_quantities t) <= 100 * 2 ^ 30)%Z ->
  is_finite (result t) = true /\
  Rabs (real (result t) - IZR (side (tr_dir t) * (total (zip_with (fun c k => (k - ko) * tc_qty c)%Z (tr_closes t) ks) + (kv - ko) * opened_quantities t)) / 100) <= 1 / 1000.
Proof.
  intros Do Dv Dk Bo Bv Bk Bq Bc Hn Hb. destruct (pnl_sharp_b64 t ko kv ks Do Dv Dk Bo Bv Bk Bq Bc Hn Hb) as [Fr Br]. split; [auto|]. eapply Rle_trans; [exact Br|].
  assert (INR (length ks) <= 900) as Hn' by (rewrite INR_IZR_INZ; now apply (IZR_le _ 900)). lra.
Qed.
