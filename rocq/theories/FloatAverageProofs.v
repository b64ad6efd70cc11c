(** Moving averages and pivots on Python floats. *)
From Coq Require Import Reals.
From Flocq Require Import Core BinarySingleNaN Relative.
From Verif Require Export FloatTradeProofs.
From Verif Require Import SpecTrade.
From Coq Require Import Lra Psatz.
Open Scope R_scope.

(** ** Values of ticks, in cents *)
Lemma bpow_IZR e : (0 <= e)%Z -> bpow radix2 e = IZR (2 ^ e).
Proof. intros He. rewrite <- IZR_Zpower by auto. reflexivity. Qed.
Lemma value_cents e t : (0 <= e < 1000)%Z -> quotes_within e t -> exists k, decimal k (tk_value t) /\ (Z.abs k <= 100 * 2 ^ (e + 1))%Z.
Proof.
  intros He Ht. pose proof (spread_within e t ltac:(lia) Ht) as Hs. destruct Ht as [Hb Ha]. destruct (half_fin (tk_spread t) e ltac:(lia) Hs) as [_ Wh].
  destruct (add_bounded (tk_bid t) _ e ltac:(lia) Hb Wh) as [_ [Fv Bv]]. unfold tk_value. set (v := fadd _ _) in *. exists (cent (real v)). split; [now apply decimal_round2|].
  apply Rabs_le_inv in Bv. rewrite bpow_IZR in Bv by lia. assert (- (100 * 2 ^ (e + 1)) <= cent (real v) <= 100 * 2 ^ (e + 1))%Z; [|lia].
  apply cent_range. rewrite opp_IZR, mult_IZR. lra.
Qed.

(** ** Floats close to a number of cents *)
Definition near (d : R) (z : Z) (x : b64) : Prop := is_finite x = true /\ Rabs (real x - IZR z / 100) <= d.
Lemma near_weaken d d' z x : d <= d' -> near d z x -> near d' z x. Proof. intros H [F B]. split; [auto|lra]. Qed.
Lemma near_decimal z x : (Z.abs z <= 100 * 2 ^ 30)%Z -> decimal z x -> near (/ 2 ^ 22) z x.
Proof.
  intros Hz Hd. split; [apply Hd|]. pose proof (decimal_err _ _ 30 ltac:(lia) (abs_cents _ Hz) Hd) as H. change (bpow radix2 (30 - 53)) with (/ IZR (2 ^ 23)) in H. change (2 ^ 23)%Z with 8388608%Z in H. lra.
Qed.
Lemma near_round z x : near (/ 2 ^ 10) z x -> decimal z (round2 x).
Proof.
  intros [F B]. assert (cent (real x) = z)%Z as <-; [|now apply decimal_round2]. assert (z <= cent (real x) <= z)%Z; [|lia]. apply cent_range. apply Rabs_le_inv in B. lra.
Qed.
Lemma near_sum_bound d d' z z' x y : (Z.abs z <= 100 * 2 ^ 30)%Z -> (Z.abs z' <= 100 * 2 ^ 30)%Z -> d <= 1 -> d' <= 1 -> near d z x -> near d' z' y ->
  Rabs (real x) + Rabs (real y) <= bpow radix2 32.
Proof.
  intros Hz Hz' Hd Hd' [_ B] [_ B']. pose proof (abs_cents _ Hz) as C. pose proof (abs_cents _ Hz') as C'. change 32%Z with (30 + 1 + 1)%Z. rewrite !bpow_S. assert (1 <= bpow radix2 30) by (apply (bpow_le radix2 0 30); lia).
  pose proof (Rabs_triang (real x - IZR z / 100) (IZR z / 100)) as T. pose proof (Rabs_triang (real y - IZR z' / 100) (IZR z' / 100)) as T'.
  replace (real x - IZR z / 100 + IZR z / 100) with (real x) in T by ring. replace (real y - IZR z' / 100 + IZR z' / 100) with (real y) in T' by ring. lra.
Qed.
Lemma near_sub d d' z z' x y : (Z.abs z <= 100 * 2 ^ 30)%Z -> (Z.abs z' <= 100 * 2 ^ 30)%Z -> d <= 1 -> d' <= 1 -> near d z x -> near d' z' y ->
  near (d + d' + / 2 ^ 21) (z - z') (fsub x y).
Proof.
  intros Hz Hz' Hd Hd' Hx Hy. pose proof (near_sum_bound _ _ _ _ _ _ Hz Hz' Hd Hd' Hx Hy) as B. destruct Hx as [Fx Bx], Hy as [Fy By].
  assert (Rabs (real x - real y) <= bpow radix2 32) as Bd. { pose proof (Rabs_triang (real x) (- real y)) as T. rewrite Rabs_Ropp in T. unfold Rminus. lra. }
  destruct (sub_fin x y 32) as [E [Ff _]]; [lia|auto|auto|auto|]. split; [auto|]. pose proof (rnd_err _ 32 ltac:(lia) Bd) as Ed. rewrite <- E in Ed. change (bpow radix2 (32 - 53)) with (/ IZR (2 ^ 21)) in Ed. change (2 ^ 21)%Z with 2097152%Z in Ed.
  rewrite minus_IZR. apply Rabs_le_inv in Bx, By, Ed. apply Rabs_le. lra.
Qed.
Lemma near_add d d' z z' x y : (Z.abs z <= 100 * 2 ^ 30)%Z -> (Z.abs z' <= 100 * 2 ^ 30)%Z -> d <= 1 -> d' <= 1 -> near d z x -> near d' z' y ->
  near (d + d' + / 2 ^ 21) (z + z') (fadd x y).
Proof.
  intros Hz Hz' Hd Hd' Hx Hy. pose proof (near_sum_bound _ _ _ _ _ _ Hz Hz' Hd Hd' Hx Hy) as B. destruct Hx as [Fx Bx], Hy as [Fy By].
  assert (Rabs (real x + real y) <= bpow radix2 32) as Bd. { pose proof (Rabs_triang (real x) (real y)) as T. lra. }
  destruct (add_fin x y 32) as [E [Ff _]]; [lia|auto|auto|auto|]. split; [auto|]. pose proof (rnd_err _ 32 ltac:(lia) Bd) as Ed. rewrite <- E in Ed. change (bpow radix2 (32 - 53)) with (/ IZR (2 ^ 21)) in Ed. change (2 ^ 21)%Z with 2097152%Z in Ed.
  rewrite plus_IZR. apply Rabs_le_inv in Bx, By, Ed. apply Rabs_le. lra.
Qed.
Lemma near_double d z x : (Z.abs z <= 100 * 2 ^ 30)%Z -> d <= 1 -> near d z x -> near (2 * d + / 2 ^ 21) (2 * z) (fmul x (fofZ 2)).
Proof.
  intros Hz Hd Hx. pose proof (near_sum_bound _ _ _ _ _ _ Hz Hz Hd Hd Hx Hx) as B. destruct Hx as [Fx Bx].
  assert (Rabs (real x * real (fofZ 2)) <= bpow radix2 32) as Bd. { rewrite val2, Rabs_mult, (Rabs_pos_eq 2) by lra. lra. }
  destruct (mul_fin x (fofZ 2) 32) as [E [Ff _]]; [lia|auto|apply (ofZ_fin 2); lia|auto|]. split; [auto|]. pose proof (rnd_err _ 32 ltac:(lia) Bd) as Ed. rewrite <- E in Ed. change (bpow radix2 (32 - 53)) with (/ IZR (2 ^ 21)) in Ed. change (2 ^ 21)%Z with 2097152%Z in Ed. rewrite val2 in Ed.
  rewrite mult_IZR. apply Rabs_le_inv in Bx, Ed. apply Rabs_le. lra.
Qed.

(** ** Means: the rounded quotient is a nearest number of cents *)
Lemma mean_decimal (p S : Z) x d : (1 <= p <= 1000)%Z -> (Z.abs S <= 100 * 2 ^ 30)%Z -> is_finite x = true -> 0 <= d <= / 2 ^ 20 -> Rabs (real x - IZR S / 100) <= IZR p * d ->
  exists m, decimal m (round2 (fdiv x (fofZ p))) /\ (2 * Z.abs (m * p - S) <= p)%Z.
Proof.
  intros Hp HS Fx Hd B. destruct (ofZ_fin p ltac:(lia)) as [Vp Fp]. assert (1 <= IZR p <= 1000) as Hp' by (split; apply IZR_le; lia).
  pose proof (abs_cents _ HS) as C.
  assert (Rabs (real x / real (fofZ p) - IZR S / 100 / IZR p) <= d) as H1.
  { rewrite Vp. replace (real x / IZR p - IZR S / 100 / IZR p) with ((real x - IZR S / 100) * / IZR p) by (field; lra). rewrite Rabs_mult, (Rabs_pos_eq (/ IZR p)) by (left; apply Rinv_0_lt_compat; lra).
    apply (Rmult_le_compat_r (/ IZR p)) in B; [|left; apply Rinv_0_lt_compat; lra]. replace (IZR p * d * / IZR p) with d in B by (field; lra). exact B. }
  assert (Rabs (IZR S / 100 / IZR p) <= bpow radix2 30) as H2.
  { unfold Rdiv at 1. rewrite Rabs_mult, (Rabs_pos_eq (/ IZR p)) by (left; apply Rinv_0_lt_compat; lra). assert (/ IZR p <= 1) by (rewrite <- Rinv_1; apply Rinv_le; lra). assert (0 < / IZR p) by (apply Rinv_0_lt_compat; lra).
    pose proof (Rabs_pos (IZR S / 100)). apply Rle_trans with (Rabs (IZR S / 100) * 1); [apply Rmult_le_compat_l; lra|lra]. }
  assert (Rabs (real x / real (fofZ p)) <= bpow radix2 31) as H3.
  { change 31%Z with (30 + 1)%Z. rewrite bpow_S. assert (1 <= bpow radix2 30) by (apply (bpow_le radix2 0 30); lia). apply Rabs_le_inv in H1, H2. apply Rabs_le. lra. }
  destruct (div_fin x (fofZ p) 31) as [E [Ff _]]; [lia|auto|rewrite Vp; lra|auto|]. pose proof (rnd_err _ 31 ltac:(lia) H3) as Ed. rewrite <- E in Ed. change (bpow radix2 (31 - 53)) with (/ IZR (2 ^ 22)) in Ed. change (2 ^ 22)%Z with 4194304%Z in Ed.
  exists (cent (real (fdiv x (fofZ p)))). split; [now apply decimal_round2|]. set (y := real (fdiv x (fofZ p))) in *. pose proof (cent_half y) as Hc. set (m := cent y) in *.
  assert (Rabs (IZR m / 100 - IZR S / 100 / IZR p) <= / 200 + / 2 ^ 19) as H4 by (apply Rabs_le_inv in H1, Ed, Hc; apply Rabs_le; lra).
  assert (2 * Rabs (IZR m * IZR p - IZR S) < IZR p + 1) as H5.
  { replace (IZR m * IZR p - IZR S) with ((IZR m / 100 - IZR S / 100 / IZR p) * (100 * IZR p)) by (field; lra). rewrite Rabs_mult, (Rabs_pos_eq (100 * IZR p)) by lra.
    apply Rle_lt_trans with (2 * ((/ 200 + / 2 ^ 19) * (100 * IZR p))); [apply Rmult_le_compat_l; [lra|]; apply Rmult_le_compat_r; lra|]. lra. }
  rewrite <- mult_IZR, <- minus_IZR, <- abs_IZR, <- mult_IZR, <- plus_IZR in H5. apply lt_IZR in H5. lia.
Qed.
Lemma total_lower lo l : (forall k, k ∈ l -> lo <= k)%Z -> (lo * Z.of_nat (length l) <= total l)%Z.
Proof. induction l as [|x l IH]; intros H; cbn [total length]; [lia|]. assert (lo <= x)%Z by (apply H; left). assert (lo * Z.of_nat (length l) <= total l)%Z by (apply IH; intros; apply H; now right). lia. Qed.
Lemma total_upper hi l : (forall k, k ∈ l -> k <= hi)%Z -> (total l <= hi * Z.of_nat (length l))%Z.
Proof. induction l as [|x l IH]; intros H; cbn [total length]; [lia|]. assert (x <= hi)%Z by (apply H; left). assert (total l <= hi * Z.of_nat (length l))%Z by (apply IH; intros; apply H; now right). lia. Qed.
Lemma exists_min (l : list Z) : l <> [] -> exists a, a ∈ l /\ (forall k, k ∈ l -> a <= k)%Z.
Proof.
  induction l as [|x l IH]; [easy|]. intros _. destruct l as [|y l]; [exists x; split; [left|]; intros k Hk; apply elem_of_list_singleton in Hk; lia|].
  destruct IH as (a & Ha & Hm); [discriminate|]. destruct (Z_le_gt_dec x a).
  - exists x. split; [left|]. intros k Hk. apply elem_of_cons in Hk as [->|Hk]; [lia|]. specialize (Hm _ Hk). lia.
  - exists a. split; [now right|]. intros k Hk. apply elem_of_cons in Hk as [->|Hk]; [lia|auto].
Qed.
Lemma exists_max (l : list Z) : l <> [] -> exists a, a ∈ l /\ (forall k, k ∈ l -> k <= a)%Z.
Proof.
  induction l as [|x l IH]; [easy|]. intros _. destruct l as [|y l]; [exists x; split; [left|]; intros k Hk; apply elem_of_list_singleton in Hk; lia|].
  destruct IH as (a & Ha & Hm); [discriminate|]. destruct (Z_le_gt_dec a x).
  - exists x. split; [left|]. intros k Hk. apply elem_of_cons in Hk as [->|Hk]; [lia|]. specialize (Hm _ Hk). lia.
  - exists a. split; [now right|]. intros k Hk. apply elem_of_cons in Hk as [->|Hk]; [lia|auto].
Qed.

(** The mean of floats of cents. *)
Lemma mean_b64 (p : Z) ks (l : list b64) b : Forall2 decimal ks l -> Z.of_nat (length l) = p -> (1 <= p <= 1000)%Z -> (p * b <= 2 ^ 30)%Z -> Forall (fun k => Z.abs k <= 100 * b)%Z ks ->
  exists m, decimal m (round2 (fdiv (fsum l) (fofZ p))) /\ (2 * Z.abs (m * p - total ks) <= p)%Z /\
    exists x y, x ∈ l /\ y ∈ l /\ real x <= real (round2 (fdiv (fsum l) (fofZ p))) <= real y.
Proof.
  intros Hl Hlen Hp Hb Hks. pose proof (Forall2_length _ _ _ Hl) as Hl'.
  assert (total (map Z.abs ks) <= p * (100 * b))%Z as Ht.
  { rewrite <- Hlen, <- Hl'. clear - Hks. induction Hks; cbn [map total length]; [lia|]. nia. }
  assert (Z.abs (total ks) <= total (map Z.abs ks))%Z as Ht' by (clear; induction ks; cbn [map total]; lia).
  destruct (sum_decimal l ks f0 0 0) as [Fs Bs]; [auto|lia|lia|reflexivity| |].
  { change (real f0) with 0. change (INR 0) with 0. unfold Rdiv. rewrite !Rmult_0_l, Rminus_0_r, Rabs_R0. lra. }
  cbn [Nat.add] in Bs. rewrite Z.add_0_l in Bs. rewrite INR_IZR_INZ, Hlen in Bs. change (fold_left fadd l f0) with (fsum l) in *.
  destruct (mean_decimal p (total ks) (fsum l) (/ 2 ^ 21)) as (m & D & N); [auto|lia|auto|lra|auto|]. exists m. split; [auto|]. split; [auto|].
  assert (ks <> []) as Hne by (intros ->; cbn [length] in Hl'; lia).
  destruct (exists_min ks Hne) as (a & Ha & Hmin). destruct (exists_max ks Hne) as (c & Hc & Hmax).
  pose proof (total_lower a ks Hmin) as T1. pose proof (total_upper c ks Hmax) as T2. rewrite Hl', Hlen in T1, T2.
  assert (a <= m <= c)%Z as Hm by nia.
  apply elem_of_list_lookup in Ha as [ia Ha], Hc as [ic Hc]. destruct (Forall2_lookup_l _ _ _ _ _ Hl Ha) as (x & Hx & Dx), (Forall2_lookup_l _ _ _ _ _ Hl Hc) as (y & Hy & Dy).
  exists x, y. split; [eapply elem_of_list_lookup_2; eauto|]. split; [eapply elem_of_list_lookup_2; eauto|]. split; [eapply decimal_le; [exact Dx|exact D|lia]|eapply decimal_le; [exact D|exact Dy|lia]].
Qed.

Lemma closes_cents e u q ref mx (I : indicator b64 -> Prop) (T : tick b64 -> res unit -> Prop) fs0 (fs : fset b64) : (0 <= e < 1000)%Z -> (1 <= mx)%Z -> (forall t r, T t r -> quotes_within e t) ->
  fset_init u q ref mx = Ok fs0 -> fs_hist I T fs0 fs -> Forall (fun x => exists k, decimal k x /\ (Z.abs k <= 100 * 2 ^ (e + 1))%Z) (closes fs).
Proof.
  intros He Hmx HT E0 Hh. pose proof (fset_init_wf _ _ _ _ _ E0) as (_ & H0 & _).
  assert (fs_hist I (fun tk _ => quotes_within e tk) fs0 fs) as Hh2 by (apply (hist_tick_weaken _ _ _ _ _) with (2 := Hh); intros t r H; eauto).
  destruct (hist_all_vals I (quotes_within e) mx q (fun _ => True) fs0 fs) as (_ & _ & Hl); auto; [exact (base_init _ _ _ _ _ E0)|].
  unfold closes. unfold lasts in Hl. rewrite Forall_fmap in Hl. apply Forall_fmap. eapply Forall_impl; [exact Hl|]. intros fr Hfr. now apply value_cents.
Qed.

Lemma sma_b64 e u q ref mx i mp (T : tick b64 -> res unit -> Prop) fs0 (fs : fset b64) k f iv p : (0 <= e)%Z -> (1 <= mx)%Z -> in_kind i = KSMA mp -> in_mopen i = false ->
  (forall t r, T t r -> quotes_within e t) -> fset_init u q ref mx = Ok fs0 -> fs_hist (only i) T fs0 fs -> fs_heap fs !! k = Some f -> value_at fs (in_ref i) k = Some iv ->
  (1 <= p <= mp)%Z -> (p <= 1000)%Z -> (p * 2 ^ (e + 1) <= 2 ^ 30)%Z ->
  exists s lc, valued_from fs (in_ref i) s /\ (s <= k)%nat /\ iv_data iv = DSMA lc /\
    if (Z.of_nat (S k - s) <? p)%Z then sma_value f lc p = Ok None
    else exists v m ks, sma_value f lc p = Ok (Some v) /\ Forall2 decimal ks (window (Z.to_nat p) k (closes fs)) /\ decimal m v /\ (2 * Z.abs (m * p - total ks) <= p)%Z /\
      exists x y, x ∈ window (Z.to_nat p) k (closes fs) /\ y ∈ window (Z.to_nat p) k (closes fs) /\ real x <= real v <= real y.
Proof.
  intros He Hmx Hi Hmo HT E0 Hh Ef Hv Hp Hp' Hb.
  assert (e < 1000)%Z as He'. { destruct (Z_lt_le_dec e 1000) as [C|C]; [auto|]. assert (2 ^ 31 <= 2 ^ (e + 1))%Z by (apply Z.pow_le_mono_r; lia). lia. }
  assert (feqb (fofZ (F := b64) p) f0 = false) as Hz.
  { destruct (feqb _ _) eqn:E; [|auto]. destruct (ofZ_fin p ltac:(lia)) as [Vp Fp]. apply feq_fin in E; [|auto|reflexivity]. change (real f0) with 0 in E. rewrite Vp in E. apply (eq_IZR p 0) in E. lia. }
  destruct (sma_hist u q ref mx i mp T fs0 fs k f iv p Hmx Hi Hmo E0 Hh Ef Hv Hp Hz) as (s & lc & H1 & H2 & H3 & H4). exists s, lc. split; [auto|]. split; [auto|]. split; [auto|]. rewrite H4.
  destruct (Z.ltb_spec (Z.of_nat (S k - s)) p) as [C|C]; [auto|]. eexists.
  pose proof (closes_cents e u q ref mx (only i) T fs0 fs ltac:(lia) Hmx HT E0 Hh) as Hc. apply (Forall_window _ (Z.to_nat p) k) in Hc.
  assert (exists ks, Forall2 (fun k x => decimal k x /\ (Z.abs k <= 100 * 2 ^ (e + 1))%Z) ks (window (Z.to_nat p) k (closes fs))) as [ks Hks].
  { clear - Hc. induction Hc as [|x l (k0 & Hk0) Hc [ks IH]]; [exists []; constructor|exists (k0 :: ks); now constructor]. }
  assert (Forall2 decimal ks (window (Z.to_nat p) k (closes fs))) as Hd by (eapply Forall2_impl; [exact Hks|]; now intros ? ? [? ?]).
  assert (Forall (fun k => Z.abs k <= 100 * 2 ^ (e + 1))%Z ks) as Hk. { clear - Hks. induction Hks as [|? ? ? ? [_ ?] ? ?]; constructor; auto. }
  assert (Z.of_nat (length (window (Z.to_nat p) k (closes fs))) = p) as Hlen.
  { unfold window. rewrite drop_length, take_length. unfold closes. rewrite map_length. apply lookup_lt_Some in Ef. lia. }
  destruct (mean_b64 p ks _ (2 ^ (e + 1)) Hd Hlen ltac:(lia) Hb Hk) as (m & D & N & X). exists m, ks. auto.
Qed.

(** ** Pivots *)
Definition quoted (e : Z) (iv : ivalue b64) : Prop :=
  quotes_within e (iv_first iv) /\ quotes_within e (iv_high iv) /\ quotes_within e (iv_low iv) /\ quotes_within e (iv_last iv).
Lemma quoted_tick e iv t mo : quoted e iv -> quotes_within e t -> quoted e (iv_base_tick iv t mo).
Proof. intros (A & B & C & D) Ht. unfold iv_base_tick, quoted. destruct (_ || _); [|auto]. destruct (fltb _ _); [cbn; auto|]. destruct (fltb _ _); cbn; auto. Qed.

Lemma levels_b64 kp kh kl p h l : (Z.abs kp <= 100 * 2 ^ 28)%Z -> (Z.abs kh <= 100 * 2 ^ 28)%Z -> (Z.abs kl <= 100 * 2 ^ 28)%Z -> decimal kp p -> decimal kh h -> decimal kl l ->
  decimal (kl - 2 * (kh - kp)) (round2 (fsub l (fmul (fsub h p) (fofZ 2)))) /\ decimal (kp - (kh - kl)) (round2 (fsub p (fsub h l))) /\ decimal (2 * kp - kh) (round2 (fsub (fmul p (fofZ 2)) h)) /\
  decimal (2 * kp - kl) (round2 (fsub (fmul p (fofZ 2)) l)) /\ decimal (kp + (kh - kl)) (round2 (fadd p (fsub h l))) /\ decimal (kh + 2 * (kp - kl)) (round2 (fadd h (fmul (fsub p l) (fofZ 2)))).
Proof.
  intros Bp Bh Bl Dp Dh Dl. change (100 * 2 ^ 28)%Z with 26843545600%Z in *.
  assert (forall z x, (Z.abs z <= 26843545600)%Z -> decimal z x -> near (/ 2 ^ 22) z x) as HN by (intros z x Hz; apply near_decimal; lia).
  apply HN in Dp, Dh, Dl; auto. clear HN.
  assert (near (2 * / 2 ^ 22 + / 2 ^ 21) (2 * kp) (fmul p (fofZ 2))) as D2 by (apply near_double; [lia|lra|auto]).
  assert (near (/ 2 ^ 22 + / 2 ^ 22 + / 2 ^ 21) (kh - kp) (fsub h p)) as Dhp by (apply near_sub; [lia|lia|lra|lra|auto|auto]).
  assert (near (/ 2 ^ 22 + / 2 ^ 22 + / 2 ^ 21) (kh - kl) (fsub h l)) as Dhl by (apply near_sub; [lia|lia|lra|lra|auto|auto]).
  assert (near (/ 2 ^ 22 + / 2 ^ 22 + / 2 ^ 21) (kp - kl) (fsub p l)) as Dpl by (apply near_sub; [lia|lia|lra|lra|auto|auto]).
  assert (near (2 * (/ 2 ^ 22 + / 2 ^ 22 + / 2 ^ 21) + / 2 ^ 21) (2 * (kh - kp)) (fmul (fsub h p) (fofZ 2))) as D2hp by (apply near_double; [lia|lra|auto]).
  assert (near (2 * (/ 2 ^ 22 + / 2 ^ 22 + / 2 ^ 21) + / 2 ^ 21) (2 * (kp - kl)) (fmul (fsub p l) (fofZ 2))) as D2pl by (apply near_double; [lia|lra|auto]).
  split; [|split; [|split; [|split; [|split]]]]; apply near_round.
  - eapply near_weaken; [|eapply near_sub; [| | | |exact Dl|exact D2hp]; [lia|lia|lra|lra]]. lra.
  - eapply near_weaken; [|eapply near_sub; [| | | |exact Dp|exact Dhl]; [lia|lia|lra|lra]]. lra.
  - eapply near_weaken; [|eapply near_sub; [| | | |exact D2|exact Dh]; [lia|lia|lra|lra]]. lra.
  - eapply near_weaken; [|eapply near_sub; [| | | |exact D2|exact Dl]; [lia|lia|lra|lra]]. lra.
  - eapply near_weaken; [|eapply near_add; [| | | |exact Dp|exact Dhl]; [lia|lia|lra|lra]]. lra.
  - eapply near_weaken; [|eapply near_add; [| | | |exact Dh|exact D2pl]; [lia|lia|lra|lra]]. lra.
Qed.

Lemma pivots_b64 u q ref mx i (T : tick b64 -> res unit -> Prop) fs0 (fs : fset b64) k f iv : (1 <= mx)%Z -> in_kind i = KPivot false -> (forall t r, T t r -> quotes_within 27 t) ->
  fset_init u q ref mx = Ok fs0 -> fs_hist (only i) T fs0 fs -> fs_heap fs !! k = Some f -> value_at fs (in_ref i) k = Some iv ->
  exists r, previous_value fs (in_ref i) k r /\
    match r with
    | None => pivot (fs_heap fs) f iv = Ok None /\ pivot_levels (fs_heap fs) f iv None None None None None None
    | Some (j, pv) => exists ch cl cc m p,
        decimal ch (tk_value (iv_high pv)) /\ decimal cl (tk_value (iv_low pv)) /\ decimal cc (tk_value (iv_last pv)) /\ (cl <= cc <= ch)%Z /\
        pivot (fs_heap fs) f iv = Ok (Some p) /\ decimal m p /\ (Z.abs (3 * m - (ch + cl + cc)) <= 1)%Z /\
        if (m =? 0)%Z then pivot_levels (fs_heap fs) f iv None None None None None None
        else exists s3 s2 s1 r1 r2 r3, pivot_levels (fs_heap fs) f iv (Some s3) (Some s2) (Some s1) (Some r1) (Some r2) (Some r3) /\
          decimal (cl - 2 * (ch - m)) s3 /\ decimal (m - (ch - cl)) s2 /\ decimal (2 * m - ch) s1 /\
          decimal (2 * m - cl) r1 /\ decimal (m + (ch - cl)) r2 /\ decimal (ch + 2 * (m - cl)) r3 /\
          real s3 <= real s2 /\ real s2 <= real s1 /\ real s1 <= real p /\ real p <= real r1 /\ real r1 <= real r2 /\ real r2 <= real r3
    end.
Proof.
  intros Hmx Hi HT E0 Hh Ef Hv. pose proof (fset_init_wf _ _ _ _ _ E0) as (_ & Hn & _). pose proof (base_init _ _ _ _ _ E0) as B0.
  assert (registered q i fs0) as R0 by (left; now rewrite (init_inds _ _ _ _ _ E0)).
  destruct (hist_kind mx q i T fs0 fs Hmx B0 Hn R0 Hh) as (B & R & K). pose proof B as (W & M & _).
  assert (fs_hist (only i) (fun tk _ => P_tick (within 28) tk) fs0 fs) as Hh'. { apply (hist_tick_weaken _ T); [|auto]. intros t r Ht. apply HT in Ht. change 28%Z with (27 + 1)%Z. apply value_within; auto. lia. }
  assert (fs_hist (only i) (fun tk _ => quotes_within 27 tk) fs0 fs) as Hh2 by (apply (hist_tick_weaken _ T); [intros t r H; eauto|auto]).
  destruct (hist_ord (within 28) (ord_laws_b64 28 ltac:(lia)) mx q (only i) fs0 fs Hmx B0 Hn Hh') as [_ V].
  destruct (hist_all_vals (only i) (quotes_within 27) mx q (quoted 27) fs0 fs) as (_ & Q1 & _); auto; [intros; now split|intros; now apply quoted_tick|].
  assert (vals (in_ref i) fs !! k = Some (Some iv)) as Ek.
  { unfold value_at in Hv. rewrite Ef in Hv. unfold vals. rewrite list_lookup_fmap, Ef. simpl. f_equal. exact Hv. }
  destruct (K k iv Ek) as (K1 & _ & K3). unfold kind_data in K3. rewrite Hi in K3.
  destruct (previous_at fs k f (in_ref i) ltac:(lia) W Ef) as (r & Ep & Hp). exists r. split; [auto|].
  rewrite <- K1 in Ep. destruct r as [[j pv]|]; [|now apply pivot_eval_none].
  pose proof (pivot_eval _ _ _ _ _ K3 Ep) as Hev. cbn zeta in Hev.
  destruct Hp as (P1 & P2 & P3). rewrite value_at_vals in P2. destruct (vals (in_ref i) fs !! j) as [v|] eqn:Ej; [|discriminate]. subst v.
  destruct (V _ _ _ Ej) as [_ _ _ _ _ O2 _ O4 _]. destruct (Q1 _ _ _ Ej) as (_ & Qh & Ql & Qc).
  destruct (value_cents 27 _ ltac:(lia) Qh) as (ch & Dh & Bh), (value_cents 27 _ ltac:(lia) Ql) as (cl & Dl & Bl), (value_cents 27 _ ltac:(lia) Qc) as (cc & Dc & Bc).
  change (27 + 1)%Z with 28%Z in *. revert Hev Dh Dl Dc O2 O4. generalize (@tk_value b64 NumB64 (iv_high pv)) (@tk_value b64 NumB64 (iv_low pv)) (@tk_value b64 NumB64 (iv_last pv)). intros h l c Hev Dh Dl Dc O2 O4.
  assert (forall z, (Z.abs z <= 100 * 2 ^ 28)%Z -> Rabs (IZR z / 100) <= bpow radix2 32) as B32.
  { intros z Hz. eapply Rle_trans; [apply abs_cents; lia|apply bpow_le; lia]. }
  assert (forall a b x y, (Z.abs a <= 100 * 2 ^ 28)%Z -> (Z.abs b <= 100 * 2 ^ 28)%Z -> decimal a x -> decimal b y -> fleb x y = true -> (a <= b)%Z) as Hle.
  { intros a b x y Ba Bb Ha Hb H. apply fle_fin in H; [|apply Ha|apply Hb]. destruct (Z_lt_le_dec b a) as [C|C]; [|auto]. apply (decimal_lt _ _ _ _ Hb Ha (B32 _ Bb) (B32 _ Ba)) in C. lra. }
  assert (cl <= cc)%Z as L1 by exact (Hle _ _ _ _ Bl Bc Dl Dc O2). assert (cc <= ch)%Z as L2 by exact (Hle _ _ _ _ Bc Bh Dc Dh O4).
  set (p := round2 (fdiv (fadd (fadd h l) c) (fofZ 3))) in *.
  assert (exists m, decimal m p /\ (2 * Z.abs (m * 3 - (ch + cl + cc)) <= 3)%Z) as (m & Dm & Nm).
  { pose proof (near_decimal ch h ltac:(lia) Dh) as [Fh Nh]. destruct (sum_decimal [l; c] [cl; cc] h ch 1) as [Fs Bs]; [constructor; [auto|constructor; [auto|constructor]]|cbn [length]; lia|cbn [map total]; lia|auto|change (INR 1) with 1; lra|].
    cbn [fold_left total length Nat.add] in Fs, Bs. replace (ch + (cl + (cc + 0)))%Z with (ch + cl + cc)%Z in Bs by lia.
    apply (mean_decimal 3 (ch + cl + cc) _ (/ 2 ^ 21)); [lia|lia|auto|lra|]. eapply Rle_trans; [exact Bs|]. right. f_equal. cbn. lra. }
  exists ch, cl, cc, m, p. do 3 (split; [assumption|]). split; [lia|]. destruct Hev as (E1 & E2 & E3). split; [exact E1|]. split; [auto|]. split; [lia|].
  assert (cl <= m <= ch)%Z as Lm by lia. assert (Z.abs m <= 100 * 2 ^ 28)%Z as Bm by lia.
  pose proof (truthy_decimal _ _ Dm (B32 _ Bm)) as Ht. destruct (m =? 0)%Z; [apply E2; now rewrite Ht|]. specialize (E3 Ht).
  do 6 eexists. split; [exact E3|]. destruct (levels_b64 m ch cl p h l Bm Bh Bl Dm Dh Dl) as (A1 & A2 & A3 & A4 & A5 & A6).
  do 6 (split; [assumption|]).
  split; [eapply decimal_le; [exact A1|exact A2|lia]|]. split; [eapply decimal_le; [exact A2|exact A3|lia]|]. split; [eapply decimal_le; [exact A3|exact Dm|lia]|].
  split; [eapply decimal_le; [exact Dm|exact A4|lia]|]. split; [eapply decimal_le; [exact A4|exact A5|lia]|eapply decimal_le; [exact A5|exact A6|lia]].
Qed.
