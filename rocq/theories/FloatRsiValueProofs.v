(** The value of the relative strength index on Python floats (C42). *)
From Coq Require Import Reals.
From Flocq Require Import Core BinarySingleNaN Relative.
From Verif Require Export FloatAverageProofs.
From Verif Require Import SpecTrade.
From Verif Require Export SpecFloatRsi.
From Coq Require Import Lra Psatz.
Open Scope R_scope.

Lemma rnd_rel x : x = 0 \/ bpow radix2 (-1000) <= Rabs x -> Rabs (rnd x - x) <= bpow radix2 (-53) * Rabs x.
Proof.
  intros [->|H]; [rewrite rnd_0, Rminus_0_r, Rabs_R0; lra|].
  replace (bpow radix2 (-53)) with (/ 2 * bpow radix2 (- 53 + 1)) by (rewrite bpow_S; lra).
  change rnd with (round radix2 (FLT_exp (-1074) 53) ZnearestE). apply (relative_error_N_FLT radix2 (-1074) 53); [reflexivity|].
  eapply Rle_trans; [|exact H]. apply bpow_le. lia.
Qed.

(** [x] is [X], up to a factor 1 + r. *)
Definition rel (r x X : R) : Prop := Rabs (x - X) <= r * X.
Lemma rel_bounds r x X : rel r x X -> (1 - r) * X <= x <= (1 + r) * X.
Proof. intros H. apply Rabs_le_inv in H. lra. Qed.
Lemma rel_weaken r r' x X : r <= r' -> 0 <= X -> rel r x X -> rel r' x X.
Proof. unfold rel. intros. nra. Qed.
Lemma rel_rnd r x X : 0 <= r <= / 100 -> X = 0 \/ bpow radix2 (-900) <= X -> rel r x X -> rel (r + bpow radix2 (-52)) (rnd x) X.
Proof.
  intros Hr HX H. pose proof (rel_bounds _ _ _ H) as [B1 B2]. assert (0 <= X) as PX by (destruct HX as [->|HX]; [lra|pose proof (bpow_gt_0 radix2 (-900)); lra]).
  assert (0 <= x) as Px by nra.
  assert (Rabs (rnd x - x) <= bpow radix2 (-53) * Rabs x) as E.
  { apply rnd_rel. destruct HX as [->|HX]; [left; lra|right]. rewrite Rabs_pos_eq by auto. apply Rle_trans with (/ 2 * bpow radix2 (-900)); [|nra].
    replace (/ 2 * bpow radix2 (-900)) with (bpow radix2 (-901)) by (change (-900)%Z with (-901 + 1)%Z; rewrite bpow_S; lra). apply bpow_le. lia. }
  rewrite (Rabs_pos_eq x) in E by auto. unfold rel in *. change (-52)%Z with (-53 + 1)%Z. rewrite bpow_S. pose proof (bpow_gt_0 radix2 (-53)) as P53.
  apply Rabs_le_inv in H, E. apply Rabs_le.
  assert (bpow radix2 (-53) * x <= bpow radix2 (-53) * (2 * X)) by (apply Rmult_le_compat_l; nra). nra.
Qed.
Lemma rel_add r x X y Y : rel r x X -> rel r y Y -> rel r (x + y) (X + Y).
Proof. unfold rel. intros H H'. apply Rabs_le_inv in H, H'. apply Rabs_le. lra. Qed.
Lemma rel_div r x X y Y : 0 <= r <= / 100 -> 0 <= X -> 0 < Y -> rel r x X -> rel r y Y -> rel (21 / 10 * r) (x / y) (X / Y).
Proof.
  intros Hr HX HY Hx Hy. pose proof (rel_bounds _ _ _ Hy) as [B1 _]. assert (0 < (1 - r) * Y) as P1 by nra. assert (0 < y) as Py by lra.
  unfold rel in *. replace (x / y - X / Y) with (((x - X) * Y - X * (y - Y)) * / (y * Y)) by (field; lra).
  rewrite Rabs_mult, (Rabs_pos_eq (/ (y * Y))) by (left; apply Rinv_0_lt_compat; nra).
  assert (Rabs ((x - X) * Y - X * (y - Y)) <= 2 * r * (X * Y)) as E.
  { eapply Rle_trans; [unfold Rminus at 1; apply Rabs_triang|]. rewrite Rabs_Ropp, !Rabs_mult, (Rabs_pos_eq Y), (Rabs_pos_eq X) by lra.
    assert (Rabs (x - X) * Y <= r * X * Y) by (apply Rmult_le_compat_r; lra). assert (X * Rabs (y - Y) <= X * (r * Y)) by (apply Rmult_le_compat_l; lra). lra. }
  apply Rle_trans with (2 * r * (X * Y) * / (y * Y)); [apply Rmult_le_compat_r; [left; apply Rinv_0_lt_compat; nra|exact E]|].
  replace (2 * r * (X * Y) * / (y * Y)) with (2 * r * X * / y) by (field; lra).
  replace (21 / 10 * r * (X / Y)) with (2 * r * X * (21 / 20 * / Y)) by (field; lra). apply Rmult_le_compat_l; [nra|].
  apply Rle_trans with (/ ((1 - r) * Y)); [apply Rinv_le; lra|]. rewrite Rinv_mult. apply Rmult_le_compat_r; [left; now apply Rinv_0_lt_compat|].
  apply Rle_trans with (/ (99 / 100)); [apply Rinv_le; lra|lra].
Qed.
Lemma rel_scale r x X c : 0 <= c -> rel r x X -> rel r (x * c) (X * c).
Proof. unfold rel. intros Hc H. replace (x * c - X * c) with ((x - X) * c) by ring. rewrite Rabs_mult, (Rabs_pos_eq c) by auto. nra. Qed.

(** A change: [d] cents up to a factor 1 + 2^-23. *)
Definition moved (d : Z) (v : b64) : Prop := is_finite v = true /\ Rabs (real v - IZR d / 100) <= bpow radix2 (-23) * Rabs (IZR d / 100).
Lemma moved_sub ka kb a b : (Z.abs ka <= 100 * 2 ^ 21)%Z -> (Z.abs kb <= 100 * 2 ^ 21)%Z -> decimal ka a -> decimal kb b -> moved (kb - ka) (fsub b a).
Proof.
  intros Ba Bb Da Db.
  assert (forall k x, (Z.abs k <= 100 * 2 ^ 21)%Z -> decimal k x -> Rabs (real x - IZR k / 100) <= / 2 ^ 32 /\ Rabs (IZR k / 100) <= 2 ^ 21) as HE.
  { intros k x Hk Hd. assert (Rabs (IZR k / 100) <= bpow radix2 21) as B. { apply IZR_le in Hk. rewrite abs_IZR, mult_IZR in Hk. change (IZR (2 ^ 21)) with (bpow radix2 21) in Hk. unfold Rdiv. rewrite Rabs_mult, (Rabs_pos_eq (/ 100)) by lra. lra. }
    split; [|change (bpow radix2 21) with (IZR (2 ^ 21)) in B; change (2 ^ 21)%Z with 2097152%Z in B; lra]. pose proof (decimal_err k x 21 ltac:(lia) B Hd) as E. change (bpow radix2 (21 - 53)) with (/ IZR (2 ^ 32)) in E. change (2 ^ 32)%Z with 4294967296%Z in E. lra. }
  destruct (HE ka a Ba Da) as [Ea Ca], (HE kb b Bb Db) as [Eb Cb].
  assert (Rabs (real b - real a) <= bpow radix2 22) as Bd.
  { assert (bpow radix2 21 = 2 ^ 21) as P21 by (change (bpow radix2 21) with (IZR (2 ^ 21)); change (2 ^ 21)%Z with 2097152%Z; lra). rewrite <- P21 in Ca, Cb.
    destruct (decimal_within _ _ 21 ltac:(lia) Ca Da) as [_ Wa], (decimal_within _ _ 21 ltac:(lia) Cb Db) as [_ Wb]. change 22%Z with (21 + 1)%Z. rewrite bpow_S. apply Rabs_le_inv in Wa, Wb. apply Rabs_le. lra. }
  apply Rabs_le_inv in Ea, Eb, Ca, Cb.
  destruct (sub_fin b a 22) as [E [F _]]; [lia|apply Db|apply Da|exact Bd|].
  split; [exact F|]. rewrite E. destruct (Z.eq_dec (kb - ka)%Z 0%Z) as [Ez|Nz].
  - assert (kb = ka) as -> by lia. rewrite (decimal_real _ _ Da), (decimal_real _ _ Db). replace (rnd (IZR ka / 100) - rnd (IZR ka / 100)) with 0 by ring. rewrite rnd_0, Z.sub_diag. unfold Rdiv. rewrite Rmult_0_l, Rminus_0_r, Rabs_R0. lra.
  - pose proof (rnd_err _ 22 ltac:(lia) Bd) as Er. change (bpow radix2 (22 - 53)) with (/ IZR (2 ^ 31)) in Er. change (2 ^ 31)%Z with 2147483648%Z in Er. apply Rabs_le_inv in Er.
    assert (/ 100 <= Rabs (IZR (kb - ka) / 100)) as L. { unfold Rdiv. rewrite Rabs_mult, <- abs_IZR, (Rabs_pos_eq (/ 100)) by lra. assert (1 <= Z.abs (kb - ka))%Z as H by lia. apply IZR_le in H. lra. }
    apply Rle_trans with (bpow radix2 (-23) * / 100); [|apply Rmult_le_compat_l; [apply bpow_ge_0|exact L]].
    change (bpow radix2 (-23)) with (/ IZR (2 ^ 23)). change (2 ^ 23)%Z with 8388608%Z. rewrite minus_IZR. apply Rabs_le. lra.
Qed.
Lemma moves_cons2 a b l : moves (a :: b :: l) = (b - a)%Z :: moves (b :: l). Proof. reflexivity. Qed.
Lemma moved_all ks (l : list b64) : Forall2 (fun k x => decimal k x /\ (Z.abs k <= 100 * 2 ^ 21)%Z) ks l -> Forall2 moved (moves ks) (fchanges l).
Proof.
  induction 1 as [|k x ks l [D B] H IH]; [constructor|]. destruct H as [|k' x' ks l [D' B'] H]; [constructor|]. rewrite moves_cons2, fchanges_cons2. constructor; [now apply moved_sub|exact IH].
Qed.

Definition rate (n : nat) : R := bpow radix2 (-23) + INR n * bpow radix2 (-52).
Definition in_cents (z : Z) : R := IZR z / 100.
Lemma in_cents_add a b : in_cents (a + b) = in_cents a + in_cents b. Proof. unfold in_cents. rewrite plus_IZR. lra. Qed.
Lemma in_cents_small z : (0 <= z)%Z -> in_cents z = 0 \/ / 100 <= in_cents z.
Proof. intros Hz. unfold in_cents. destruct (Z.eq_dec z 0%Z) as [->|N]; [left; lra|right]. assert (1 <= z)%Z as H by lia. apply IZR_le in H. lra. Qed.
Lemma rate_small n : (Z.of_nat n <= 2 ^ 20)%Z -> 0 <= rate n <= bpow radix2 (-22).
Proof.
  intros Hn. unfold rate. rewrite INR_IZR_INZ. apply IZR_le in Hn. change (2 ^ 20)%Z with 1048576%Z in Hn. assert (0 <= IZR (Z.of_nat n)) by (apply IZR_le; lia).
  change (bpow radix2 (-23)) with (/ IZR (2 ^ 23)). change (2 ^ 23)%Z with 8388608%Z. change (bpow radix2 (-22)) with (/ IZR (2 ^ 22)). change (2 ^ 22)%Z with 4194304%Z. change (bpow radix2 (-52)) with (/ IZR (2 ^ 52)). change (2 ^ 52)%Z with 4503599627370496%Z. lra.
Qed.
Definition sums_rel (n : nat) (g l : Z) (ps ns : b64) : Prop :=
  is_finite ps = true /\ is_finite ns = true /\ (0 <= g)%Z /\ (0 <= l)%Z /\ rel (rate n) (real ps) (in_cents g) /\ rel (rate n) (- real ns) (in_cents l).
Lemma p900 : bpow radix2 (-900) <= / 100.
Proof. apply Rle_trans with (bpow radix2 (-7)); [apply bpow_le; lia|]. change (bpow radix2 (-7)) with (/ 128). lra. Qed.
Lemma rate_S n : rate n + bpow radix2 (-52) = rate (S n). Proof. unfold rate. rewrite S_INR. ring. Qed.
Lemma sums_rel_step n g l ps ns d v : (Z.of_nat (S n) <= 2 ^ 20)%Z -> (g + l + Z.abs d <= 100 * 2 ^ 45)%Z -> sums_rel n g l ps ns -> moved d v ->
  let '(ps', ns') := if fleb f0 v then (fadd ps v, ns) else (ps, fadd ns v) in sums_rel (S n) (g + Z.max 0 d) (l + Z.max 0 (- d)) ps' ns'.
Proof.
  intros Hn Hb (Fp & Fn & Pg & Pl & Rp & Rn) [Fv Bv]. pose proof (rate_small n ltac:(lia)) as Hr. pose proof p900 as H900.
  assert (bpow radix2 (-22) <= / 100) as H22 by (change (bpow radix2 (-22)) with (/ IZR (2 ^ 22)); change (2 ^ 22)%Z with 4194304%Z; lra).
  assert (0 < bpow radix2 (-52)) as P52 by apply bpow_gt_0. assert (bpow radix2 (-23) <= rate n) as H23 by (unfold rate; pose proof (pos_INR n); nra).
  assert (forall z, (0 <= z <= 100 * 2 ^ 45)%Z -> 0 <= in_cents z <= 2 ^ 45) as Hc by (intros z Hz; unfold in_cents; destruct Hz as [Z1 Z2]; apply IZR_le in Z1, Z2; change (100 * 2 ^ 45)%Z with 3518437208883200%Z in Z2; lra).
  assert (forall m z x, (0 <= z)%Z -> rel (rate m) x (in_cents z) -> rel (rate (S m)) x (in_cents z)) as Hw.
  { intros m z x Hz. apply rel_weaken; [rewrite <- rate_S; lra|]. unfold in_cents. apply IZR_le in Hz. lra. }
  assert (forall z x y w, (0 <= z)%Z -> (0 < w)%Z -> (z + w <= 100 * 2 ^ 45)%Z -> rel (rate n) x (in_cents z) -> rel (rate n) y (in_cents w) -> Rabs (x + y) <= bpow radix2 47 /\ rel (rate (S n)) (rnd (x + y)) (in_cents (z + w))) as Hs.
  { intros z x y w Hz Hw0 Hzw Hx Hy. pose proof (rel_add _ _ _ _ _ Hx Hy) as Hxy. rewrite <- in_cents_add in Hxy. destruct (Hc (z + w)%Z ltac:(lia)) as [C1 C2]. split.
    - pose proof (rel_bounds _ _ _ Hxy) as [B1 B2]. change (bpow radix2 47) with (IZR (2 ^ 47)). change (2 ^ 47)%Z with 140737488355328%Z. apply Rabs_le. split; nra.
    - rewrite <- rate_S. apply rel_rnd; [lra| |exact Hxy]. right. destruct (in_cents_small (z + w) ltac:(lia)) as [E|E]; [|lra]. unfold in_cents in E. assert (1 <= z + w)%Z as H by lia. apply IZR_le in H. lra. }
  destruct (Z.lt_trichotomy d 0%Z) as [Hd|[->|Hd]].
  - assert (IZR d / 100 < 0) as Nd by (apply IZR_lt in Hd; lra). rewrite (Rabs_left (IZR d / 100)) in Bv by auto. apply Rabs_le_inv in Bv.
    assert (real v < 0) as Nv by (assert (bpow radix2 (-23) <= / 100) by lra; nra).
    destruct (fleb f0 v) eqn:E; [apply fle_fin in E; [|reflexivity|auto]; change (real f0) with 0 in E; lra|].
    rewrite Z.max_l, Z.max_r by lia. rewrite Z.add_0_r.
    destruct (Hs l (- real ns) (- real v) (- d)%Z) as [A1 A2]; [lia|lia|lia|exact Rn| |].
    { apply (rel_weaken (bpow radix2 (-23))); [auto|unfold in_cents; rewrite opp_IZR; lra|]. unfold rel, in_cents. rewrite opp_IZR. apply Rabs_le. lra. }
    replace (- real ns + - real v) with (- (real ns + real v)) in * by ring. rewrite Rabs_Ropp in A1. rewrite rnd_opp in A2.
    destruct (add_fin ns v 47) as [Ea [Fa _]]; [lia|auto|auto|auto|]. split; [auto|]. split; [auto|]. split; [auto|]. split; [lia|]. split; [now apply Hw|]. rewrite Ea. exact A2.
  - assert (real v = 0) as Ev. { unfold Rdiv in Bv. rewrite Rmult_0_l, Rabs_R0, Rmult_0_r in Bv. apply Rabs_le_inv in Bv. lra. }
    assert (fleb f0 v = true) as -> by (apply fle_fin; [reflexivity|auto|change (real f0) with 0; lra]). cbn [Z.max Z.compare Z.opp]. rewrite !Z.add_0_r.
    destruct (Hc g ltac:(lia)) as [C1 C2]. pose proof (rel_bounds _ _ _ Rp) as [B1 B2].
    destruct (add_fin ps v 47) as [Ea [Fa _]]; [lia|auto|auto| |]. { rewrite Ev, Rplus_0_r. change (bpow radix2 47) with (IZR (2 ^ 47)). change (2 ^ 47)%Z with 140737488355328%Z. apply Rabs_le. split; nra. }
    split; [auto|]. split; [auto|]. split; [auto|]. split; [auto|]. split; [|now apply Hw]. rewrite Ea, Ev, Rplus_0_r, rnd_val. now apply Hw.
  - assert (0 < IZR d / 100) as Nd by (apply IZR_lt in Hd; lra). rewrite (Rabs_pos_eq (IZR d / 100)) in Bv by lra. apply Rabs_le_inv in Bv.
    assert (0 < real v) as Nv by (assert (bpow radix2 (-23) <= / 100) by lra; nra).
    assert (fleb f0 v = true) as -> by (apply fle_fin; [reflexivity|auto|change (real f0) with 0; lra]).
    rewrite Z.max_r, Z.max_l by lia. rewrite Z.add_0_r.
    destruct (Hs g (real ps) (real v) d) as [A1 A2]; [lia|lia|lia|exact Rp| |].
    { apply (rel_weaken (bpow radix2 (-23))); [auto|unfold in_cents; lra|]. unfold rel, in_cents. apply Rabs_le. lra. }
    destruct (add_fin ps v 47) as [Ea [Fa _]]; [lia|auto|auto|auto|]. split; [auto|]. split; [auto|]. split; [lia|]. split; [auto|]. split; [|now apply Hw]. rewrite Ea. exact A2.
Qed.
Lemma sums_rel_fold ds (vs : list b64) n g l ps ns : Forall2 moved ds vs -> (Z.of_nat (n + length vs) <= 2 ^ 20)%Z -> (g + l + total (map Z.abs ds) <= 100 * 2 ^ 45)%Z -> sums_rel n g l ps ns ->
  let '(ps', ns') := fold_left (fun '(p, n) v => if fleb f0 v then (fadd p v, n) else (p, fadd n v)) vs (ps, ns) in
  sums_rel (n + length vs) (g + total (map (fun d => Z.max 0 d) ds)) (l + total (map (fun d => Z.max 0 (- d)) ds)) ps' ns'.
Proof.
  intros Hl. revert n g l ps ns. induction Hl as [|d v ds vs Hv Hl IH]; intros n g l ps ns Hn Hb Hs; cbn [fold_left length map total] in *; [now rewrite Nat.add_0_r, !Z.add_0_r|].
  assert (0 <= total (map Z.abs ds))%Z as P by (clear; induction ds; cbn [map total]; lia).
  pose proof (sums_rel_step n g l ps ns d v ltac:(lia) ltac:(lia) Hs Hv) as St. rewrite Nat.add_succ_r, <- Nat.add_succ_l, !Z.add_assoc.
  destruct (fleb f0 v); (apply IH; [lia|lia|exact St]).
Qed.

Lemma rel_inv r y Y c : 0 <= r <= / 100 -> 0 <= c -> 0 < Y -> rel r y Y -> rel (21 / 20 * r) (c / y) (c / Y).
Proof.
  intros Hr Hc HY Hy. pose proof (rel_bounds _ _ _ Hy) as [B1 _]. assert (0 < (1 - r) * Y) as P1 by nra. assert (0 < y) as Py by lra.
  unfold rel in *. replace (c / y - c / Y) with (c * (Y - y) * / (y * Y)) by (field; lra).
  rewrite !Rabs_mult, (Rabs_pos_eq (/ (y * Y))), (Rabs_pos_eq c) by (try (left; apply Rinv_0_lt_compat); nra). rewrite Rabs_minus_sym.
  apply Rle_trans with (c * (r * Y) * / (y * Y)); [apply Rmult_le_compat_r; [left; apply Rinv_0_lt_compat; nra|now apply Rmult_le_compat_l]|].
  replace (c * (r * Y) * / (y * Y)) with (c * r * / y) by (field; lra). replace (21 / 20 * r * (c / Y)) with (c * r * (21 / 20 * / Y)) by (field; lra). apply Rmult_le_compat_l; [nra|].
  apply Rle_trans with (/ ((1 - r) * Y)); [apply Rinv_le; lra|]. rewrite Rinv_mult. apply Rmult_le_compat_r; [left; now apply Rinv_0_lt_compat|].
  apply Rle_trans with (/ (99 / 100)); [apply Rinv_le; lra|lra].
Qed.
Lemma in_cents_big z : (1 <= z)%Z -> / 100 <= in_cents z.
Proof. intros Hz. unfold in_cents. apply IZR_le in Hz. lra. Qed.

Lemma rel_pos r x X : r <= / 100 -> 0 < X -> rel r x X -> 0 < x.
Proof. intros Hr HX H. pose proof (rel_bounds _ _ _ H) as [B _]. nra. Qed.
Lemma rel_abs r x X b : 0 <= r <= / 100 -> 0 <= X <= b -> rel r x X -> Rabs x <= 2 * b.
Proof. intros Hr HX H. pose proof (rel_bounds _ _ _ H) as [B1 B2]. apply Rabs_le. split; nra. Qed.
Lemma mult_small x y b : 0 <= x <= b -> 0 <= y <= 1 -> x * y <= b.
Proof. intros. nra. Qed.

Lemma rsi_cents_b64 n ds (vs : list b64) : Forall2 moved ds vs -> Z.of_nat (length vs) = n -> (1 <= n <= 2 ^ 20)%Z -> (total (map Z.abs ds) <= 100 * 2 ^ 45)%Z ->
  let g := total (map (fun d => Z.max 0 d) ds) in let l := total (map (fun d => Z.max 0 (- d)) ds) in
  exists x m, build_rsi n vs = Ok x /\ decimal m x /\ if (l =? 0)%Z then m = 10000%Z else (100 * Z.abs (m * (g + l) - 10000 * g) <= 51 * (g + l))%Z.
Proof.
  intros Hm Hl Hn Hb g l.
  assert (g + l = total (map Z.abs ds))%Z as Hgl by (unfold g, l; clear; induction ds; cbn [map total]; lia).
  pose proof (sums_rel_fold ds vs 0 0 0 f0 f0 Hm ltac:(lia) ltac:(lia)) as Hs. fold (build_sums vs) in Hs. cbn [Nat.add] in Hs. rewrite !Z.add_0_l in Hs. fold g in Hs. fold l in Hs.
  unfold build_rsi. destruct (build_sums vs) as [ps ns].
  destruct Hs as (Fp & Fn & Pg & Pl & Rp & Rn).
  { split; [reflexivity|]. split; [reflexivity|]. split; [lia|]. split; [lia|]. change (real f0) with 0. unfold rel, in_cents, Rdiv. rewrite Rmult_0_l, Rmult_0_r, Ropp_0, Rminus_0_r, Rabs_R0. lra. }
  pose proof (rate_small (length vs) ltac:(lia)) as Hr. set (r := rate (length vs)) in *.
  assert (bpow radix2 (-22) = / 4194304) as H22 by (change (bpow radix2 (-22)) with (/ IZR (2 ^ 22)); change (2 ^ 22)%Z with 4194304%Z; reflexivity).
  assert (bpow radix2 (-52) = / 4503599627370496) as H52 by (change (bpow radix2 (-52)) with (/ IZR (2 ^ 52)); change (2 ^ 52)%Z with 4503599627370496%Z; reflexivity).
  assert (forall x, is_finite x = true -> feqb x f0 = true <-> real x = 0) as Hz by (intros x Fx; exact (feq_fin x f0 Fx eq_refl)).
  destruct (ofZ_fin 100 ltac:(lia)) as [V100 F100]. destruct (ofZ_fin 1 ltac:(lia)) as [V1 F1]. destruct (ofZ_fin 0 ltac:(lia)) as [V0 F0'].
  assert (rnd 100 = 100) as R100 by (rewrite <- V100; apply rnd_val).
  pose proof (rel_bounds _ _ _ Rp) as Bp. pose proof (rel_bounds _ _ _ Rn) as Bn.
  destruct (feqb ns f0) eqn:E1.
  { apply Hz in E1; [|auto]. exists (fofZ 100), 10000%Z. split; [reflexivity|]. split; [split; [auto|]; rewrite V100; replace (IZR 10000 / 100) with 100 by lra; symmetry; exact R100|].
    destruct (Z.eqb_spec l 0) as [_|N]; [reflexivity|]. pose proof (in_cents_big l ltac:(lia)). nra. }
  assert (real ns <> 0) as Nn by (intros C; apply Hz in C; [congruence|auto]).
  destruct (Z.eqb_spec l 0) as [El|Nl]; [exfalso; apply Nn; rewrite El in Bn; unfold in_cents in Bn; lra|].
  pose proof (in_cents_big l ltac:(lia)) as HL.
  destruct (feqb ps f0) eqn:E2.
  { apply Hz in E2; [|auto]. exists (fofZ 0), 0%Z. split; [reflexivity|]. split; [split; [auto|]; rewrite V0; unfold Rdiv; rewrite Rmult_0_l; symmetry; exact rnd_0|].
    assert (g = 0)%Z as ->; [|lia]. destruct (Z.eq_dec g 0%Z) as [E|N]; [auto|]. pose proof (in_cents_big g ltac:(lia)). nra. }
  assert (real ps <> 0) as Np by (intros C; apply Hz in C; [congruence|auto]).
  assert (1 <= g)%Z as Hg. { destruct (Z.eq_dec g 0%Z) as [E|N]; [|lia]. exfalso. apply Np. rewrite E in Bp. unfold in_cents in Bp. lra. }
  pose proof (in_cents_big g Hg) as HG.
  assert (in_cents g <= 2 ^ 45 /\ in_cents l <= 2 ^ 45) as [UG UL].
  { assert (g <= 100 * 2 ^ 45)%Z as A by lia. assert (l <= 100 * 2 ^ 45)%Z as B by lia. unfold in_cents. apply IZR_le in A, B. change (100 * 2 ^ 45)%Z with 3518437208883200%Z in A, B. lra. }
  set (G := in_cents g) in *. set (L := in_cents l) in *.
  destruct (ofZ_fin n ltac:(lia)) as [Vn Fnn]. assert (1 <= IZR n <= 1048576) as Rnn by (split; apply IZR_le; lia).
  assert (/ 1048576 <= / IZR n <= 1) as Hi. { split; [apply Rinv_le; lra|]. rewrite <- Rinv_1. apply Rinv_le; lra. }
  assert (/ 104857600 <= G * / IZR n /\ G * / IZR n <= 2 ^ 45 /\ / 104857600 <= L * / IZR n /\ L * / IZR n <= 2 ^ 45) as (HGn & UGn & HLn & ULn).
  { assert (/ 104857600 = / 100 * / 1048576) as -> by lra. split; [apply Rmult_le_compat; lra|]. split; [apply mult_small; lra|]. split; [apply Rmult_le_compat; lra|apply mult_small; lra]. }
  assert (bpow radix2 (-900) <= / 104857600) as H900. { apply Rle_trans with (bpow radix2 (-30)); [apply bpow_le; lia|]. change (bpow radix2 (-30)) with (/ IZR (2 ^ 30)). change (2 ^ 30)%Z with 1073741824%Z. lra. }
  (* averages *)
  rewrite !divr_ok by (rewrite ?Vn; auto; lra). cbn [rbind].
  assert (rel r (real ps / IZR n) (G * / IZR n)) as Ap by (apply rel_scale; [lra|exact Rp]).
  assert (rel r (- (real ns / IZR n)) (L * / IZR n)) as An by (unfold Rdiv; rewrite <- Ropp_mult_distr_l_reverse; apply rel_scale; [lra|exact Rn]).
  assert (bpow radix2 47 = 2 ^ 47) as P47 by (change (bpow radix2 47) with (IZR (2 ^ 47)); change (2 ^ 47)%Z with 140737488355328%Z; lra).
  destruct (div_fin ps (fofZ n) 47) as [Ep [Fpa _]]; [lia|auto|rewrite Vn; lra|rewrite Vn, P47; eapply Rle_trans; [apply (rel_abs r _ (G * / IZR n) (2 ^ 45)); [lra|lra|exact Ap]|lra]|]. rewrite Vn in Ep.
  destruct (div_fin ns (fofZ n) 47) as [En [Fna _]]; [lia|auto|rewrite Vn; lra|rewrite Vn, P47, <- Rabs_Ropp; eapply Rle_trans; [apply (rel_abs r _ (L * / IZR n) (2 ^ 45)); [lra|lra|exact An]|lra]|]. rewrite Vn in En.
  set (pa := fdiv ps (fofZ n)) in *. set (na := fdiv ns (fofZ n)) in *.
  apply rel_rnd in Ap; [|lra|right; lra]. rewrite <- Ep in Ap. apply rel_rnd in An; [|lra|right; lra]. rewrite rnd_opp, <- En in An.
  set (r1 := r + bpow radix2 (-52)) in *. assert (0 <= r1 <= / 4194304 + / 4503599627370496) as Hr1 by (unfold r1; lra).
  assert (0 < - real na) as Nna0 by (eapply rel_pos; [| |exact An]; lra). assert (real na < 0) as Nna by lra.
  assert (real (fabs na) = - real na) as Eab. { change (fabs na) with (Babs na). rewrite B2R_Babs. now apply Rabs_left. }
  assert (is_finite (fabs na) = true) as Fab by (change (fabs na) with (Babs na); now rewrite is_finite_Babs).
  rewrite divr_ok by (rewrite ?Eab; auto; lra). cbn [rbind].
  assert (rel (21 / 10 * r1) (real pa / - real na) (G / L)) as Ars. { replace (G / L) with (G * / IZR n / (L * / IZR n)) by (field; lra). apply rel_div; [lra|lra|lra|exact Ap|exact An]. }
  assert (bpow radix2 (-900) <= G / L /\ G / L <= 2 ^ 52) as [HRS URS].
  { assert (/ 2 ^ 45 <= / L <= 100) as [I1 I2]. { split; [apply Rinv_le; lra|]. replace 100 with (/ / 100) by lra. apply Rinv_le; lra. } split; [|unfold Rdiv; apply Rle_trans with (2 ^ 45 * 100); [apply Rmult_le_compat; lra|lra]].
    apply Rle_trans with (/ 100 * / 2 ^ 45); [|unfold Rdiv; apply Rmult_le_compat; lra].
    apply Rle_trans with (bpow radix2 (-60)); [apply bpow_le; lia|]. change (bpow radix2 (-60)) with (/ IZR (2 ^ 60)). change (2 ^ 60)%Z with 1152921504606846976%Z. lra. }
  set (RS := G / L) in *. assert (0 < RS) as PRS by (pose proof (bpow_gt_0 radix2 (-900)); lra).
  assert (bpow radix2 54 = 2 ^ 54) as P54 by (change (bpow radix2 54) with (IZR (2 ^ 54)); change (2 ^ 54)%Z with 18014398509481984%Z; lra).
  destruct (div_fin pa (fabs na) 54) as [Ers [Frs _]]; [lia|auto|rewrite Eab; lra|rewrite Eab, P54; eapply Rle_trans; [apply (rel_abs (21 / 10 * r1) _ RS (2 ^ 52)); [lra|lra|exact Ars]|lra]|]. rewrite Eab in Ers. set (rs := fdiv pa (fabs na)) in *.
  apply rel_rnd in Ars; [|lra|right; lra]. rewrite <- Ers in Ars. set (r2 := 21 / 10 * r1 + bpow radix2 (-52)) in *.
  assert (0 <= r2 <= 3 * / 4194304) as Hr2 by (unfold r2; lra).
  assert (rel r2 (1 + real rs) (1 + RS)) as As. { unfold rel in *. replace (1 + real rs - (1 + RS)) with (real rs - RS) by ring. apply Rle_trans with (r2 * RS); [exact Ars|]. apply Rmult_le_compat_l; lra. }
  destruct (add_fin (fofZ 1) rs 54) as [Es [Fs _]]; [lia|auto|auto|rewrite V1, P54; eapply Rle_trans; [apply (rel_abs r2 _ (1 + RS) (2 ^ 53)); [lra|lra|exact As]|lra]|]. rewrite V1 in Es. set (s := fadd (fofZ 1) rs) in *.
  apply rel_rnd in As; [|lra|right; lra]. rewrite <- Es in As. set (r3 := r2 + bpow radix2 (-52)) in *. assert (0 <= r3 <= 22 / 10 * / 4194304) as Hr3 by (unfold r3, r2; lra).
  assert (0 < real s) as Ps by (eapply rel_pos; [| |exact As]; lra).
  rewrite divr_ok by (auto; lra). cbn [rbind].
  assert (rel (21 / 20 * r3) (100 / real s) (100 / (1 + RS))) as Ad by (apply rel_inv; [lra|lra|lra|exact As]).
  assert (0 < 100 / (1 + RS) <= 100) as HD. { split; [apply Rmult_lt_0_compat; [lra|apply Rinv_0_lt_compat; lra]|]. unfold Rdiv. rewrite <- (Rmult_1_r 100) at 2. apply Rmult_le_compat_l; [lra|]. rewrite <- Rinv_1. apply Rinv_le; lra. }
  assert (bpow radix2 (-900) <= 100 / (1 + RS)) as HDl. { apply Rle_trans with (100 * / 2 ^ 53); [|unfold Rdiv; apply Rmult_le_compat_l; [lra|apply Rinv_le; lra]]. apply Rle_trans with (bpow radix2 (-60)); [apply bpow_le; lia|]. change (bpow radix2 (-60)) with (/ IZR (2 ^ 60)). change (2 ^ 60)%Z with 1152921504606846976%Z. lra. }
  assert (bpow radix2 8 = 256) as P8 by reflexivity. assert (bpow radix2 7 = 128) as P7 by reflexivity.
  destruct (div_fin (fofZ 100) s 8) as [Ed [Fd _]]; [lia|auto|lra|rewrite V100, P8; eapply Rle_trans; [apply (rel_abs (21 / 20 * r3) _ (100 / (1 + RS)) 100); [lra|lra|exact Ad]|lra]|]. rewrite V100 in Ed. set (d := fdiv (fofZ 100) s) in *.
  apply rel_rnd in Ad; [|lra|right; lra]. rewrite <- Ed in Ad. set (r4 := 21 / 20 * r3 + bpow radix2 (-52)) in *. assert (0 <= r4 <= 232 / 100 * / 4194304) as Hr4 by (unfold r4; lra).
  set (D := 100 / (1 + RS)) in *. assert (Rabs (real d - D) <= 100 * r4) as Ed' by (unfold rel in Ad; eapply Rle_trans; [exact Ad|]; rewrite (Rmult_comm 100); apply Rmult_le_compat_l; lra). apply Rabs_le_inv in Ed'.
  assert (Rabs (100 - real d) <= bpow radix2 7) as B7 by (rewrite P7; apply Rabs_le; lra).
  destruct (sub_fin (fofZ 100) d 7) as [Ex [Fx _]]; [lia|auto|auto|rewrite V100; exact B7|]. rewrite V100 in Ex. set (x := fsub (fofZ 100) d) in *.
  pose proof (rnd_err _ 7 ltac:(lia) B7) as E7. rewrite <- Ex in E7. change (bpow radix2 (7 - 53)) with (/ IZR (2 ^ 46)) in E7. change (2 ^ 46)%Z with 70368744177664%Z in E7. apply Rabs_le_inv in E7.
  exists (round2 x), (cent (real x)). split; [reflexivity|]. split; [now apply decimal_round2|].
  pose proof (cent_half (real x)) as Hh. apply Rabs_le_inv in Hh. set (m := cent (real x)) in *.
  assert (Rabs (IZR m - 10000 * (G / (G + L))) <= 51 / 100) as Hf.
  { assert (100 - D = 100 * (G / (G + L))) as HDD by (unfold D, RS; field; lra). apply Rabs_le. lra. }
  assert (G / (G + L) * (IZR g + IZR l) = IZR g) as Hq. { unfold G, L, in_cents. field. apply IZR_le in Hg. assert (0 <= IZR l) by (apply IZR_le; lia). lra. }
  assert (0 < IZR g + IZR l) as Pgl by (rewrite <- plus_IZR; apply IZR_lt; lia).
  apply le_IZR. rewrite mult_IZR, abs_IZR, minus_IZR, !mult_IZR, !plus_IZR. rewrite <- Hq at 2.
  replace (IZR m * (IZR g + IZR l) - 10000 * (G / (G + L) * (IZR g + IZR l))) with ((IZR m - 10000 * (G / (G + L))) * (IZR g + IZR l)) by ring.
  rewrite Rabs_mult, (Rabs_pos_eq (IZR g + IZR l)) by lra. apply (Rmult_le_compat_r (IZR g + IZR l)) in Hf; lra.
Qed.

Lemma rsi_cents_range ks m : rsi_cents ks m -> (0 <= m <= 10000)%Z.
Proof.
  unfold rsi_cents. assert (0 <= rises ks /\ 0 <= falls ks)%Z as [Hr Hf]. { unfold rises, falls. split; (induction (moves ks); cbn [map total]; lia). }
  destruct (Z.eqb_spec (falls ks) 0) as [_|N]; [lia|]. intros H. assert (0 < rises ks + falls ks)%Z as Hs by lia. assert (rises ks <= rises ks + falls ks)%Z as Hle by lia. revert Hs Hle H. generalize (rises ks + falls ks)%Z. intros S Hs Hle H. nia.
Qed.
Lemma moves_bound b ks : Forall (fun k => Z.abs k <= b)%Z ks -> (total (map Z.abs (moves ks)) <= Z.of_nat (length ks) * (2 * b))%Z.
Proof.
  induction 1 as [|a ks Ha Hk IH]; [cbn; lia|]. destruct Hk as [|c ks Hc Hk]; [cbn; lia|]. rewrite moves_cons2. cbn [map total length] in *. lia.
Qed.
Lemma rsi_value_b64 u q ref mx i p o (fs0 fs : fset b64) k iv : (2 <= mx)%Z -> (2 <= p * q <= 2 ^ 20)%Z -> in_kind i = KRSI p o -> in_mopen i = false ->
  fset_init u q ref mx = Ok fs0 -> fs_hist (only i) (fun tk r => quotes_within 20 tk /\ r = Ok ()) fs0 fs -> value_at fs (in_ref i) k = Some iv ->
  exists s lc v, valued_from fs (in_ref i) s /\ (s <= k)%nat /\ iv_data iv = DRSI (p * q) lc v /\
    if (S k - (s - 1) <=? Z.to_nat (p * q))%nat then v = None
    else exists x m ks, v = Some x /\ Forall2 decimal ks (window (S (Z.to_nat (p * q))) k (closes fs)) /\ decimal m x /\ rsi_cents ks m /\ (0 <= m <= 10000)%Z.
Proof.
  intros Hmx Hn Hi Hmo E0 Hh Hv. assert (fs_hist (only i) no_exn fs0 fs) as Hh1 by (apply (hist_tick_weaken _ _ _ _ _) with (2 := Hh); intros t r [_ H]; exact H).
  assert (fs_hist (only i) (fun tk _ => quotes_within 20 tk) fs0 fs) as Hh2 by (apply (hist_tick_weaken _ _ _ _ _) with (2 := Hh); intros t r [H _]; exact H).
  destruct (rsi_hist u q ref mx i p o fs0 fs k iv Hmx ltac:(lia) Hi Hmo E0 Hh1 Hv) as (s & lc & v & H1 & H2 & H3 & H4). exists s, lc, v. split; [auto|]. split; [auto|]. split; [auto|].
  destruct (Nat.leb_spec (S k - (s - 1)) (Z.to_nat (p * q))) as [Hle|Hgt]; [auto|]. destruct H4 as (x & -> & Hx).
  pose proof (closes_cents 20 u q ref mx (only i) _ fs0 fs ltac:(lia) ltac:(lia) ltac:(intros t r H; exact H) E0 Hh2) as Hc. apply (Forall_window _ (S (Z.to_nat (p * q))) k) in Hc. change (20 + 1)%Z with 21%Z in Hc.
  assert (exists ks, Forall2 (fun k x => decimal k x /\ (Z.abs k <= 100 * 2 ^ 21)%Z) ks (window (S (Z.to_nat (p * q))) k (closes fs))) as [ks Hks].
  { clear - Hc. induction Hc as [|y l (k0 & Hk0) Hc [ks IH]]; [exists []; constructor|exists (k0 :: ks); now constructor]. }
  assert (Forall2 decimal ks (window (S (Z.to_nat (p * q))) k (closes fs))) as Hd by (eapply Forall2_impl; [exact Hks|]; now intros ? ? [? ?]).
  assert (Forall (fun k => Z.abs k <= 100 * 2 ^ 21)%Z ks) as Hk. { clear - Hks. induction Hks as [|? ? ? ? [_ ?] ? ?]; constructor; auto. }
  assert (k < length (fs_heap fs))%nat as Hkl by (unfold value_at in Hv; destruct (fs_heap fs !! k) eqn:E; [now apply lookup_lt_Some in E|discriminate]).
  assert (Z.of_nat (length (window (S (Z.to_nat (p * q))) k (closes fs))) = p * q + 1)%Z as Hlen.
  { unfold window. rewrite drop_length, take_length. unfold closes. rewrite map_length. lia. }
  pose proof (Forall2_length _ _ _ Hd) as Hl'. pose proof (moves_bound _ ks Hk) as Hb.
  destruct (rsi_cents_b64 (p * q) (moves ks) (fchanges (window (S (Z.to_nat (p * q))) k (closes fs)))) as (x' & m & Ex & D & Hm); [now apply moved_all|rewrite fchanges_length; lia|lia| |].
  { eapply Z.le_trans; [exact Hb|]. rewrite Hl', Hlen. change (100 * 2 ^ 45)%Z with 3518437208883200%Z. change (2 * (100 * 2 ^ 21))%Z with 419430400%Z. change (2 ^ 20)%Z with 1048576%Z in Hn. lia. }
  rewrite Hx in Ex. injection Ex as <-. exists x, m, ks. split; [auto|]. split; [auto|]. split; [auto|]. assert (rsi_cents ks m) as Hrc by exact Hm. split; [exact Hrc|now apply (rsi_cents_range ks)].
Qed.
