(** Laws of the exact instance [NumQ]. *)
From Coq Require Export Lqa.
From Verif Require Export Num.
Open Scope Z_scope.

(** ** Integer rounding *)
Lemma Zrhe_spec n d : let z := Zround_half_even n d in
  2 * Z.abs (n - z * Zpos d) <= Zpos d /\ (2 * Z.abs (n - z * Zpos d) = Zpos d -> Z.even z = true).
Proof.
  unfold Zround_half_even. simpl.
  pose proof (Z.div_mod n (Zpos d) ltac:(lia)) as Hdm.
  pose proof (Z.mod_pos_bound n (Zpos d) ltac:(lia)) as Hb.
  set (q := n / Zpos d) in *. set (r := n mod Zpos d) in *.
  destruct (2 * r ?= Zpos d) eqn:E.
  - apply Z.compare_eq in E. destruct (Z.even q) eqn:Ev; split; try nia; auto.
    intros _. rewrite Z.even_add, Ev. reflexivity.
  - rewrite Z.compare_lt_iff in E. split; nia.
  - rewrite Z.compare_gt_iff in E. split; nia.
Qed.

Open Scope Q_scope.

Lemma Qrhe_bounds x : inject_Z (Qround_half_even x) - (1#2) <= x <= inject_Z (Qround_half_even x) + (1#2).
Proof.
  destruct x as [n d]. unfold Qround_half_even. simpl.
  destruct (Zrhe_spec n d) as [H _]. set (z := Zround_half_even n d) in *.
  unfold Qle, Qminus, Qplus, Qopp, inject_Z; simpl. lia.
Qed.

Lemma Qrhe_tie x : x == inject_Z (Qround_half_even x) - (1#2) \/ x == inject_Z (Qround_half_even x) + (1#2) ->
  Z.even (Qround_half_even x) = true.
Proof.
  destruct x as [n d]. unfold Qround_half_even. simpl.
  destruct (Zrhe_spec n d) as [_ H]. set (z := Zround_half_even n d) in *.
  unfold Qeq, Qminus, Qplus, Qopp, inject_Z; simpl. intros [E|E]; apply H; lia.
Qed.

Lemma inject_Z_lt_le a b : (a < b)%Z -> inject_Z a + 1 <= inject_Z b.
Proof. intros. unfold Qle, Qplus, inject_Z; simpl. lia. Qed.
Lemma inject_Z_le a b : (a <= b)%Z <-> inject_Z a <= inject_Z b.
Proof. unfold Qle, inject_Z; simpl. lia. Qed.
Lemma inject_Z_eq a b : a = b <-> inject_Z a == inject_Z b.
Proof. unfold Qeq, inject_Z; simpl. lia. Qed.

(** Rounding is determined by the half-unit bound and the tie rule. *)
Lemma Qrhe_unique x z :
  inject_Z z - (1#2) <= x -> x <= inject_Z z + (1#2) ->
  (x == inject_Z z - (1#2) \/ x == inject_Z z + (1#2) -> Z.even z = true) ->
  Qround_half_even x = z.
Proof.
  intros H1 H2 Ht.
  pose proof (Qrhe_bounds x) as [B1 B2]. pose proof (Qrhe_tie x) as Bt.
  set (y := Qround_half_even x) in *.
  destruct (Z.lt_trichotomy y z) as [L|[E|L]]; auto; exfalso.
  - pose proof (inject_Z_lt_le _ _ L).
    assert (inject_Z z == inject_Z y + 1) as Ez by lra.
    assert (Z.even y = true) as E1 by (apply Bt; right; lra).
    assert (Z.even z = true) as E2 by (apply Ht; left; lra).
    assert (z = (y + 1)%Z) as -> by (apply inject_Z_eq; rewrite inject_Z_plus; change (inject_Z 1) with 1; lra).
    rewrite Z.even_add, E1 in E2. discriminate.
  - pose proof (inject_Z_lt_le _ _ L).
    assert (inject_Z y == inject_Z z + 1) as Ez by lra.
    assert (Z.even y = true) as E1 by (apply Bt; left; lra).
    assert (Z.even z = true) as E2 by (apply Ht; right; lra).
    assert (y = (z + 1)%Z) as Hy by (apply inject_Z_eq; rewrite inject_Z_plus; change (inject_Z 1) with 1; lra).
    rewrite Hy, Z.even_add, E2 in E1. discriminate.
Qed.

Lemma Qrhe_mono x y : x <= y -> (Qround_half_even x <= Qround_half_even y)%Z.
Proof.
  intros H.
  pose proof (Qrhe_bounds x) as [B1 B2]. pose proof (Qrhe_tie x) as Bt.
  pose proof (Qrhe_bounds y) as [C1 C2]. pose proof (Qrhe_tie y) as Ct.
  destruct (Z.le_gt_cases (Qround_half_even x) (Qround_half_even y)) as [|L]; auto. exfalso.
  set (zx := Qround_half_even x) in *. set (zy := Qround_half_even y) in *.
  pose proof (inject_Z_lt_le _ _ L).
  assert (inject_Z zx == inject_Z zy + 1) as Ez by lra.
  assert (Z.even zx = true) as E1 by (apply Bt; left; lra).
  assert (Z.even zy = true) as E2 by (apply Ct; right; lra).
  assert (zx = (zy + 1)%Z) as Hy by (apply inject_Z_eq; rewrite inject_Z_plus; change (inject_Z 1) with 1; lra).
  rewrite Hy, Z.even_add, E2 in E1. discriminate.
Qed.

Lemma Qrhe_proper x y : x == y -> Qround_half_even x = Qround_half_even y.
Proof. intros H. apply Z.le_antisymm; apply Qrhe_mono; lra. Qed.

Lemma Qrhe_Z z : Qround_half_even (inject_Z z) = z.
Proof. apply Qrhe_unique; [lra|lra|]. intros [H|H]; exfalso; lra. Qed.

Lemma Qrhe_opp x : Qround_half_even (- x) = (- Qround_half_even x)%Z.
Proof.
  pose proof (Qrhe_bounds x) as [B1 B2]. pose proof (Qrhe_tie x) as Bt.
  apply Qrhe_unique; rewrite ?inject_Z_opp; try lra.
  intros H. rewrite Z.even_opp. apply Bt. destruct H; [right|left]; lra.
Qed.

(** ** round(x, 2) *)
Lemma Qround2_eq x : Qround2 x == inject_Z (Qround_half_even (x * 100)) / 100.
Proof. unfold Qround2. rewrite Qred_correct. reflexivity. Qed.

Lemma Qdiv100 x : x / 100 == x * (1#100).
Proof. unfold Qdiv. reflexivity. Qed.

Global Instance Qround2_proper : Proper (Qeq ==> Qeq) Qround2.
Proof. intros x y H. rewrite !Qround2_eq. rewrite (Qrhe_proper (x*100) (y*100)); [reflexivity|]. lra. Qed.

Lemma Qround2_mono x y : x <= y -> Qround2 x <= Qround2 y.
Proof.
  intros H. rewrite !Qround2_eq, !Qdiv100.
  assert (x * 100 <= y * 100) as H1 by lra. apply Qrhe_mono in H1.
  apply inject_Z_le in H1. lra.
Qed.

Lemma Qround2_bounds x : x - (1#200) <= Qround2 x <= x + (1#200).
Proof. rewrite !Qround2_eq, !Qdiv100. pose proof (Qrhe_bounds (x * 100)). lra. Qed.

(** Whole numbers of cents. *)
Definition cents (x : Q) : Prop := exists z : Z, x == z # 100.

Lemma Qz100 z : z # 100 == inject_Z z * (1#100).
Proof. unfold Qeq, inject_Z; simpl. lia. Qed.

Lemma Qround2_cents x : cents (Qround2 x).
Proof. exists (Qround_half_even (x * 100)). rewrite Qround2_eq, Qdiv100. symmetry. apply Qz100. Qed.

Lemma Qround2_fix x : cents x -> Qround2 x == x.
Proof.
  intros [z Hz]. rewrite Qround2_eq, Qdiv100.
  assert (x * 100 == inject_Z z) as H by (pose proof (Qz100 z); lra).
  rewrite (Qrhe_proper _ _ H), Qrhe_Z. lra.
Qed.

Lemma Qround2_opp x : Qround2 (- x) == - Qround2 x.
Proof.
  rewrite !Qround2_eq, !Qdiv100.
  assert (- x * 100 == - (x * 100)) as H by lra.
  rewrite (Qrhe_proper _ _ H), Qrhe_opp, inject_Z_opp. lra.
Qed.

Lemma Qround2_idem x : Qround2 (Qround2 x) == Qround2 x.
Proof. apply Qround2_fix, Qround2_cents. Qed.

Global Instance cents_proper : Proper (Qeq ==> iff) cents.
Proof. intros x y H. unfold cents. split; intros [z Hz]; exists z; lra. Qed.

Lemma cents_Z z : cents (inject_Z z).
Proof. exists (z * 100)%Z. pose proof (Qz100 (z*100)) as H. rewrite inject_Z_mult in H. change (inject_Z 100) with 100 in H. lra. Qed.
Lemma cents_add x y : cents x -> cents y -> cents (x + y).
Proof. intros [a Ha] [b Hb]. exists (a + b)%Z. pose proof (Qz100 a); pose proof (Qz100 b); pose proof (Qz100 (a+b)) as E. rewrite inject_Z_plus in E. lra. Qed.
Lemma cents_opp x : cents x -> cents (- x).
Proof. intros [a Ha]. exists (- a)%Z. pose proof (Qz100 a); pose proof (Qz100 (-a)) as E. rewrite inject_Z_opp in E. lra. Qed.
Lemma cents_sub x y : cents x -> cents y -> cents (x - y).
Proof. intros. unfold Qminus. auto using cents_add, cents_opp. Qed.
Lemma cents_mulZ x z : cents x -> cents (x * inject_Z z).
Proof. intros [a Ha]. exists (a * z)%Z. rewrite (Qz100 (a*z)), inject_Z_mult, Ha, (Qz100 a). ring. Qed.
Lemma Qround2_0 : Qround2 0 == 0.
Proof. apply Qround2_fix. exists 0%Z. reflexivity. Qed.
Lemma Qround2_nonneg x : 0 <= x -> 0 <= Qround2 x.
Proof. intros. rewrite <- Qround2_0. now apply Qround2_mono. Qed.
Lemma Qround2_nonpos x : x <= 0 -> Qround2 x <= 0.
Proof. intros. rewrite <- Qround2_0. now apply Qround2_mono. Qed.
(** Rounding stays inside any cent-aligned interval. *)
Lemma Qround2_ge a x : cents a -> a <= x -> a <= Qround2 x.
Proof. intros. rewrite <- (Qround2_fix a); auto. now apply Qround2_mono. Qed.
Lemma Qround2_le a x : cents a -> x <= a -> Qround2 x <= a.
Proof. intros. rewrite <- (Qround2_fix a); auto. now apply Qround2_mono. Qed.

(** ** The operations of [NumQ] up to [Qeq] *)
Lemma qadd x y : @fadd Q NumQ x y == x + y. Proof. apply Qred_correct. Qed.
Lemma qsub x y : @fsub Q NumQ x y == x - y. Proof. apply Qred_correct. Qed.
Lemma qmul x y : @fmul Q NumQ x y == x * y. Proof. apply Qred_correct. Qed.
Lemma qdiv x y : @fdiv Q NumQ x y == x / y. Proof. apply Qred_correct. Qed.
Lemma qabs x : @fabs Q NumQ x = Qabs x. Proof. reflexivity. Qed.
Lemma qr2 x : @round2 Q NumQ x = Qround2 x. Proof. reflexivity. Qed.
Lemma qofZ z : @fofZ Q NumQ z = inject_Z z. Proof. reflexivity. Qed.
Lemma qf0 : @f0 Q NumQ = 0. Proof. reflexivity. Qed.
Lemma qltb x y : @fltb Q NumQ x y = true <-> x < y.
Proof.
  simpl. rewrite negb_true_iff. destruct (Qle_bool y x) eqn:E.
  - apply Qle_bool_iff in E. split; [discriminate|]. intros; exfalso; lra.
  - split; auto. intros _. apply Qnot_le_lt. intros H. apply Qle_bool_iff in H. congruence.
Qed.
Lemma qltb_false x y : @fltb Q NumQ x y = false <-> y <= x.
Proof.
  simpl. rewrite negb_false_iff. apply Qle_bool_iff.
Qed.
Lemma qleb x y : @fleb Q NumQ x y = true <-> x <= y. Proof. apply Qle_bool_iff. Qed.
Lemma qleb_false x y : @fleb Q NumQ x y = false <-> y < x.
Proof.
  simpl. split.
  - intros E. apply Qnot_le_lt. intros H. apply Qle_bool_iff in H. congruence.
  - intros H. destruct (Qle_bool x y) eqn:E; auto. apply Qle_bool_iff in E. exfalso; lra.
Qed.
Lemma qeqb x y : @feqb Q NumQ x y = true <-> x == y. Proof. apply Qeq_bool_iff. Qed.
Lemma qeqb_false x y : @feqb Q NumQ x y = false <-> ~ x == y.
Proof. simpl. rewrite <- Qeq_bool_iff. destruct (Qeq_bool x y); split; congruence. Qed.
Lemma qtruthy x : @ftruthy Q NumQ x = true <-> ~ x == 0.
Proof. unfold ftruthy. rewrite negb_true_iff. apply qeqb_false. Qed.
Lemma qtruthy_false x : @ftruthy Q NumQ x = false <-> x == 0.
Proof. unfold ftruthy. rewrite negb_false_iff. apply qeqb. Qed.
Lemma qmax_spec a b : (a <= @fmax Q NumQ a b) /\ (b <= @fmax Q NumQ a b) /\
  (@fmax Q NumQ a b = a \/ @fmax Q NumQ a b = b).
Proof.
  unfold fmax. destruct (fltb a b) eqn:E.
  - apply qltb in E. repeat split; auto; lra.
  - apply qltb_false in E. repeat split; auto; lra.
Qed.
Lemma qmin_spec a b : (@fmin Q NumQ a b <= a) /\ (@fmin Q NumQ a b <= b) /\
  (@fmin Q NumQ a b = a \/ @fmin Q NumQ a b = b).
Proof.
  unfold fmin. destruct (fltb b a) eqn:E.
  - apply qltb in E. repeat split; auto; lra.
  - apply qltb_false in E. repeat split; auto; lra.
Qed.

Global Instance qadd_proper : Proper (Qeq ==> Qeq ==> Qeq) (@fadd Q NumQ).
Proof. intros a b H c d H'. rewrite !qadd. lra. Qed.
Global Instance qsub_proper : Proper (Qeq ==> Qeq ==> Qeq) (@fsub Q NumQ).
Proof. intros a b H c d H'. rewrite !qsub. lra. Qed.
Global Instance qmul_proper : Proper (Qeq ==> Qeq ==> Qeq) (@fmul Q NumQ).
Proof. intros a b H c d H'. rewrite !qmul. rewrite H, H'. reflexivity. Qed.
Global Instance qr2_proper : Proper (Qeq ==> Qeq) (@round2 Q NumQ).
Proof. intros a b H. rewrite !qr2. now rewrite H. Qed.

(** Sums *)
Fixpoint Qsum (l : list Q) : Q := match l with [] => 0 | x :: l' => x + Qsum l' end.
Lemma Qsum_app l k : Qsum (l ++ k) == Qsum l + Qsum k.
Proof. induction l as [|x l IH]; simpl; [lra|rewrite IH; lra]. Qed.
Lemma qfold_add l a : fold_left (@fadd Q NumQ) l a == a + Qsum l.
Proof.
  revert a. induction l as [|x l IH]; intros a; cbn [fold_left Qsum]; [lra|].
  rewrite IH, qadd. lra.
Qed.
Lemma qsum l : @fsum Q NumQ l == Qsum l.
Proof. unfold fsum. rewrite qfold_add, qf0. lra. Qed.
