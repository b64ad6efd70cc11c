(** Floating-point arithmetic commutes with changes of sign. *)
From Coq Require Import Reals.
From Flocq Require Import Core BinarySingleNaN.
From Verif Require Import FloatProofs MirrorProofs.
From Coq Require Import Lra Psatz.
Open Scope R_scope.

Lemma opp_fin x y : fin x = true -> fin y = true -> opposite x y <-> real y = - real x.
Proof. destruct x, y; intros Fx Fy; try discriminate; simpl; tauto. Qed.
Lemma opp_fin_eq x y : opposite x y -> fin x = fin y.
Proof. destruct x, y; simpl; auto; intros []. Qed.
Lemma sign_of x : fin x = true -> real x <> 0 -> Bsign x = Rlt_bool (real x) 0.
Proof.
  destruct x as [s|s| |s m e H]; try discriminate; intros _ N; [now destruct N|]. symmetry. rewrite val_pos in *. cbn [Bsign]. rewrite cond_Zopp_IZR.
  pose proof (bpow_gt_0 radix2 e). assert (0 < IZR (Zpos m)) by (apply IZR_lt; reflexivity). destruct s; [apply Rlt_bool_true|apply Rlt_bool_false]; nra.
Qed.
Lemma sign_opp x y : fin x = true -> fin y = true -> real y = - real x -> real x <> 0 -> Bsign y = negb (Bsign x).
Proof.
  intros Fx Fy E N. rewrite !sign_of by (auto; lra). rewrite E. destruct (Rlt_bool_spec (real x) 0), (Rlt_bool_spec (- real x) 0); auto; lra.
Qed.
Lemma opp_over x y s : B2SF x = SpecFloat.S754_infinity s -> B2SF y = SpecFloat.S754_infinity (negb s) -> opposite x y.
Proof. destruct x, y; simpl; try discriminate. intros E1 E2. injection E1 as ->. now injection E2 as ->. Qed.
Lemma over_NE s : binary_overflow 53 1024 mode_NE s = SpecFloat.S754_infinity s. Proof. reflexivity. Qed.
Lemma rlt_opp x y : Rlt_bool (Rabs (rnd (- x))) y = Rlt_bool (Rabs (rnd x)) y.
Proof. now rewrite rnd_opp, Rabs_Ropp. Qed.
Lemma val_lt x : Rabs (real x) < bpow radix2 1024. Proof. apply abs_B2R_lt_emax. Qed.

Lemma opp_sub x y : opposite (fsub x y) (fsub y x).
Proof.
  destruct (fin x) eqn:Fx; [destruct (fin y) eqn:Fy|].
  - change (fsub x y) with (Bminus mode_NE x y). change (fsub y x) with (Bminus mode_NE y x).
    pose proof (Bminus_correct 53 1024 prec53 prec53_1024 mode_NE x y Fx Fy) as B. pose proof (Bminus_correct 53 1024 prec53 prec53_1024 mode_NE y x Fy Fx) as C.
    change (round_mode mode_NE) with ZnearestE in B, C. replace (real y - real x) with (- (real x - real y)) in C by ring. rewrite rlt_opp in C.
    destruct (Rlt_bool _ _).
    + destruct B as (B1 & B2 & _). destruct C as (C1 & C2 & _). apply opp_fin; auto. rewrite B1, C1. apply rnd_opp.
    + destruct B as [B1 B2]. destruct C as [C1 C2]. rewrite over_NE in B1, C1. rewrite C2 in C1. eapply opp_over; eauto.
  - destruct x, y; try discriminate; simpl; auto. all: try (destruct s, s0; reflexivity). all: try (destruct s; reflexivity).
  - destruct x, y; try discriminate; simpl; auto. all: try (destruct s, s0; reflexivity). all: try (destruct s, s0; simpl; auto). all: try (destruct s; reflexivity).
Qed.
Lemma opp_round x y : opposite x y -> opposite (round2 x) (round2 y).
Proof.
  intros O. destruct (fin x) eqn:Fx.
  - assert (fin y = true) as Fy by (now rewrite <- (opp_fin_eq x y)). apply opp_fin in O; auto. destruct (round2_spec x Fx) as [R1 F1], (round2_spec y Fy) as [R2 F2].
    apply opp_fin; auto. rewrite R1, R2, O. unfold cent. rewrite Ropp_mult_distr_l_reverse, ZnearestE_opp, opp_IZR. unfold Rdiv. rewrite Ropp_mult_distr_l_reverse. apply rnd_opp.
  - destruct x, y; try discriminate Fx; simpl in O; try contradiction; auto.
Qed.
Lemma opp_add x y x' y' : opposite x x' -> opposite y y' -> opposite (fadd x y) (fadd x' y').
Proof.
  intros Ox Oy. pose proof (opp_fin_eq _ _ Ox) as Fx'. pose proof (opp_fin_eq _ _ Oy) as Fy'.
  destruct (fin x) eqn:Fx; [destruct (fin y) eqn:Fy|].
  - symmetry in Fx', Fy'. apply opp_fin in Ox, Oy; auto.
    change (fadd x y) with (Bplus mode_NE x y). change (fadd x' y') with (Bplus mode_NE x' y').
    pose proof (Bplus_correct 53 1024 prec53 prec53_1024 mode_NE x y Fx Fy) as B. pose proof (Bplus_correct 53 1024 prec53 prec53_1024 mode_NE x' y' Fx' Fy') as C.
    change (round_mode mode_NE) with ZnearestE in B, C. replace (real x' + real y') with (- (real x + real y)) in C by (rewrite Ox, Oy; ring). rewrite rlt_opp in C.
    destruct (Rlt_bool_spec (Rabs (rnd (real x + real y))) (bpow radix2 1024)) as [L|L].
    + destruct B as (B1 & B2 & _). destruct C as (C1 & C2 & _). apply opp_fin; auto. rewrite B1, C1. apply rnd_opp.
    + destruct B as [B1 B2]. destruct C as [C1 C2]. rewrite over_NE in B1, C1. eapply opp_over; [exact B1|]. rewrite C1. f_equal.
      apply sign_opp; auto. intros E. rewrite E, Rplus_0_l, rnd_val in L. pose proof (val_lt y). lra.
  - destruct x, x'; try discriminate; destruct y, y'; try discriminate; simpl in *; try contradiction; subst; auto.
  - destruct x, x'; try discriminate; destruct y, y'; try discriminate; simpl in *; try contradiction; subst; auto. all: destruct s, s1; simpl; auto.
Qed.
Lemma opp_mul x y (z : b64) : opposite x y -> opposite (fmul x z) (fmul y z).
Proof.
  intros O. pose proof (opp_fin_eq _ _ O) as Fxy.
  destruct (fin x) eqn:Fx; [destruct (fin z) eqn:Fz|].
  - symmetry in Fxy. apply opp_fin in O; auto. change (fmul x z) with (Bmult mode_NE x z). change (fmul y z) with (Bmult mode_NE y z).
    pose proof (Bmult_correct 53 1024 prec53 prec53_1024 mode_NE x z) as B. pose proof (Bmult_correct 53 1024 prec53 prec53_1024 mode_NE y z) as C.
    change (round_mode mode_NE) with ZnearestE in B, C. replace (real y * real z) with (- (real x * real z)) in C by (rewrite O; ring). rewrite rlt_opp in C.
    destruct (Rlt_bool_spec (Rabs (rnd (real x * real z))) (bpow radix2 1024)) as [L|L].
    + destruct B as (B1 & B2 & _). destruct C as (C1 & C2 & _). rewrite Fx, Fz in B2. rewrite Fxy, Fz in C2. apply opp_fin; auto. rewrite B1, C1. apply rnd_opp.
    + rewrite over_NE in B, C. eapply opp_over; [exact B|]. rewrite C. f_equal.
      rewrite (sign_opp x y) by (auto; intros E; rewrite E, Rmult_0_l, round_0, Rabs_R0 in L by typeclasses eauto; pose proof (bpow_gt_0 radix2 1024); lra).
      now destruct (Bsign x), (Bsign z).
  - symmetry in Fxy. apply opp_fin in O; auto.
    destruct z as [|sz| |]; try discriminate Fz.
    + destruct (Req_dec (real x) 0) as [E|E].
      * assert (real y = 0) as E' by lra. destruct x, y; try discriminate; simpl; auto; exfalso.
        all: rewrite val_pos in *; match goal with H : IZR (cond_Zopp _ (Zpos ?m)) * bpow radix2 ?e = 0 |- _ => rewrite cond_Zopp_IZR in H; pose proof (bpow_gt_0 radix2 e); assert (0 < IZR (Zpos m)) by (apply IZR_lt; reflexivity) end.
        all: match goal with H : (if ?s then _ else _) * _ = 0 |- _ => destruct s; nra end.
      * assert (Bsign y = negb (Bsign x)) as S by (now apply sign_opp). assert (real y <> 0) as E' by lra. destruct x, y; try discriminate; try (now destruct E); try (now destruct E'). simpl in *. subst. now destruct s, sz.
    + destruct x, y; try discriminate; simpl; auto.
  - destruct x, y; try discriminate; simpl in O; try contradiction; destruct z; simpl; auto; subst; destruct s; auto. all: try (destruct s0; auto). all: try (destruct s1; auto).
Qed.
Lemma opp_lt x y x' y' : opposite x x' -> opposite y y' -> fltb x y = fltb y' x'.
Proof.
  intros Ox Oy. pose proof (opp_fin_eq _ _ Ox) as Fx'. pose proof (opp_fin_eq _ _ Oy) as Fy'.
  destruct (fin x) eqn:Fx; [destruct (fin y) eqn:Fy|].
  - symmetry in Fx', Fy'. apply opp_fin in Ox, Oy; auto. apply eq_iff_eq_true. rewrite !flt_fin by auto. rewrite Ox, Oy. split; intros; lra.
  - destruct x, x'; try discriminate; destruct y, y'; try discriminate; simpl in *; try contradiction; subst; auto. all: destruct s1; reflexivity.
  - destruct x, x'; try discriminate; destruct y, y'; try discriminate; simpl in *; try contradiction; subst; auto. all: destruct s; try destruct s1; reflexivity.
Qed.
Lemma sym_b64 : sym_laws opposite.
Proof.
  constructor; [|exact opp_sub|exact opp_round|intros x y z; apply opp_mul|exact opp_add|exact opp_lt].
  apply opp_fin; try reflexivity. simpl. ring.
Qed.
