(** Laws of binary64 arithmetic used by the properties. *)
From Coq Require Import Reals Lra Psatz.
From Flocq Require Import Core BinarySingleNaN Relative.
From Verif Require Export NumFloat SpecBinary64.
Open Scope R_scope.

Notation fexp64 := (SpecFloat.fexp 53 1024).
Notation rnd := (round radix2 fexp64 ZnearestE).

Notation fin := (@is_finite 53 1024).

Lemma fexp64_FLT e : fexp64 e = FLT_exp (-1074) 53 e. Proof. reflexivity. Qed.
Global Instance valid64 : Valid_exp fexp64. Proof. apply (fexp_correct 53 1024). reflexivity. Qed.
Lemma rnd_le x y : x <= y -> rnd x <= rnd y. Proof. apply round_le; typeclasses eauto. Qed.
Lemma rnd_val x : rnd (real x) = real x.
Proof. apply round_generic; [typeclasses eauto|apply generic_format_B2R]. Qed.
Lemma rnd_bpow e : (-1074 <= e)%Z -> rnd (bpow radix2 e) = bpow radix2 e.
Proof. intros He. apply round_generic; [typeclasses eauto|]. apply generic_format_bpow. unfold SpecFloat.fexp, SpecFloat.emin. lia. Qed.
Lemma rnd_F2R m e : (Z.abs m < 2 ^ 53)%Z -> (-1074 <= e)%Z -> rnd (IZR m * bpow radix2 e) = IZR m * bpow radix2 e.
Proof.
  intros Hm He. apply round_generic; [typeclasses eauto|]. change (generic_format radix2 (FLT_exp (-1074) 53) (IZR m * bpow radix2 e)).
  apply generic_format_FLT. exists (Float radix2 m e); [reflexivity|exact Hm|exact He].
Qed.
Lemma rnd_opp x : rnd (- x) = - rnd x. Proof. apply round_NE_opp. Qed.
Lemma rnd_abs_le x b : rnd b = b -> Rabs x <= b -> Rabs (rnd x) <= b.
Proof.
  intros Hb Hx. apply Rabs_le. apply Rabs_le_inv in Hx as [H1 H2]. split.
  - apply rnd_le in H1. rewrite rnd_opp, Hb in H1. exact H1.
  - apply rnd_le in H2. rewrite Hb in H2. exact H2.
Qed.

(** Rounding of integers, on naturals of the code and on reals. *)
Lemma Zround_half_even_spec n d : Zround_half_even n d = ZnearestE (IZR n / IZR (Zpos d)).
Proof.
  unfold Zround_half_even, Znearest. assert (IZR (Zpos d) <> 0) as Hd by (apply IZR_neq; discriminate). assert (0 < IZR (Zpos d)) as Hd' by (apply IZR_lt; reflexivity).
  rewrite (Zfloor_div n (Zpos d)) by discriminate.
  set (q := (n / Zpos d)%Z). set (r := (n mod Zpos d)%Z).
  assert (n = Zpos d * q + r)%Z as E by (apply Z.div_mod; discriminate). assert (0 <= r < Zpos d)%Z as Hr by (apply Z.mod_pos_bound; reflexivity).
  assert (IZR n / IZR (Zpos d) - IZR q = IZR r / IZR (Zpos d)) as Ef by (rewrite E at 1; rewrite plus_IZR, mult_IZR; field; auto).
  assert ((2 * r ?= Zpos d)%Z <> Lt -> Zceil (IZR n / IZR (Zpos d)) = q + 1)%Z as Hc.
  { intros Hn. apply Zceil_imp. rewrite plus_IZR. replace (IZR (q + 1 - 1)) with (IZR q) by (f_equal; lia).
    assert (0 < IZR r / IZR (Zpos d)) as H1. { apply Rdiv_lt_0_compat; [|auto]. apply IZR_lt. destruct (Z.compare_spec (2 * r) (Zpos d)); [lia|congruence|lia]. }
    assert (IZR r / IZR (Zpos d) <= 1) as H2. { apply (Rmult_le_reg_r (IZR (Zpos d))); [auto|]. unfold Rdiv. rewrite Rmult_assoc, Rinv_l, Rmult_1_r, Rmult_1_l by auto. apply IZR_le. lia. }
    split; [lra|]. simpl (IZR 1). lra. }
  rewrite Ef.
  assert (Rcompare (IZR r / IZR (Zpos d)) (/ 2) = (2 * r ?= Zpos d)%Z) as ->.
  { assert (IZR r / IZR (Zpos d) = IZR (2 * r) / IZR (Zpos d) * / 2) as -> by (rewrite mult_IZR; field; auto).
    destruct (Z.compare_spec (2 * r) (Zpos d)) as [H|H|H].
    - apply Rcompare_Eq. rewrite H. field. auto.
    - apply Rcompare_Lt. apply IZR_lt in H. assert (IZR (2 * r) / IZR (Zpos d) < 1); [|lra]. apply (Rmult_lt_reg_r (IZR (Zpos d))); [auto|]. unfold Rdiv. rewrite Rmult_assoc, Rinv_l, Rmult_1_r, Rmult_1_l by auto. auto.
    - apply Rcompare_Gt. apply IZR_lt in H. assert (1 < IZR (2 * r) / IZR (Zpos d)); [|lra]. apply (Rmult_lt_reg_r (IZR (Zpos d))); [auto|]. unfold Rdiv. rewrite Rmult_assoc, Rinv_l, Rmult_1_r, Rmult_1_l by auto. auto. }
  destruct (2 * r ?= Zpos d)%Z; [|auto|rewrite Hc; [auto|discriminate]]. rewrite Hc by discriminate. now destruct (Z.even q).
Qed.
Lemma ZnearestE_opp x : ZnearestE (- x) = (- ZnearestE x)%Z.
Proof.
  rewrite Znearest_opp. f_equal. unfold Znearest. destruct (Rcompare (x - IZR (Zfloor x)) (/ 2)); auto.
  replace (negb (negb (Z.even (- (Zfloor x + 1))))) with (negb (Z.even (Zfloor x))); [auto|]. rewrite Bool.negb_involutive, Z.even_opp, Z.add_1_r, Z.even_succ, <- Z.negb_even. reflexivity.
Qed.
Lemma ZnearestE_le x y : x <= y -> (ZnearestE x <= ZnearestE y)%Z.
Proof. apply Zrnd_le. typeclasses eauto. Qed.
Lemma ZnearestE_IZR z : ZnearestE (IZR z) = z. Proof. apply Zrnd_IZR. typeclasses eauto. Qed.

(** The number of cents nearest to a real, ties to even. *)
Definition cent (x : R) : Z := ZnearestE (x * 100).
Lemma cent_le x y : x <= y -> (cent x <= cent y)%Z. Proof. intros H. apply ZnearestE_le. lra. Qed.
Lemma cent_half x : Rabs (IZR (cent x) / 100 - x) <= / 200.
Proof. pose proof (Znearest_half (fun z => negb (Z.even z)) (x * 100)) as H. unfold cent. apply Rabs_le_inv in H as [H1 H2]. apply Rabs_le. lra. Qed.

Lemma val_pos s m e H : real (B754_finite s m e H) = IZR (cond_Zopp s (Zpos m)) * bpow radix2 e. Proof. reflexivity. Qed.
Lemma cond_Zopp_IZR s z : IZR (cond_Zopp s z) = if s then - IZR z else IZR z.
Proof. destruct s; simpl; [apply opp_IZR|reflexivity]. Qed.
Lemma shiftl_pow e : (e < 0)%Z -> IZR (Zpos (Pos.shiftl 1 (Z.to_N (- e)))) = bpow radix2 (- e).
Proof.
  intros He. destruct e as [|p|p]; try lia. cbn [Z.opp Z.to_N]. rewrite <- IZR_Zpower by lia. cbn [Pos.shiftl]. f_equal.
  assert (forall p, Zpos (Pos.iter xO 1%positive p) = 2 ^ Zpos p)%Z as G.
  { intros p0. induction p0 as [|p0 IH] using Pos.peano_ind; [reflexivity|]. rewrite Pos.iter_succ, Pos2Z.inj_succ, Z.pow_succ_r by lia. rewrite <- IH. reflexivity. }
  apply G.
Qed.

(** [round(x, 2)] on finite floats. *)
Lemma round2_spec x : fin x = true -> real (round2 x) = rnd (IZR (cent (real x)) / 100) /\ fin (round2 x) = true.
Proof.
  intros Fx. destruct x as [s| | |s m e H]; try discriminate Fx.
  - change (round2 (B754_zero s)) with (B754_zero (prec:=53) (emax:=1024) s). split; [|reflexivity]. simpl. unfold cent. rewrite Rmult_0_l, (ZnearestE_IZR 0). unfold Rdiv. rewrite Rmult_0_l, round_0; [auto|typeclasses eauto].
  - change (round2 (B754_finite s m e H)) with (b64_round2 (B754_finite s m e H)). unfold b64_round2. destruct (Z.leb_spec 0 e) as [He|He].
    + split; [|reflexivity]. assert (exists z, real (B754_finite s m e H) = IZR z) as [z Ez].
      { exists (cond_Zopp s (Zpos m) * 2 ^ e)%Z. rewrite val_pos, mult_IZR. f_equal. rewrite <- IZR_Zpower by auto. reflexivity. }
      rewrite <- (rnd_val (B754_finite s m e H)) at 1. f_equal. rewrite Ez. unfold cent. rewrite <- (mult_IZR z 100), ZnearestE_IZR, mult_IZR. field.
    + set (n := Zround_half_even (Zpos m * 100) (Pos.shiftl 1 (Z.to_N (- e)))).
      assert (cent (IZR (Zpos m) * bpow radix2 e) = n) as En.
      { unfold n, cent. rewrite Zround_half_even_spec, shiftl_pow, mult_IZR by auto. f_equal. rewrite bpow_opp. unfold Rdiv. rewrite Rinv_inv. ring. }
      assert (IZR (cent (real (B754_finite s m e H))) = (if s then - IZR n else IZR n)) as Ec.
      { rewrite val_pos, cond_Zopp_IZR. destruct s; [|now rewrite En]. unfold cent in *. rewrite !Ropp_mult_distr_l_reverse, ZnearestE_opp, opp_IZR. now rewrite En. }
      assert (0 <= n)%Z as Hn. { rewrite <- En. unfold cent. rewrite <- (ZnearestE_IZR 0). apply ZnearestE_le. pose proof (bpow_gt_0 radix2 e). assert (0 < IZR (Zpos m)) by (apply IZR_lt; reflexivity). nra. }
      assert (IZR n / 100 <= bpow radix2 53) as Hb.
      { assert (IZR (Zpos m) * bpow radix2 e <= bpow radix2 53) as Hm.
        { assert (IZR (Zpos m) <= bpow radix2 53) as Hm. { assert (H0 := H). unfold SpecFloat.bounded in H0. apply andb_prop in H0 as [H0 _]. apply Zeq_bool_eq in H0. unfold SpecFloat.fexp, SpecFloat.emin in H0.
            change (bpow radix2 53) with (IZR (2 ^ 53)). apply IZR_le. assert (Zpos (SpecFloat.digits2_pos m) <= 53)%Z as Hd by lia. rewrite Digits.Zpos_digits2_pos in Hd.
            pose proof (Digits.Zdigits_correct radix2 (Zpos m)) as [_ Hx]. apply Z.lt_le_incl. eapply Z.lt_le_trans; [apply Hx|]. change 2%Z with (radix_val radix2). apply Zpower_le. exact Hd. }
          assert (bpow radix2 e <= 1) as H1 by (change 1 with (bpow radix2 0); apply bpow_le; lia). pose proof (bpow_gt_0 radix2 e). assert (0 < IZR (Zpos m)) by (apply IZR_lt; reflexivity). nra. }
        assert (n <= 2 ^ 53 * 100)%Z as Hle. { rewrite <- En. unfold cent. rewrite <- (ZnearestE_IZR (2 ^ 53 * 100)). apply ZnearestE_le. rewrite mult_IZR. change (IZR (2 ^ 53)) with (bpow radix2 53). lra. }
        apply IZR_le in Hle. rewrite mult_IZR in Hle. change (IZR (2 ^ 53)) with (bpow radix2 53) in Hle. lra. }
      destruct n as [|p|p] eqn:Enn; [| |lia].
      * split; [|reflexivity]. rewrite Ec. replace ((if s then - 0 else 0) / 100) with 0 by (destruct s; field). rewrite round_0; [reflexivity|typeclasses eauto].
      * pose proof (Bdiv_correct_aux 53 1024 prec53 prec53_1024 mode_NE s p 0 false 100 0) as B. cbv zeta in B. destruct B as [V B].
        match type of B with context [Rlt_bool ?a ?b] => assert (a < b) as Hlt end.
        { eapply Rle_lt_trans; [apply (rnd_abs_le _ (bpow radix2 53)); [apply rnd_bpow; lia|]|apply bpow_lt; lia].
          unfold F2R. cbn [Fnum Fexp bpow cond_Zopp]. rewrite cond_Zopp_IZR, !Rmult_1_r. replace (Rabs ((if s then - IZR (Zpos p) else IZR (Zpos p)) / 100)) with (IZR (Zpos p) / 100); [exact Hb|].
          assert (0 < IZR (Zpos p)) by (apply IZR_lt; reflexivity). destruct s; [rewrite <- Rabs_Ropp|]; rewrite Rabs_pos_eq; lra. }
        rewrite (Rlt_bool_true _ _ Hlt) in B. destruct B as (B1 & B2 & _).
        split; [rewrite B2R_SF2B, B1|rewrite is_finite_SF2B; exact B2]. rewrite Ec. change (round_mode mode_NE) with ZnearestE. f_equal.
        unfold F2R. cbn [Fnum Fexp bpow cond_Zopp]. rewrite cond_Zopp_IZR, !Rmult_1_r. reflexivity.
Qed.

Lemma round2_mono_R x y : fin x = true -> fin y = true -> real x <= real y -> real (round2 x) <= real (round2 y).
Proof. intros Fx Fy Hle. rewrite (proj1 (round2_spec x Fx)), (proj1 (round2_spec y Fy)). apply rnd_le. apply cent_le, IZR_le in Hle. lra. Qed.

Lemma val_dyadic (x : b64) : exists z, real x = IZR z * bpow radix2 (-1074).
Proof.
  pose proof (generic_format_B2R 53 1024 x) as G. change (generic_format radix2 (FLT_exp (-1074) 53) (real x)) in G.
  apply FLT_format_generic in G; [|reflexivity]. destruct G as [[m e] G1 _ G3]. simpl in G3. exists (m * radix2 ^ (e + 1074))%Z.
  rewrite G1, mult_IZR, IZR_Zpower, Rmult_assoc, <- bpow_plus by lia. unfold F2R. simpl. do 2 f_equal. lia.
Qed.
Lemma cent_gap x y : real x - real y <> / 100.
Proof.
  destruct (val_dyadic x) as [a ->], (val_dyadic y) as [b ->]. intros E.
  assert (IZR ((a - b) * 100) = bpow radix2 1074) as E'.
  { rewrite mult_IZR, minus_IZR. change (-1074)%Z with (- (1074))%Z in E. rewrite bpow_opp in E. pose proof (bpow_gt_0 radix2 1074) as Hp. set (P := bpow radix2 1074) in *.
    assert ((IZR a - IZR b) * / P = / 100) as E1 by (rewrite <- E; ring). assert (IZR a - IZR b = / 100 * P) as -> by (rewrite <- E1; field; lra). field. }
  rewrite <- IZR_Zpower in E' by lia. apply eq_IZR in E'. apply (f_equal (fun z => z mod 5)%Z) in E'.
  replace ((a - b) * 100)%Z with ((a - b) * 20 * 5)%Z in E' by lia. rewrite Z_mod_mult in E'. vm_compute in E'. discriminate.
Qed.
(** The float of a decimal with two digits is rounded to itself. *)
Lemma cent_round2 x : fin x = true -> cent (real (round2 x)) = cent (real x).
Proof.
  intros Fx. pose proof (cent_half (real x)) as H1. destruct (round2_spec x Fx) as [Ey _]. set (y := round2 x) in *. set (k := cent (real x)) in *.
  assert (Rabs (real y - IZR k / 100) <= Rabs (real x - IZR k / 100)) as H2.
  { rewrite Ey. destruct (round_N_pt radix2 fexp64 (fun z => negb (Z.even z)) (IZR k / 100)) as [_ G]. apply (G (real x)). apply generic_format_B2R. }
  rewrite Rabs_minus_sym in H1. destruct (Rle_lt_or_eq_dec _ _ (Rle_trans _ _ _ H2 H1)) as [H|H].
  - apply Znearest_imp. replace (real y * 100 - IZR k) with ((real y - IZR k / 100) * 100) by field. rewrite Rabs_mult, (Rabs_pos_eq 100) by lra. lra.
  - assert (Rabs (real x - IZR k / 100) = / 200) as H' by lra. assert (real x = real y) as Exy; [|now rewrite <- Exy].
    pose proof (cent_gap x y). pose proof (cent_gap y x). revert H H'. unfold Rabs. destruct (Rcase_abs _), (Rcase_abs _); lra.
Qed.
Lemma round2_idem x : fin x = true -> real (round2 (round2 x)) = real (round2 x).
Proof. intros Fx. destruct (round2_spec x Fx) as [Ey Fy]. rewrite (proj1 (round2_spec _ Fy)), cent_round2 by auto. symmetry. exact Ey. Qed.

(** ** Order of finite floats, bounded floats *)
Notation bounded := within (only parsing).
Lemma bounded_weaken e e' x : (e <= e')%Z -> bounded e x -> bounded e' x.
Proof. intros He [F B]. split; [auto|]. eapply Rle_trans; [exact B|now apply bpow_le]. Qed.
Lemma fle_fin a b : fin a = true -> fin b = true -> fleb a b = true <-> real a <= real b.
Proof. intros Fa Fb. change (fleb a b) with (Bleb a b). rewrite Bleb_correct by auto. destruct (Rle_bool_spec (real a) (real b)); split; intros; auto; [discriminate|lra]. Qed.
Lemma flt_fin a b : fin a = true -> fin b = true -> fltb a b = true <-> real a < real b.
Proof. intros Fa Fb. change (fltb a b) with (Bltb a b). rewrite Bltb_correct by auto. destruct (Rlt_bool_spec (real a) (real b)); split; intros; auto; [discriminate|lra]. Qed.
Lemma feq_fin a b : fin a = true -> fin b = true -> feqb a b = true <-> real a = real b.
Proof. intros Fa Fb. change (feqb a b) with (Beqb a b). rewrite Beqb_correct by auto. destruct (Req_bool_spec (real a) (real b)); split; intros; auto; discriminate. Qed.
Lemma rnd_small x e : (-1074 <= e < 1024)%Z -> Rabs x <= bpow radix2 e -> Rlt_bool (Rabs (rnd x)) (bpow radix2 1024) = true.
Proof. intros He Hx. apply Rlt_bool_true. eapply Rle_lt_trans; [apply (rnd_abs_le _ (bpow radix2 e)); [apply rnd_bpow; lia|exact Hx]|apply bpow_lt; lia]. Qed.
Lemma add_fin a b e : (-1074 <= e < 1024)%Z -> fin a = true -> fin b = true -> Rabs (real a + real b) <= bpow radix2 e ->
  real (fadd a b) = rnd (real a + real b) /\ bounded e (fadd a b).
Proof.
  intros He Fa Fb Hb. pose proof (Bplus_correct 53 1024 prec53 prec53_1024 mode_NE a b Fa Fb) as B. change (round_mode mode_NE) with ZnearestE in B. rewrite (rnd_small _ e) in B by auto. destruct B as (B1 & B2 & _).
  split; [exact B1|split; [exact B2|]]. change (Rabs (real (Bplus mode_NE a b)) <= bpow radix2 e). rewrite B1. apply rnd_abs_le; [apply rnd_bpow; lia|auto].
Qed.
Lemma sub_fin a b e : (-1074 <= e < 1024)%Z -> fin a = true -> fin b = true -> Rabs (real a - real b) <= bpow radix2 e ->
  real (fsub a b) = rnd (real a - real b) /\ bounded e (fsub a b).
Proof.
  intros He Fa Fb Hb. pose proof (Bminus_correct 53 1024 prec53 prec53_1024 mode_NE a b Fa Fb) as B. change (round_mode mode_NE) with ZnearestE in B. rewrite (rnd_small _ e) in B by auto. destruct B as (B1 & B2 & _).
  split; [exact B1|split; [exact B2|]]. change (Rabs (real (Bminus mode_NE a b)) <= bpow radix2 e). rewrite B1. apply rnd_abs_le; [apply rnd_bpow; lia|auto].
Qed.
Lemma mul_fin a b e : (-1074 <= e < 1024)%Z -> fin a = true -> fin b = true -> Rabs (real a * real b) <= bpow radix2 e ->
  real (fmul a b) = rnd (real a * real b) /\ bounded e (fmul a b).
Proof.
  intros He Fa Fb Hb. pose proof (Bmult_correct 53 1024 prec53 prec53_1024 mode_NE a b) as B. change (round_mode mode_NE) with ZnearestE in B. rewrite (rnd_small _ e) in B by auto. destruct B as (B1 & B2 & _).
  split; [exact B1|split; [rewrite Fa, Fb in B2; exact B2|]]. change (Rabs (real (Bmult mode_NE a b)) <= bpow radix2 e). rewrite B1. apply rnd_abs_le; [apply rnd_bpow; lia|auto].
Qed.
Lemma div_fin a b e : (-1074 <= e < 1024)%Z -> fin a = true -> real b <> 0 -> Rabs (real a / real b) <= bpow radix2 e ->
  real (fdiv a b) = rnd (real a / real b) /\ bounded e (fdiv a b).
Proof.
  intros He Fa Hb0 Hb. pose proof (Bdiv_correct 53 1024 prec53 prec53_1024 mode_NE a b Hb0) as B. change (round_mode mode_NE) with ZnearestE in B. rewrite (rnd_small _ e) in B by auto. destruct B as (B1 & B2 & _).
  split; [exact B1|split; [rewrite Fa in B2; exact B2|]]. change (Rabs (real (Bdiv mode_NE a b)) <= bpow radix2 e). rewrite B1. apply rnd_abs_le; [apply rnd_bpow; lia|auto].
Qed.
Lemma ofZ_fin z : (Z.abs z <= 2 ^ 53)%Z -> real (fofZ z) = IZR z /\ fin (fofZ z) = true.
Proof.
  intros Hz. pose proof (binary_normalize_correct 53 1024 prec53 prec53_1024 mode_NE z 0 false) as B. change (round_mode mode_NE) with ZnearestE in B.
  unfold F2R in B. cbn [Fnum Fexp] in B. change (bpow radix2 0) with 1 in B. rewrite Rmult_1_r in B.
  assert (rnd (IZR z) = IZR z) as E.
  { destruct (Z.eq_dec (Z.abs z) (2 ^ 53)%Z) as [E|N]; [|rewrite <- (Rmult_1_r (IZR z)); change 1 with (bpow radix2 0); apply rnd_F2R; lia].
    destruct (Z.abs_spec z) as [[_ A]|[_ A]]; rewrite A in E; [rewrite E; apply (rnd_bpow 53); lia|]. replace z with (- 2 ^ 53)%Z by lia. rewrite opp_IZR, rnd_opp. f_equal. apply (rnd_bpow 53). lia. }
  rewrite (rnd_small _ 53) in B; [|lia|]. { rewrite E in B. destruct B as (B1 & B2 & _). split; [exact B1|exact B2]. }
  change (bpow radix2 53) with (IZR (2 ^ 53)). rewrite <- abs_IZR. now apply IZR_le.
Qed.
Lemma val2 : real (fofZ 2) = 2. Proof. apply ofZ_fin. lia. Qed.
Lemma val4 : real (fofZ 4) = 4. Proof. apply ofZ_fin. lia. Qed.
Lemma bpow_S e : bpow radix2 (e + 1) = 2 * bpow radix2 e. Proof. rewrite bpow_plus, Rmult_comm. reflexivity. Qed.

Lemma half_fin a e : (-1074 <= e < 1023)%Z -> bounded (e + 1) a -> real (fdiv a (fofZ 2)) = rnd (real a / 2) /\ bounded e (fdiv a (fofZ 2)).
Proof.
  intros He [Fa Ba]. rewrite bpow_S in Ba. rewrite <- val2. apply div_fin; [lia|auto|rewrite val2; lra|]. rewrite val2. unfold Rdiv. rewrite Rabs_mult, (Rabs_pos_eq (/ 2)) by lra. lra.
Qed.
Lemma add_bounded a b e : (-1074 <= e < 1023)%Z -> bounded e a -> bounded e b -> real (fadd a b) = rnd (real a + real b) /\ bounded (e + 1) (fadd a b).
Proof. intros He [Fa Ba] [Fb Bb]. apply add_fin; auto; [lia|]. rewrite bpow_S. eapply Rle_trans; [apply Rabs_triang|]. lra. Qed.
Lemma sub_bounded a b e : (-1074 <= e < 1023)%Z -> bounded e a -> bounded e b -> real (fsub a b) = rnd (real a - real b) /\ bounded (e + 1) (fsub a b).
Proof. intros He [Fa Ba] [Fb Bb]. apply sub_fin; auto; [lia|]. rewrite bpow_S. eapply Rle_trans; [apply Rabs_triang|]. rewrite Rabs_Ropp. lra. Qed.
Lemma mean2_bounded a b e : (-1074 <= e < 1022)%Z -> bounded e a -> bounded e b -> bounded e (fdiv (fadd a b) (fofZ 2)).
Proof. intros He Ba Bb. apply half_fin; [lia|]. apply add_bounded; auto. lia. Qed.
Lemma mean4_bounded a b c d e : (-1074 <= e < 1021)%Z -> bounded e a -> bounded e b -> bounded e c -> bounded e d -> bounded e (fdiv (fadd (fadd (fadd a b) c) d) (fofZ 4)).
Proof.
  intros He [Fa Ba] [Fb Bb] [Fc Bc] [Fd Bd]. pose proof (bpow_gt_0 radix2 e) as Hp.
  assert (bpow radix2 (e + 2) = 4 * bpow radix2 e) as E4 by (replace (e + 2)%Z with (e + 1 + 1)%Z by lia; rewrite !bpow_S; ring).
  destruct (add_bounded a b e) as [_ [F1 B1]]; [lia|split; auto|split; auto|]. rewrite bpow_S in B1.
  assert (bounded (e + 2) (fadd (fadd a b) c) /\ Rabs (real (fadd (fadd a b) c)) <= 3 * bpow radix2 e) as [[F2 _] B2].
  { destruct (add_fin (fadd a b) c (e + 2)) as [E F2]; auto; [lia|rewrite E4; eapply Rle_trans; [apply Rabs_triang|]; lra|]. split; [auto|]. rewrite E. apply rnd_abs_le; [|eapply Rle_trans; [apply Rabs_triang|]; lra].
    change 3 with (IZR 3). apply rnd_F2R; lia. }
  destruct (add_fin (fadd (fadd a b) c) d (e + 2)) as [_ [F3 B3]]; auto; [lia|rewrite E4; eapply Rle_trans; [apply Rabs_triang|]; lra|].
  apply div_fin; [lia|auto|rewrite val4; lra|]. rewrite val4. unfold Rdiv. rewrite Rabs_mult, (Rabs_pos_eq (/ 4)) by lra. lra.
Qed.
Lemma round2_bounded e x : (0 <= e)%Z -> bounded e x -> bounded e (round2 x).
Proof.
  intros He [Fx Bx]. destruct (round2_spec x Fx) as [E Fy]. split; [auto|]. rewrite E. destruct (Z_lt_le_dec e (-1074)) as [?|?]; [lia|]. apply rnd_abs_le; [apply rnd_bpow; lia|].
  assert (exists z, bpow radix2 e = IZR z) as [z Ez] by (exists (radix2 ^ e)%Z; symmetry; now apply IZR_Zpower). rewrite Ez in *.
  apply Rabs_le_inv in Bx as [B1 B2]. assert (cent (real x) <= z * 100)%Z as C1. { unfold cent. rewrite <- (ZnearestE_IZR (z * 100)). apply ZnearestE_le. rewrite mult_IZR. lra. }
  assert (- (z * 100) <= cent (real x))%Z as C2. { unfold cent. rewrite <- (ZnearestE_IZR (- (z * 100))). apply ZnearestE_le. rewrite opp_IZR, mult_IZR. lra. }
  apply IZR_le in C1, C2. rewrite opp_IZR in C2. rewrite mult_IZR in C1, C2. apply Rabs_le. lra.
Qed.
