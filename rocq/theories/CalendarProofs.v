From Verif Require Export Calendar SpecCalendar.
Open Scope Z_scope.

(** ** Checking a boolean on a range of integers *)
Fixpoint all_range (p : positive) (s : Z) (f : Z -> bool) : bool :=
  match p with
  | xH => f s
  | xO p' => all_range p' s f && all_range p' (s + Zpos p') f
  | xI p' => f s && (all_range p' (s + 1) f && all_range p' (s + 1 + Zpos p') f)
  end.
Lemma all_range_spec p s f : all_range p s f = true -> forall z, s <= z < s + Zpos p -> f z = true.
Proof.
  revert s. induction p as [p IH|p IH|]; intros s Hr z Hz; simpl in Hr.
  - apply andb_prop in Hr as [H1 Hr]. apply andb_prop in Hr as [H2 H3].
    destruct (Z.eq_dec z s) as [->|Hne]; auto.
    destruct (Z.lt_ge_cases z (s + 1 + Zpos p)); [eapply (IH _ H2); lia|eapply (IH _ H3); lia].
  - apply andb_prop in Hr as [H2 H3].
    destruct (Z.lt_ge_cases z (s + Zpos p)); [eapply (IH _ H2); lia|eapply (IH _ H3); lia].
  - assert (z = s) as -> by lia. auto.
Qed.

(** ** Leap years and month lengths *)
Lemma is_leap_spec y : is_leap y = true <-> leap_year y.
Proof.
  unfold is_leap, leap_year. rewrite andb_true_iff, orb_true_iff, negb_true_iff, !Z.eqb_eq, Z.eqb_neq.
  rewrite !Z.mod_divide by lia. tauto.
Qed.
Lemma is_leap_shift y e : is_leap (y + 400 * e) = is_leap y.
Proof.
  unfold is_leap.
  replace (y + 400 * e) with (y + (100 * e) * 4) at 1 by lia. rewrite Z_mod_plus_full.
  replace (y + 400 * e) with (y + (4 * e) * 100) at 1 by lia. rewrite Z_mod_plus_full.
  replace (y + 400 * e) with (y + e * 400) by lia. rewrite Z_mod_plus_full. reflexivity.
Qed.
Lemma days_in_month_shift y e m : days_in_month (y + 400 * e) m = days_in_month y m.
Proof. unfold days_in_month. now rewrite is_leap_shift. Qed.
Lemma days_in_month_spec y m : 1 <= m <= 12 -> month_length y m (days_in_month y m).
Proof.
  intros Hm. unfold days_in_month.
  destruct (Z.eqb_spec m 2) as [->|H2].
  - destruct (is_leap y) eqn:E; [apply is_leap_spec in E; now constructor|].
    constructor. rewrite <- is_leap_spec. congruence.
  - destruct ((m =? 4) || (m =? 6) || (m =? 9) || (m =? 11)) eqn:E.
    + constructor. rewrite !orb_true_iff, !Z.eqb_eq in E. lia.
    + constructor. rewrite !orb_false_iff, !Z.eqb_neq in E. lia.
Qed.
Lemma month_length_fun y m n : month_length y m n -> 1 <= m <= 12 /\ n = days_in_month y m.
Proof.
  unfold days_in_month. intros [m' Hm|m' Hm|Hl|Hl].
  - split; [lia|]. destruct (Z.eqb_spec m' 2); [lia|].
    destruct ((m' =? 4) || (m' =? 6) || (m' =? 9) || (m' =? 11)) eqn:E; auto.
    rewrite !orb_true_iff, !Z.eqb_eq in E. lia.
  - split; [lia|]. destruct (Z.eqb_spec m' 2); [lia|].
    destruct ((m' =? 4) || (m' =? 6) || (m' =? 9) || (m' =? 11)) eqn:E; auto.
    rewrite !orb_false_iff, !Z.eqb_neq in E. lia.
  - split; [lia|]. simpl. destruct (is_leap y) eqn:E; auto. apply is_leap_spec in E. tauto.
  - split; [lia|]. simpl. apply is_leap_spec in Hl. now rewrite Hl.
Qed.
Lemma days_in_month_pos y m : 28 <= days_in_month y m <= 31.
Proof. unfold days_in_month. repeat match goal with |- context [if ?c then _ else _] => destruct c end; lia. Qed.

(** ** The day after *)
Definition next_day_f (a : Z * Z * Z) : Z * Z * Z :=
  let '(y, m, d) := a in
  if d <? days_in_month y m then (y, m, d + 1)
  else if m <? 12 then (y, m + 1, 1) else (y + 1, 1, 1).
Definition valid_date (a : Z * Z * Z) : Prop :=
  let '(y, m, d) := a in 1 <= m <= 12 /\ 1 <= d <= days_in_month y m.
Definition valid_b (a : Z * Z * Z) : bool :=
  let '(y, m, d) := a in (1 <=? m) && (m <=? 12) && (1 <=? d) && (d <=? days_in_month y m).
Lemma valid_b_spec a : valid_b a = true <-> valid_date a.
Proof. destruct a as [[y m] d]. simpl. rewrite !andb_true_iff, !Z.leb_le. lia. Qed.

Lemma next_day_spec a b : valid_date a -> (next_day a b <-> b = next_day_f a).
Proof.
  destruct a as [[y m] d]. intros [Hm Hd]. simpl. split.
  - intros Hn. inversion Hn; subst.
    + match goal with H : month_length _ _ _ |- _ => apply month_length_fun in H as [_ ->] end.
      destruct (Z.ltb_spec d (days_in_month y m)); [reflexivity|lia].
    + match goal with H : month_length _ _ _ |- _ => apply month_length_fun in H as [_ Hx] end. subst d.
      rewrite Z.ltb_irrefl. destruct (Z.ltb_spec m 12); [reflexivity|lia].
    + unfold days_in_month. simpl. reflexivity.
  - intros ->. pose proof (days_in_month_spec y m Hm) as Hl.
    destruct (Z.ltb_spec d (days_in_month y m)).
    + econstructor; eauto. lia.
    + assert (d = days_in_month y m) as Hd' by lia. destruct (Z.ltb_spec m 12).
      * rewrite Hd'. now constructor.
      * assert (m = 12) as -> by lia. rewrite Hd'. unfold days_in_month. simpl. constructor.
Qed.
Lemma next_day_f_valid a : valid_date a -> valid_date (next_day_f a).
Proof.
  destruct a as [[y m] d]. intros [Hm Hd]. simpl. destruct (Z.ltb_spec d (days_in_month y m)); simpl; [lia|].
  destruct (Z.ltb_spec m 12); simpl.
  - pose proof (days_in_month_pos y (m + 1)). lia.
  - pose proof (days_in_month_pos (y+1) 1). lia.
Qed.

(** ** One 400-year era: years (starting on 1 March) and days of the year *)
Definition ymd_eqb (a b : Z * Z * Z) : bool :=
  let '(y, m, d) := a in let '(y', m', d') := b in (y =? y') && (m =? m') && (d =? d').
Lemma ymd_eqb_spec a b : ymd_eqb a b = true <-> a = b.
Proof.
  destruct a as [[y m] d], b as [[y' m'] d']. simpl. rewrite !andb_true_iff, !Z.eqb_eq. split; [intros [[-> ->] ->]; auto|intros [= -> -> ->]; auto].
Qed.
Definition shift_year (e : Z) (a : Z * Z * Z) : Z * Z * Z := let '(y, m, d) := a in (y + 400 * e, m, d).

Definition ys (y : Z) : Z := 365 * y + y / 4 - y / 100.
Definition yoe_of (doe : Z) : Z := (doe - doe / 1460 + doe / 36524 - doe / 146096) / 365.
Definition md (doy : Z) : Z * Z :=
  let mp := (5 * doy + 2) / 153 in
  (if mp <? 10 then mp + 3 else mp - 9, doy - (153 * mp + 2) / 5 + 1).
Definition ymd_of (y doy : Z) : Z * Z * Z := let '(m, d) := md doy in (if m <=? 2 then y + 1 else y, m, d).
Definition doy_of (m d : Z) : Z := (153 * (if 2 <? m then m - 3 else m + 9) + 2) / 5 + d - 1.

Definition yend (y : Z) : Z := if y =? 399 then 146097 else ys (y + 1).
Definition year_check (y : Z) : bool :=
  (yoe_of (ys y) =? y) && (yoe_of (yend y - 1) =? y)
  && (yend y - ys y =? (if is_leap (y + 1) then 366 else 365)).
Lemma year_swept : all_range 400 0 year_check = true.
Proof. vm_compute. reflexivity. Qed.
Definition ylen (y : Z) : Z := if is_leap (y + 1) then 366 else 365.
Lemma ylen_bound y : 365 <= ylen y <= 366.
Proof. unfold ylen. destruct (is_leap _); lia. Qed.
Lemma year_ok y : 0 <= y < 400 -> yoe_of (ys y) = y /\ yoe_of (ys y + ylen y - 1) = y /\ (y < 399 -> ys (y + 1) = ys y + ylen y) /\ (y = 399 -> ys y + ylen y = 146097).
Proof.
  intros Hy. pose proof (all_range_spec _ _ _ year_swept y ltac:(lia)) as Hc. unfold year_check in Hc.
  rewrite !andb_true_iff, !Z.eqb_eq in Hc. destruct Hc as [[H1 H2] H3].
  fold (ylen y) in H3. split; [auto|]. replace (ys y + ylen y) with (yend y) by lia. split; [auto|].
  unfold yend. split; intros; destruct (Z.eqb_spec y 399); lia.
Qed.
Lemma yoe_mono a b : 0 <= a -> a <= b < 146097 -> yoe_of a <= yoe_of b.
Proof.
  intros Ha Hb. unfold yoe_of. apply Z.div_le_mono; [lia|].
  assert (a - a / 1460 <= b - b / 1460) as H1.
  { pose proof (Z.div_mod a 1460 ltac:(lia)). pose proof (Z.div_mod b 1460 ltac:(lia)).
    pose proof (Z.mod_pos_bound a 1460 ltac:(lia)). pose proof (Z.mod_pos_bound b 1460 ltac:(lia)).
    pose proof (Z.div_le_mono a b 1460 ltac:(lia) ltac:(lia)).
    destruct (Z.eq_dec (a / 1460) (b / 1460)); lia. }
  destruct (Z.eq_dec b 146096) as [->|Hne].
  - change (146096 / 36524) with 4. change (146096 / 146096) with 1. change (146096 / 1460) with 100 in *.
    destruct (Z.eq_dec a 146096) as [->|Hna]; [vm_compute; congruence|].
    rewrite (Z.div_small a 146096) by lia.
    assert (a / 36524 < 4) by (apply Z.div_lt_upper_bound; lia). lia.
  - rewrite (Z.div_small a 146096), (Z.div_small b 146096) by lia.
    pose proof (Z.div_le_mono a b 36524 ltac:(lia) ltac:(lia)). lia.
Qed.
Lemma yoe_of_ys y doy : 0 <= y < 400 -> 0 <= doy < ylen y -> yoe_of (ys y + doy) = y /\ 0 <= ys y /\ ys y + doy < 146097.
Proof.
  intros Hy Hd. destruct (year_ok y Hy) as (H1 & H2 & H3 & H4).
  assert (0 <= ys y) as Hp.
  { unfold ys. pose proof (Z.div_pos y 4 ltac:(lia) ltac:(lia)).
    pose proof (Z.div_le_upper_bound y 100 4 ltac:(lia) ltac:(lia)). destruct (Z.eq_dec y 0) as [->|]; [vm_compute; congruence|lia]. }
  assert (ys y + ylen y <= 146097) as Hu.
  { destruct (Z.eq_dec y 399) as [E|]; [rewrite (H4 E); lia|]. rewrite <- H3 by lia. unfold ys.
    pose proof (Z.div_le_upper_bound (y + 1) 4 100 ltac:(lia) ltac:(lia)).
    pose proof (Z.div_pos (y + 1) 100 ltac:(lia) ltac:(lia)). lia. }
  pose proof (yoe_mono (ys y) (ys y + doy) Hp ltac:(lia)).
  pose proof (yoe_mono (ys y + doy) (ys y + ylen y - 1) ltac:(lia) ltac:(lia)). lia.
Qed.
Lemma civil_of_doe_eq y doy : 0 <= y < 400 -> 0 <= doy < ylen y -> civil_of_doe (ys y + doy) = ymd_of y doy.
Proof.
  intros Hy Hd. destruct (yoe_of_ys y doy Hy Hd) as [E _]. unfold yoe_of in E. unfold civil_of_doe. cbv zeta.
  rewrite E. fold (ys y). replace (ys y + doy - ys y) with doy by lia. reflexivity.
Qed.
Lemma ys_below (n : nat) : (n <= 400)%nat -> forall doe, 0 <= doe -> ((n < 400)%nat -> doe < ys (Z.of_nat n)) -> doe < 146097 ->
  exists y doy, 0 <= y < 400 /\ 0 <= doy < ylen y /\ doe = ys y + doy.
Proof.
  induction n as [|n IH]; intros Hn doe Hd Hlt Hb.
  - exfalso. specialize (Hlt ltac:(lia)). change (ys (Z.of_nat 0)) with 0 in Hlt. lia.
  - destruct (Z.lt_ge_cases doe (ys (Z.of_nat n))) as [L|L]; [apply IH; auto; lia|].
    exists (Z.of_nat n), (doe - ys (Z.of_nat n)). destruct (year_ok (Z.of_nat n) ltac:(lia)) as (_ & _ & H3 & H4).
    split; [lia|]. split; [|lia].
    destruct (Z.eq_dec (Z.of_nat n) 399) as [E|E]; [specialize (H4 ltac:(lia)); lia|].
    specialize (H3 ltac:(lia)). replace (Z.of_nat n + 1) with (Z.of_nat (S n)) in H3 by lia. specialize (Hlt ltac:(lia)). lia.
Qed.
Lemma doe_split doe : 0 <= doe < 146097 -> exists y doy, 0 <= y < 400 /\ 0 <= doy < ylen y /\ doe = ys y + doy.
Proof. intros Hd. apply (ys_below 400); lia. Qed.

(** Days of a year: month and day, and the next one. *)
Definition doy_check (doy : Z) : bool :=
  let '(m, d) := md doy in
  (1 <=? m) && (m <=? 12) && (1 <=? d) && (doy_of m d =? doy) && Bool.eqb (m <=? 2) (306 <=? doy)
  && (if m =? 2 then (d <=? 29) && Bool.eqb (d =? 29) (doy =? 365) && Bool.eqb (d =? 28) (doy =? 364)
      else (d <=? days_in_month 1 m))
  && ((doy =? 365) ||
      let '(m', d') := md (doy + 1) in
      if (m =? 2) || (d <? days_in_month 1 m) then (m' =? m) && (d' =? d + 1)
      else (d' =? 1) && (m' =? (if m <? 12 then m + 1 else 1))).
Lemma doy_swept : all_range 366 0 doy_check = true.
Proof. vm_compute. reflexivity. Qed.
Lemma dim_other y m : m <> 2 -> days_in_month y m = days_in_month 1 m.
Proof. intros Hm. unfold days_in_month. destruct (Z.eqb_spec m 2); [lia|reflexivity]. Qed.

Lemma era_ok doe : 0 <= doe < 146097 ->
  valid_date (civil_of_doe doe) /\
  next_day_f (civil_of_doe doe) = (if doe =? 146096 then shift_year 1 (civil_of_doe 0) else civil_of_doe (doe + 1)) /\
  (let '(y, m, d) := civil_of_doe doe in days_from_civil y m d = doe - 719468).
Proof.
  intros Hdoe. destruct (doe_split doe Hdoe) as (y & doy & Hy & Hd & ->).
  rewrite (civil_of_doe_eq y doy Hy Hd). pose proof (ylen_bound y) as Hyl.
  destruct (year_ok y Hy) as (_ & _ & Hnext & Hlast).
  pose proof (all_range_spec _ _ _ doy_swept doy ltac:(lia)) as Hc. unfold doy_check in Hc. unfold ymd_of.
  destruct (md doy) as [m d] eqn:Emd.
  rewrite !andb_true_iff, !Z.leb_le, Z.eqb_eq, Bool.eqb_true_iff in Hc.
  destruct Hc as [[[[[[H1 H2] H3] H4] H4'] H5] H6].
  set (Y := if m <=? 2 then y + 1 else y).
  assert (m = 2 -> Y = y + 1) as HY2 by (intros ->; reflexivity).
  assert (ylen y = 366 <-> is_leap (y + 1) = true) as Hleap by (unfold ylen; destruct (is_leap (y + 1)); split; congruence || lia).
  assert (d <= days_in_month Y m) as Hdim.
  { destruct (Z.eqb_spec m 2) as [->|Hm2].
    - rewrite !andb_true_iff, Z.leb_le, !Bool.eqb_true_iff in H5. destruct H5 as [[H5 H5'] H5''].
      unfold days_in_month. simpl. rewrite HY2 by auto. destruct (is_leap (y + 1)) eqn:El; [lia|].
      destruct (Z.eqb_spec d 29) as [->|]; [|lia]. symmetry in H5'. apply Z.eqb_eq in H5'.
      unfold ylen in Hd. rewrite El in Hd. lia.
    - rewrite dim_other by auto. now apply Z.leb_le. }
  split; [|split].
  - simpl. lia.
  - destruct (Z.eq_dec (doy + 1) (ylen y)) as [Elast|Enl].
    + (* last day of the March year: next is 1 March *)
      assert (m = 2 /\ d = days_in_month Y 2) as [Em Ed].
      { assert (m = 2) as ->.
        { assert (doy = 364 \/ doy = 365) as [->| ->] by lia; vm_compute in Emd; injection Emd; lia. }
        split; auto. rewrite Z.eqb_refl, !andb_true_iff, Z.leb_le, !Bool.eqb_true_iff in H5. destruct H5 as [[H5 H5'] H5''].
        unfold days_in_month. simpl. rewrite HY2 by auto. destruct (is_leap (y + 1)) eqn:El.
        - assert (doy = 365) as E by (unfold ylen in Elast; rewrite El in Elast; lia). rewrite E in H5'. apply Z.eqb_eq. exact H5'.
        - assert (doy = 364) as E by (unfold ylen in Elast; rewrite El in Elast; lia). rewrite E in H5''. apply Z.eqb_eq. exact H5''. }
      unfold next_day_f. rewrite Em, Ed, Z.ltb_irrefl. rewrite (HY2 Em). simpl (2 <? 12). cbv iota. simpl (2 + 1).
      destruct (Z.eqb_spec (ys y + doy) 146096) as [E|E].
      * assert (y = 399) as ->.
        { destruct (Z.eq_dec y 399); auto. specialize (Hnext ltac:(lia)).
          pose proof (yoe_of_ys (y + 1) 0 ltac:(lia) ltac:(pose proof (ylen_bound (y + 1)); lia)). lia. }
        vm_compute. reflexivity.
      * assert (y < 399) as Hy' by (destruct (Z.eq_dec y 399) as [E'|]; [specialize (Hlast E'); lia|lia]).
        replace (ys y + doy + 1) with (ys (y + 1) + 0) by (rewrite Hnext by auto; lia).
        rewrite civil_of_doe_eq by (pose proof (ylen_bound (y + 1)); lia). reflexivity.
    + assert (ys y + doy <> 146096) as Hne.
      { pose proof (yoe_of_ys y (doy + 1) Hy ltac:(lia)). lia. }
      apply Z.eqb_neq in Hne as ->. replace (ys y + doy + 1) with (ys y + (doy + 1)) by lia.
      rewrite civil_of_doe_eq by lia. unfold ymd_of.
      assert (doy <> 365) as Hn365 by lia. apply Z.eqb_neq in Hn365 as E365. rewrite E365, orb_false_l in H6.
      destruct (md (doy + 1)) as [m' d'] eqn:Emd'.
      assert (Bool.eqb (m' <=? 2) (306 <=? doy + 1) = true) as H7.
      { pose proof (all_range_spec _ _ _ doy_swept (doy + 1) ltac:(lia)) as Hc. unfold doy_check in Hc. rewrite Emd' in Hc.
        rewrite !andb_true_iff in Hc. tauto. }
      rewrite Bool.eqb_true_iff in H7. unfold next_day_f.
      destruct (Z.eqb_spec m 2) as [->|Hm2].
      * simpl in H6. apply andb_true_iff in H6 as [E1 E2]. apply Z.eqb_eq in E1, E2. subst m' d'.
        rewrite !andb_true_iff, Z.leb_le, !Bool.eqb_true_iff in H5. destruct H5 as [[H5 H5'] H5''].
        assert (d < days_in_month Y 2) as Hl.
        { unfold days_in_month. simpl. rewrite HY2 by auto. destruct (Z.eqb_spec d 29); [symmetry in H5'; apply Z.eqb_eq in H5'; lia|].
          destruct (is_leap (y + 1)) eqn:El; [lia|].
          destruct (Z.eqb_spec d 28); [|lia]. symmetry in H5''. apply Z.eqb_eq in H5''.
          unfold ylen in *. rewrite El in *. lia. }
        apply Z.ltb_lt in Hl. rewrite Hl. reflexivity.
      * rewrite orb_false_l in H6. rewrite dim_other by auto. destruct (Z.ltb_spec d (days_in_month 1 m)) as [L|L].
        -- apply andb_true_iff in H6 as [E1 E2]. apply Z.eqb_eq in E1, E2. subst m' d'. reflexivity.
        -- apply andb_true_iff in H6 as [E1 E2]. apply Z.eqb_eq in E1, E2. subst m' d'.
           unfold Y. rewrite H4', H7. destruct (Z.ltb_spec m 12) as [L'|L'].
           ++ destruct (Z.leb_spec 306 doy), (Z.leb_spec 306 (doy + 1)); auto; try lia.
           ++ assert (m = 12) as -> by lia. simpl in H4'. rewrite <- H4'. simpl in H7. rewrite <- H7. reflexivity.
  - unfold days_from_civil. cbv zeta. fold (doy_of m d). rewrite H4.
    replace (if m <=? 2 then Y - 1 else Y) with y by (unfold Y; destruct (m <=? 2); lia).
    rewrite Z.div_small, Z.mod_small by lia. unfold ys. lia.
Qed.

Lemma valid_shift e a : valid_date (shift_year e a) <-> valid_date a.
Proof. destruct a as [[y m] d]. simpl. rewrite days_in_month_shift. tauto. Qed.
Lemma next_day_f_shift e a : next_day_f (shift_year e a) = shift_year e (next_day_f a).
Proof.
  destruct a as [[y m] d]. simpl. rewrite days_in_month_shift.
  destruct (d <? days_in_month y m); auto. destruct (m <? 12); auto. simpl. f_equal. f_equal. lia.
Qed.
Lemma days_from_civil_shift y m d e : days_from_civil (y + 400 * e) m d = days_from_civil y m d + 146097 * e.
Proof.
  unfold days_from_civil. cbv zeta.
  set (y' := if m <=? 2 then y - 1 else y).
  replace (if m <=? 2 then y + 400 * e - 1 else y + 400 * e) with (y' + e * 400).
  - rewrite Z_mod_plus_full, Z_div_plus_full by lia. lia.
  - unfold y'. destruct (m <=? 2); lia.
Qed.

Lemma civil_era e doe : 0 <= doe < 146097 -> civil_from_days (146097 * e + doe - 719468) = shift_year e (civil_of_doe doe).
Proof.
  intros Hd. unfold civil_from_days. cbv zeta.
  replace (146097 * e + doe - 719468 + 719468) with (doe + e * 146097) by lia.
  rewrite Z_mod_plus_full, Z_div_plus_full by lia.
  rewrite Z.mod_small, Z.div_small by lia.
  destruct (civil_of_doe doe) as [[y m] d]. reflexivity.
Qed.
Lemma era_split z : exists e doe, 0 <= doe < 146097 /\ z = 146097 * e + doe - 719468.
Proof.
  exists ((z + 719468) / 146097), ((z + 719468) mod 146097).
  pose proof (Z.mod_pos_bound (z + 719468) 146097 ltac:(lia)).
  pose proof (Z.div_mod (z + 719468) 146097 ltac:(lia)). lia.
Qed.

Lemma civil_valid z : valid_date (civil_from_days z).
Proof.
  destruct (era_split z) as (e & doe & Hd & ->). rewrite civil_era by auto. apply valid_shift. now apply era_ok.
Qed.
Lemma civil_next z : civil_from_days (z + 1) = next_day_f (civil_from_days z).
Proof.
  destruct (era_split z) as (e & doe & Hd & ->). rewrite civil_era by auto. rewrite next_day_f_shift.
  destruct (era_ok doe Hd) as (_ & -> & _). destruct (Z.eqb_spec doe 146096) as [->|Hne].
  - replace (146097 * e + 146096 - 719468 + 1) with (146097 * (e + 1) + 0 - 719468) by lia.
    rewrite civil_era by lia. destruct (civil_of_doe 0) as [[y m] d]. simpl. f_equal. f_equal. lia.
  - replace (146097 * e + doe - 719468 + 1) with (146097 * e + (doe + 1) - 719468) by lia.
    now rewrite civil_era by lia.
Qed.
Lemma days_civil z : let '(y, m, d) := civil_from_days z in days_from_civil y m d = z.
Proof.
  destruct (era_split z) as (e & doe & Hd & ->). rewrite civil_era by auto.
  destruct (era_ok doe Hd) as (_ & _ & Hx). destruct (civil_of_doe doe) as [[y m] d]. simpl.
  rewrite days_from_civil_shift, Hx. lia.
Qed.

(** *** Round trip from dates *)
Definition back_check (i : Z) : bool :=   (* i = (m-1) * 31 + (d-1) *)
  let d := i mod 31 + 1 in let m := i / 31 + 1 in
  negb (if m =? 2 then d <=? 29 else d <=? days_in_month 1 m)
  || ((0 <=? doy_of m d) && (doy_of m d <? 366) && Bool.eqb ((m =? 2) && (d =? 29)) (doy_of m d =? 365)
      && let '(m', d') := md (doy_of m d) in (m' =? m) && (d' =? d)).
Lemma back_swept : all_range 372 0 back_check = true.
Proof. vm_compute. reflexivity. Qed.
Lemma back_ok y m d : valid_date (y, m, d) -> 0 <= doy_of m d < (if is_leap y then 366 else if m =? 2 then 365 else 366) /\
  0 <= doy_of m d < 366 /\ (doy_of m d = 365 -> m = 2 /\ d = 29) /\ md (doy_of m d) = (m, d).
Proof.
  intros [Hm Hd]. pose proof (days_in_month_pos y m).
  pose proof (all_range_spec _ _ _ back_swept ((m - 1) * 31 + (d - 1)) ltac:(lia)) as Hc.
  unfold back_check in Hc. cbv zeta in Hc.
  replace (((m - 1) * 31 + (d - 1)) mod 31 + 1) with d in Hc.
  2:{ rewrite (Z.add_comm _ (d - 1)), Z_mod_plus_full, Z.mod_small by lia. lia. }
  replace (((m - 1) * 31 + (d - 1)) / 31 + 1) with m in Hc.
  2:{ rewrite (Z.add_comm _ (d - 1)), Z_div_plus_full, Z.div_small by lia. lia. }
  assert ((if m =? 2 then d <=? 29 else d <=? days_in_month 1 m) = true) as E.
  { destruct (Z.eqb_spec m 2) as [->|Hm2]; apply Z.leb_le.
    - unfold days_in_month in Hd. simpl in Hd. destruct (is_leap y); lia.
    - rewrite <- (dim_other y) by auto. lia. }
  rewrite E in Hc. simpl negb in Hc. rewrite orb_false_l in Hc. destruct (md (doy_of m d)) as [m' d'].
  rewrite !andb_true_iff, Z.leb_le, Z.ltb_lt, Bool.eqb_true_iff, !Z.eqb_eq in Hc.
  destruct Hc as [[[H1 H2] H3] [-> ->]].
  assert (doy_of m d = 365 -> m = 2 /\ d = 29) as H4.
  { intros E'. apply Z.eqb_eq in E'. rewrite E' in H3. apply andb_true_iff in H3. now rewrite !Z.eqb_eq in H3. }
  repeat split; auto; try lia; try tauto.
  destruct (is_leap y) eqn:El; [lia|]. destruct (Z.eqb_spec m 2) as [->|]; [|lia].
  destruct (Z.eq_dec (doy_of 2 d) 365) as [E'|]; [|lia].
  destruct (H4 E') as [_ ->]. unfold days_in_month in Hd. simpl in Hd. rewrite El in Hd. lia.
Qed.
Lemma civil_days y m d : valid_date (y, m, d) -> civil_from_days (days_from_civil y m d) = (y, m, d).
Proof.
  intros Hv. destruct (back_ok y m d Hv) as (H1 & H2 & H3 & H4). unfold days_from_civil. cbv zeta. fold (doy_of m d).
  set (y' := if m <=? 2 then y - 1 else y).
  pose proof (Z.mod_pos_bound y' 400 ltac:(lia)) as Hyoe. pose proof (Z.div_mod y' 400 ltac:(lia)) as Hy.
  assert (0 <= doy_of m d < ylen (y' mod 400)) as Hd.
  { unfold ylen. destruct (Z.eq_dec (doy_of m d) 365) as [E|Ne]; [|clear - H2 Ne; destruct (is_leap _); lia].
    destruct (H3 E) as [Em Ed]. rewrite Em in H1. simpl in H1.
    assert (is_leap (y' mod 400 + 1) = is_leap y) as El.
    { rewrite <- (is_leap_shift _ (y' / 400)). f_equal. assert (y' = y - 1) by (unfold y'; rewrite Em; reflexivity). lia. }
    rewrite El. rewrite Em. destruct (is_leap y); lia. }
  destruct (yoe_of_ys _ _ Hyoe Hd) as (_ & Hp & Hu).
  replace (y' / 400 * 146097 + (y' mod 400 * 365 + y' mod 400 / 4 - y' mod 400 / 100 + doy_of m d) - 719468)
    with (146097 * (y' / 400) + (ys (y' mod 400) + doy_of m d) - 719468) by (unfold ys; lia).
  rewrite civil_era by lia. rewrite civil_of_doe_eq by auto. unfold ymd_of. rewrite H4. simpl.
  f_equal. f_equal. unfold y' in *. destruct (m <=? 2); lia.
Qed.

(** *** The model calendar is the calendar of the specification *)
Lemma next_day_valid a b : next_day a b -> valid_date a /\ valid_date b.
Proof.
  intros Hn. assert (valid_date a) as Ha.
  { inversion Hn; subst; simpl.
    - apply month_length_fun in H as [? ->]. lia.
    - pose proof H as H'. apply month_length_fun in H' as [? ->]. pose proof (days_in_month_pos y m). lia.
    - unfold days_in_month. simpl. lia. }
  split; auto. apply next_day_spec in Hn; auto. subst. now apply next_day_f_valid.
Qed.
Lemma next_day_inj a a' b : next_day a b -> next_day a' b -> a = a'.
Proof.
  intros H1 H2. inversion H1; subst; inversion H2; subst;
    repeat match goal with H : month_length _ _ _ |- _ => apply month_length_fun in H as [? ->] end;
    try (f_equal; f_equal; lia); try lia.
Qed.
Lemma next_day_civil z : next_day (civil_from_days z) (civil_from_days (z + 1)).
Proof. apply next_day_spec; [apply civil_valid|apply civil_next]. Qed.

Lemma date_of_civil n a : date_of n a <-> a = civil_from_days n.
Proof.
  split.
  - induction 1 as [|n a b Hd IH Hn|n a b Hd IH Hn].
    + reflexivity.
    + subst a. apply next_day_spec in Hn; [|apply civil_valid]. now rewrite civil_next.
    + subst b. replace n with (n - 1 + 1) in Hn by lia. eapply next_day_inj; eauto using next_day_civil.
  - intros ->. destruct (Z.le_gt_cases 0 n) as [Hn|Hn].
    + pattern n. apply natlike_ind; auto.
      * constructor.
      * intros x Hx IH. unfold Z.succ. econstructor; eauto using next_day_civil.
    + replace n with (- (- n)) by lia. assert (0 <= - n) as Hp by lia. revert Hp. generalize (- n). clear.
      intros k Hk. pattern k. apply natlike_ind; auto.
      * constructor.
      * intros x Hx IH. replace (- Z.succ x) with (- x - 1) by lia. econstructor; [exact IH|].
        replace (- x) with (- x - 1 + 1) at 2 by lia. apply next_day_civil.
Qed.

(** ** First days of months: month number [t = 12 y + (m - 1)] *)
Definition month_first (t : Z) : Z := days_from_civil (t / 12) (t mod 12 + 1) 1.

Lemma days_from_civil_day y m d : days_from_civil y m d = days_from_civil y m 1 + (d - 1).
Proof. unfold days_from_civil. cbv zeta. lia. Qed.
Lemma month_first_shift t e : month_first (t + 4800 * e) = month_first t + 146097 * e.
Proof.
  unfold month_first. replace (t + 4800 * e) with (t + (400 * e) * 12) by lia.
  rewrite Z_mod_plus_full, Z_div_plus_full by lia. apply days_from_civil_shift.
Qed.
Definition month_check (t : Z) : bool := month_first (t + 1) - month_first t =? days_in_month (t / 12) (t mod 12 + 1).
Lemma month_swept : all_range 4800 0 month_check = true.
Proof. vm_compute. reflexivity. Qed.
Lemma month_first_succ t : month_first (t + 1) = month_first t + days_in_month (t / 12) (t mod 12 + 1).
Proof.
  pose proof (Z.mod_pos_bound t 4800 ltac:(lia)). pose proof (Z.div_mod t 4800 ltac:(lia)) as Ht.
  set (r := t mod 4800) in *. set (e := t / 4800) in *.
  replace t with (r + 4800 * e) by lia.
  replace (r + 4800 * e + 1) with (r + 1 + 4800 * e) by lia. rewrite !month_first_shift.
  replace ((r + 4800 * e) / 12) with (r / 12 + 400 * e).
  2:{ replace (r + 4800 * e) with (r + (400 * e) * 12) by lia. rewrite Z_div_plus_full by lia. lia. }
  replace ((r + 4800 * e) mod 12) with (r mod 12).
  2:{ replace (r + 4800 * e) with (r + (400 * e) * 12) by lia. now rewrite Z_mod_plus_full. }
  rewrite days_in_month_shift.
  pose proof (all_range_spec _ _ _ month_swept r ltac:(lia)) as Hc. apply Z.eqb_eq in Hc. lia.
Qed.
Lemma month_first_mono a b : a < b -> month_first a < month_first b.
Proof.
  intros Hab. replace b with (a + 1 + (b - a - 1)) by lia. assert (0 <= b - a - 1) as Hk by lia. revert Hk.
  generalize (b - a - 1). clear. intros k Hk. pattern k. apply natlike_ind; auto.
  - rewrite Z.add_0_r, month_first_succ. pose proof (days_in_month_pos (a / 12) (a mod 12 + 1)). lia.
  - intros x Hx IH. replace (a + 1 + Z.succ x) with (a + 1 + x + 1) by lia. rewrite month_first_succ.
    pose proof (days_in_month_pos ((a + 1 + x) / 12) ((a + 1 + x) mod 12 + 1)). lia.
Qed.
Lemma civil_month z y m d : civil_from_days z = (y, m, d) ->
  let t := 12 * y + (m - 1) in
  1 <= m <= 12 /\ month_first t = days_from_civil y m 1 /\ z = month_first t + (d - 1) /\ month_first t <= z < month_first (t + 1).
Proof.
  intros E. cbv zeta. pose proof (civil_valid z) as Hv. rewrite E in Hv. destruct Hv as [Hm Hd].
  pose proof (days_civil z) as Hz. rewrite E in Hz.
  assert ((12 * y + (m - 1)) / 12 = y) as E1.
  { rewrite Z.add_comm, Z.mul_comm, Z_div_plus_full, Z.div_small by lia. lia. }
  assert ((12 * y + (m - 1)) mod 12 = m - 1) as E2.
  { rewrite Z.add_comm, Z.mul_comm, Z_mod_plus_full, Z.mod_small by lia. lia. }
  rewrite month_first_succ. unfold month_first. rewrite E1, E2. replace (m - 1 + 1) with m by lia.
  rewrite days_from_civil_day in Hz. lia.
Qed.
Lemma civil_month_first t : civil_from_days (month_first t) = (t / 12, t mod 12 + 1, 1).
Proof.
  unfold month_first. apply civil_days. simpl. pose proof (Z.mod_pos_bound t 12 ltac:(lia)).
  pose proof (days_in_month_pos (t / 12) (t mod 12 + 1)). lia.
Qed.
