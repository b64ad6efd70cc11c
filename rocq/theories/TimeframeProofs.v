From Verif Require Export CalendarProofs Timeframe SpecTimeframe.
Open Scope Z_scope.

(** ** The k-th boundary *)
Definition bnd (u : unit_) (q k : Z) : Z :=
  match u with
  | TICK => k
  | SECOND => k * (q * US_SEC)
  | MINUTE => k * (q * US_MIN)
  | HOUR => k * (q * US_HOUR)
  | DAY => k * (q * US_DAY) - (3 mod q) * US_DAY
  | WEEK => k * (7 * US_DAY) - 3 * US_DAY
  | MONTH => month_first (q * k) * US_DAY
  | YEAR => month_first (12 * q * k) * US_DAY
  end.
Definition good (u : unit_) (q : Z) : Prop := u <> TICK /\ 0 < q /\ unit_ok u q.

Lemma US_vals : US_SEC = 1000000 /\ US_MIN = 60000000 /\ US_HOUR = 3600000000 /\ US_DAY = 86400000000.
Proof. repeat split; reflexivity. Qed.
Ltac us := destruct US_vals as (?EUS & ?EUM & ?EUH & ?EUD).

Lemma div7 q : 0 < q -> (q | 7) -> q = 1 \/ q = 7.
Proof.
  intros Hq Hd. pose proof (Z.divide_pos_le q 7 ltac:(lia) Hd). destruct Hd as [k Hk]. assert (q = 1 \/ q = 2 \/ q = 3 \/ q = 4 \/ q = 5 \/ q = 6 \/ q = 7) as Hc by lia.
  destruct Hc as [E|[E|[E|[E|[E|[E|E]]]]]]; rewrite E in Hk; lia.
Qed.

Lemma bnd_mono u q a b : good u q -> a < b -> bnd u q a < bnd u q b.
Proof.
  intros (Hu & Hq & Hok) Hab. us. destruct u; simpl in *; try congruence; try nia;
    match goal with |- month_first ?x * _ < month_first ?y * _ => pose proof (month_first_mono x y ltac:(nia)); nia end.
Qed.
Lemma bnd_mono_le u q a b : good u q -> a <= b -> bnd u q a <= bnd u q b.
Proof. intros Hg Hab. destruct (Z.eq_dec a b) as [->|]; [lia|]. pose proof (bnd_mono u q a b Hg). lia. Qed.
Lemma bnd_inj_lt u q a b : good u q -> bnd u q a < bnd u q b -> a < b.
Proof. intros Hg Hl. destruct (Z.lt_ge_cases a b); auto. pose proof (bnd_mono_le u q b a Hg). lia. Qed.

Lemma divide_mul_split q n a c : (q | c) -> (q | a) -> (q | n * c + a).
Proof. intros. apply Z.divide_add_r; auto. now apply Z.divide_mul_r. Qed.

Lemma lin_split n a b q U : (n * a + b) * (q * U) = n * (a * q) * U + b * q * U.
Proof. ring. Qed.
Lemma lin_split2 n a b q U : (n * (2 * a) + b) * (q * U) = 2 * n * (a * q) * U + b * q * U.
Proof. ring. Qed.

Lemma boundary_bnd u q w : good u q -> (boundary u q w <-> exists k, w = bnd u q k).
Proof.
  intros (Hu & Hq & Hok). us. split.
  - intros Hb. destruct Hb as [q n s Hs Hd|q n s Hs Hd|q n s Hs Hd|q n Hd|q n Hd|q n y m Hd Hm|q n y Hd Hy]; simpl in *.
    + destruct Hok as [a Ha], Hd as [b Hb]. exists (n * a + b). rewrite lin_split, <- Ha, <- Hb. lia.
    + destruct Hok as [a Ha], Hd as [b Hb]. exists (n * a + b). rewrite lin_split, <- Ha, <- Hb. lia.
    + destruct Hok as [a Ha], Hd as [b Hb]. exists (n * (2 * a) + b). rewrite lin_split2, <- Ha, <- Hb. lia.
    + destruct (div7 q Hq Hok) as [->| ->].
      * exists n. rewrite Z.mod_1_r. lia.
      * unfold weekday in Hd. pose proof (Z.mod_pos_bound (n + 3) 7 ltac:(lia)).
        assert ((n + 3) mod 7 = 0) as E by (destruct Hd as [c Hc]; lia).
        exists ((n + 3) / 7). pose proof (Z.div_mod (n + 3) 7 ltac:(lia)). change (3 mod 7) with 3. nia.
    + unfold weekday in Hd. exists ((n + 3) / 7). pose proof (Z.div_mod (n + 3) 7 ltac:(lia)). nia.
    + apply date_of_civil in Hd. symmetry in Hd. apply civil_month in Hd. cbv zeta in Hd. destruct Hd as (H1 & H2 & H3 & H4).
      destruct Hok as [a Ha], Hm as [b Hb]. exists (a * y + b). replace (q * (a * y + b)) with (12 * y + (m - 1)) by (rewrite Hb, Ha; ring). lia.
    + apply date_of_civil in Hd. symmetry in Hd. apply civil_month in Hd. cbv zeta in Hd. destruct Hd as (H1 & H2 & H3 & H4).
      destruct Hy as [b Hy]. exists b. replace (12 * q * b) with (12 * y + (1 - 1)) by (rewrite Hy; ring). lia.
  - intros [k ->]. destruct u; simpl in *; try congruence.
    + pose proof (Z.mod_pos_bound (k * q) 60 ltac:(lia)). pose proof (Z.div_mod (k * q) 60 ltac:(lia)).
      replace (k * (q * US_SEC)) with (((k * q) / 60) * 60000000 + ((k * q) mod 60) * 1000000) by nia.
      constructor; [lia|]. replace ((k * q) mod 60) with ((- ((k * q) / 60)) * 60 + k * q) by lia.
      apply divide_mul_split; auto. apply Z.divide_factor_r.
    + pose proof (Z.mod_pos_bound (k * q) 60 ltac:(lia)). pose proof (Z.div_mod (k * q) 60 ltac:(lia)).
      replace (k * (q * US_MIN)) with (((k * q) / 60) * 3600000000 + ((k * q) mod 60) * 60000000) by nia.
      constructor; [lia|]. replace ((k * q) mod 60) with ((- ((k * q) / 60)) * 60 + k * q) by lia.
      apply divide_mul_split; auto. apply Z.divide_factor_r.
    + pose proof (Z.mod_pos_bound (k * q) 24 ltac:(lia)). pose proof (Z.div_mod (k * q) 24 ltac:(lia)).
      replace (k * (q * US_HOUR)) with (((k * q) / 24) * 86400000000 + ((k * q) mod 24) * 3600000000) by nia.
      constructor; [lia|]. replace ((k * q) mod 24) with ((- ((k * q) / 24 * 2)) * 12 + k * q) by lia.
      apply divide_mul_split; auto. apply Z.divide_factor_r.
    + destruct (div7 q Hq Hok) as [->| ->].
      * replace (k * (1 * US_DAY) - 3 mod 1 * US_DAY) with (k * 86400000000) by (rewrite Z.mod_1_r; lia).
        constructor. apply Z.divide_1_l.
      * change (3 mod 7) with 3. replace (k * (7 * US_DAY) - 3 * US_DAY) with ((7 * k - 3) * 86400000000) by lia.
        constructor. unfold weekday. replace (7 * k - 3 + 3) with (k * 7) by lia. rewrite Z.mod_mul by lia. apply Z.divide_0_r.
    + replace (k * (7 * US_DAY) - 3 * US_DAY) with ((7 * k - 3) * 86400000000) by lia.
      constructor. unfold weekday. replace (7 * k - 3 + 3) with (k * 7) by lia. now rewrite Z.mod_mul by lia.
    + rewrite EUD. eapply (b_month q _ ((q * k) / 12) ((q * k) mod 12 + 1)).
      * apply date_of_civil. now rewrite civil_month_first.
      * replace ((q * k) mod 12 + 1 - 1) with ((- ((q * k) / 12)) * 12 + q * k) by (pose proof (Z.div_mod (q * k) 12 ltac:(lia)); lia).
        apply divide_mul_split; auto. apply Z.divide_factor_l.
    + rewrite EUD. eapply (b_year q _ (q * k)).
      * apply date_of_civil. rewrite civil_month_first. replace (12 * q * k) with (q * k * 12) by lia.
        now rewrite Z_div_mult_full, Z_mod_mult by lia.
      * apply Z.divide_factor_l.
Qed.

(** ** Fields of a wall-clock value *)
Lemma w_split w : w = w_days w * US_DAY + w_hour w * US_HOUR + w_minute w * US_MIN + w_second w * US_SEC + w_micro w /\
  0 <= w_hour w < 24 /\ 0 <= w_minute w < 60 /\ 0 <= w_second w < 60 /\ 0 <= w_micro w < US_SEC.
Proof.
  unfold w_hour, w_minute, w_second, w_micro, w_days, w_tod. us.
  rewrite EUS, EUM, EUH, EUD. pose proof (Z.div_mod w 86400000000 ltac:(lia)).
  pose proof (Z.mod_pos_bound w 86400000000 ltac:(lia)).
  set (r := w mod 86400000000) in *. clearbody r.
  pose proof (Z.div_mod r 3600000000 ltac:(lia)). pose proof (Z.mod_pos_bound r 3600000000 ltac:(lia)).
  pose proof (Z.div_mod r 60000000 ltac:(lia)). pose proof (Z.mod_pos_bound r 60000000 ltac:(lia)).
  pose proof (Z.div_mod r 1000000 ltac:(lia)). pose proof (Z.mod_pos_bound r 1000000 ltac:(lia)).
  pose proof (Z.div_mod (r / 60000000) 60 ltac:(lia)). pose proof (Z.mod_pos_bound (r / 60000000) 60 ltac:(lia)).
  pose proof (Z.div_mod (r / 1000000) 60 ltac:(lia)). pose proof (Z.mod_pos_bound (r / 1000000) 60 ltac:(lia)).
  assert (r / 60000000 / 60 = r / 3600000000) as E1 by (rewrite Z.div_div by lia; reflexivity).
  assert (r / 1000000 / 60 = r / 60000000) as E2 by (rewrite Z.div_div by lia; reflexivity).
  lia.
Qed.

(** ** Start of a frame *)
Definition start_wall (u : unit_) (q w : Z) : Z :=
  match u with
  | TICK => w
  | SECOND => w - (w_second w mod q * US_SEC + w_micro w)
  | MINUTE => w - (w_minute w mod q * US_MIN + w_second w * US_SEC + w_micro w)
  | HOUR => w - (w_hour w mod q * US_HOUR + w_minute w * US_MIN + w_second w * US_SEC + w_micro w)
  | DAY => w - (w_weekday w mod q * US_DAY + w_hour w * US_HOUR + w_minute w * US_MIN + w_second w * US_SEC + w_micro w)
  | WEEK => w - (w_weekday w * US_DAY + w_hour w * US_HOUR + w_minute w * US_MIN + w_second w * US_SEC + w_micro w)
  | MONTH => w_of_date (w_year w) (w_month w - (w_month w - 1) mod q) 1
  | YEAR => w_of_date (w_year w - w_year w mod q) 1 1
  end.
Lemma arrow_sub_td_inv a us s : arrow_sub_td a us = Ok s ->
  ar_wall s = ar_wall a - us /\ ar_tz s = ar_tz a /\ ar_utc s = tz_utc (ar_tz a) (ar_wall s).
Proof.
  unfold arrow_sub_td, w_add. destruct (in_range (ar_wall a + - us)); simpl; [|discriminate].
  intros [= <-]. simpl. split; [lia|auto].
Qed.
Lemma get_frame_start_wall u q dt s : 0 < q -> u <> TICK -> get_frame_start u q dt = Ok s ->
  ar_wall s = start_wall u q (ar_wall dt) /\ ar_tz s = ar_tz dt /\ ar_utc s = tz_utc (ar_tz dt) (ar_wall s).
Proof.
  intros Hq Hu. unfold get_frame_start, pymod. cbv zeta.
  destruct (Z.eqb_spec q 0) as [|_]; [lia|]. cbn [rbind].
  destruct u; try congruence; intros E; try (apply arrow_sub_td_inv in E; exact E).
  - destruct (w_replace_first _ _) as [v|] eqn:Ev; [|discriminate]. simpl in E. injection E as <-. simpl.
    unfold w_replace_first in Ev. destruct (_ && _); [|discriminate]. injection Ev as <-. auto.
  - destruct (w_replace_first _ _) as [v|] eqn:Ev; [|discriminate]. simpl in E. injection E as <-. simpl.
    unfold w_replace_first in Ev. destruct (_ && _); [|discriminate]. injection Ev as <-. auto.
Qed.

Lemma start_bnd u q w : good u q -> exists k, start_wall u q w = bnd u q k /\ bnd u q k <= w < bnd u q (k + 1).
Proof.
  intros (Hu & Hq & Hok). us. pose proof (w_split w) as (Hw & Hh & Hm & Hs & Hmi).
  destruct u; simpl in *; try congruence.
  - pose proof (Z.mod_pos_bound (w_second w) q Hq). pose proof (Z.div_mod (w_second w) q ltac:(lia)).
    destruct Hok as [a Ha].
    exists ((w_days w * 1440 + w_hour w * 60 + w_minute w) * a + w_second w / q).
    set (D := w_days w) in *. set (h := w_hour w) in *. set (m := w_minute w) in *. set (s := w_second w) in *.
    assert (((D * 1440 + h * 60 + m) * a + s / q) * (q * US_SEC) = (D * 1440 + h * 60 + m) * 60000000 + (s - s mod q) * US_SEC) as E
      by (rewrite lin_split, <- Ha; replace (s - s mod q) with (s / q * q) by lia; lia).
    split; [lia|]. rewrite (Z.mul_add_distr_r _ 1), E. nia.
  - pose proof (Z.mod_pos_bound (w_minute w) q Hq). pose proof (Z.div_mod (w_minute w) q ltac:(lia)).
    destruct Hok as [a Ha].
    exists ((w_days w * 24 + w_hour w) * a + w_minute w / q).
    set (D := w_days w) in *. set (h := w_hour w) in *. set (m := w_minute w) in *. set (s := w_second w) in *.
    assert (((D * 24 + h) * a + m / q) * (q * US_MIN) = (D * 24 + h) * 3600000000 + (m - m mod q) * US_MIN) as E
      by (rewrite lin_split, <- Ha; replace (m - m mod q) with (m / q * q) by lia; lia).
    split; [lia|]. rewrite (Z.mul_add_distr_r _ 1), E. nia.
  - pose proof (Z.mod_pos_bound (w_hour w) q Hq). pose proof (Z.div_mod (w_hour w) q ltac:(lia)).
    destruct Hok as [a Ha].
    exists (w_days w * (2 * a) + w_hour w / q).
    set (D := w_days w) in *. set (h := w_hour w) in *. set (m := w_minute w) in *. set (s := w_second w) in *.
    assert ((D * (2 * a) + h / q) * (q * US_HOUR) = D * 86400000000 + (h - h mod q) * US_HOUR) as E
      by (rewrite lin_split2, <- Ha; replace (h - h mod q) with (h / q * q) by lia; lia).
    split; [lia|]. rewrite (Z.mul_add_distr_r _ 1), E. nia.
  - unfold w_weekday. destruct (div7 q Hq Hok) as [->| ->].
    + exists (w_days w). rewrite !Z.mod_1_r. nia.
    + change (3 mod 7) with 3. rewrite Z.mod_mod by lia.
      exists ((w_days w + 3) / 7). pose proof (Z.div_mod (w_days w + 3) 7 ltac:(lia)).
      pose proof (Z.mod_pos_bound (w_days w + 3) 7 ltac:(lia)). nia.
  - unfold w_weekday. exists ((w_days w + 3) / 7). pose proof (Z.div_mod (w_days w + 3) 7 ltac:(lia)).
    pose proof (Z.mod_pos_bound (w_days w + 3) 7 ltac:(lia)). nia.
  - unfold w_year, w_month, w_ymd, w_of_date. destruct (civil_from_days (w_days w)) as [[y m] d] eqn:E.
    pose proof (civil_month _ _ _ _ E) as Hc. cbv zeta in Hc. destruct Hc as (H1 & H2 & H3 & H4).
    set (t := 12 * y + (m - 1)) in *.
    pose proof (Z.mod_pos_bound (m - 1) q Hq). pose proof (Z.div_mod (m - 1) q ltac:(lia)).
    destruct Hok as [a Ha]. exists (a * y + (m - 1) / q).
    set (m' := m - (m - 1) mod q).
    assert (q * (a * y + (m - 1) / q) = 12 * y + (m' - 1)) as E1.
    { unfold m'. replace (m - (m - 1) mod q - 1) with (q * ((m - 1) / q)) by lia.
      replace (12 * y) with (a * q * y) by now rewrite <- Ha. ring. }
    assert (1 <= m' <= 12) as Hm'.
    { unfold m'. pose proof (Z.mod_le (m - 1) q ltac:(lia) Hq). lia. }
    assert (q * (a * y + (m - 1) / q + 1) = 12 * y + (m' - 1) + q) as E3 by lia.
    assert (month_first (12 * y + (m' - 1)) = days_from_civil y m' 1) as E2.
    { unfold month_first. rewrite (Z.add_comm (12 * y)), (Z.mul_comm 12), Z_div_plus_full, Z_mod_plus_full, Z.div_small, Z.mod_small by lia.
      f_equal; lia. }
    split; [rewrite E1, E2; lia|].
    assert (month_first (q * (a * y + (m - 1) / q)) <= month_first t) as L1.
    { destruct (Z.eq_dec (q * (a * y + (m - 1) / q)) t) as [->|Hne]; [lia|].
      pose proof (month_first_mono (q * (a * y + (m - 1) / q)) t ltac:(rewrite ?E1, ?E3 in *; unfold t, m' in *; lia)). lia. }
    assert (month_first (t + 1) <= month_first (q * (a * y + (m - 1) / q + 1))) as L2.
    { destruct (Z.eq_dec (t + 1) (q * (a * y + (m - 1) / q + 1))) as [->|Hne]; [lia|].
      pose proof (month_first_mono (t + 1) (q * (a * y + (m - 1) / q + 1)) ltac:(rewrite ?E1, ?E3 in *; unfold t, m' in *; lia)). lia. }
    nia.
  - unfold w_year, w_ymd, w_of_date. destruct (civil_from_days (w_days w)) as [[y m] d] eqn:E.
    pose proof (civil_month _ _ _ _ E) as Hc. cbv zeta in Hc. destruct Hc as (H1 & H2 & H3 & H4).
    set (t := 12 * y + (m - 1)) in *.
    pose proof (Z.mod_pos_bound y q Hq). pose proof (Z.div_mod y q ltac:(lia)).
    exists (y / q).
    assert (month_first (12 * q * (y / q)) = days_from_civil (y - y mod q) 1 1) as E2.
    { unfold month_first. replace (12 * q * (y / q)) with ((y - y mod q) * 12) by nia.
      rewrite Z_div_mult_full, Z_mod_mult by lia. reflexivity. }
    split; [rewrite E2; lia|].
    assert (month_first (12 * q * (y / q)) <= month_first t) as L1.
    { destruct (Z.eq_dec (12 * q * (y / q)) t) as [->|Hne]; [lia|].
      pose proof (month_first_mono (12 * q * (y / q)) t ltac:(unfold t; nia)). lia. }
    assert (month_first (t + 1) <= month_first (12 * q * (y / q + 1))) as L2.
    { destruct (Z.eq_dec (t + 1) (12 * q * (y / q + 1))) as [->|Hne]; [lia|].
      pose proof (month_first_mono (t + 1) (12 * q * (y / q + 1)) ltac:(unfold t; nia)). lia. }
    nia.
Qed.

(** ** End of a frame *)
Lemma w_add_inv w d x : w_add w d = Ok x -> x = w + d.
Proof. unfold w_add. destruct (in_range (w + d)); [|discriminate]. now intros [= <-]. Qed.
Lemma w_add_months_first t j w' : w_add_months (month_first t * US_DAY) j = Ok w' -> w' = month_first (t + j) * US_DAY.
Proof.
  unfold w_add_months, w_ymd, w_days, w_tod. rewrite Z.div_mul, Z.mod_mul by (us; lia). rewrite civil_month_first.
  cbv zeta. replace (t / 12 * 12 + (t mod 12 + 1 - 1) + j) with (t + j) by (pose proof (Z.div_mod t 12 ltac:(lia)); lia).
  destruct (_ && _); [|discriminate]. intros [= <-]. unfold w_of_date, month_first.
  pose proof (days_in_month_pos ((t + j) / 12) ((t + j) mod 12 + 1)). rewrite Z.min_l by lia. lia.
Qed.
Lemma w_shift_bnd u q k w' : good u q -> w_shift u q (bnd u q k) = Ok w' -> w' = bnd u q (k + 1).
Proof.
  intros (Hu & Hq & Hok). us. destruct u; simpl in *; try congruence; intros E;
    try (apply w_add_inv in E; subst; lia).
  - apply w_add_months_first in E. subst. do 2 f_equal. lia.
  - apply w_add_months_first in E. subst. do 2 f_equal. lia.
Qed.

Lemma get_frame_end_inv u q s e : u <> TICK -> get_frame_end u q s = Ok e ->
  exists w, w_shift u q (ar_wall s) = Ok w /\ ar_wall e = tz_resolve (ar_tz s) w /\ ar_tz e = ar_tz s /\
            ar_utc e = tz_utc (ar_tz s) (ar_wall e).
Proof.
  intros Hu. unfold get_frame_end, arrow_shift.
  destruct u; try congruence;
    (destruct (w_shift _ _ _) as [w|] eqn:Ew; simpl; [|discriminate]; intros [= <-]; simpl; eauto).
Qed.

(** ** Properties *)
Lemma last_boundary_bnd u q k w : good u q -> bnd u q k <= w < bnd u q (k + 1) -> last_boundary u q w (bnd u q k).
Proof.
  intros Hg Hw. split; [apply boundary_bnd; eauto|]. split; [lia|]. intros b Hb Hle.
  apply boundary_bnd in Hb; auto. destruct Hb as [k' ->]. apply bnd_mono_le; auto.
  enough (k' < k + 1) by lia. apply (bnd_inj_lt u q); auto. lia.
Qed.
Lemma next_boundary_bnd u q k : good u q -> next_boundary u q (bnd u q k) (bnd u q (k + 1)).
Proof.
  intros Hg. split; [apply boundary_bnd; eauto|]. split; [apply bnd_mono; auto; lia|]. intros b Hb Hle.
  apply boundary_bnd in Hb; auto. destruct Hb as [k' ->]. apply bnd_mono_le; auto.
  enough (k < k') by lia. now apply (bnd_inj_lt u q).
Qed.

Lemma frame_start_bnd u q dt s : good u q -> get_frame_start u q dt = Ok s ->
  exists k, ar_wall s = bnd u q k /\ bnd u q k <= ar_wall dt < bnd u q (k + 1) /\ ar_tz s = ar_tz dt.
Proof.
  intros Hg E. pose proof Hg as (Hu & Hq & _). apply get_frame_start_wall in E; auto. destruct E as (E1 & E2 & E3).
  destruct (start_bnd u q (ar_wall dt) Hg) as (k & Hk1 & Hk2). exists k. rewrite E1. auto.
Qed.
Lemma frame_end_bnd u q s e k : good u q -> ar_wall s = bnd u q k -> get_frame_end u q s = Ok e ->
  ar_wall e = tz_resolve (ar_tz s) (bnd u q (k + 1)) /\ ar_tz e = ar_tz s.
Proof.
  intros Hg Hs E. apply get_frame_end_inv in E; [|apply Hg]. destruct E as (w & H1 & H2 & H3 & _).
  rewrite Hs in H1. apply w_shift_bnd in H1; auto. subst w. auto.
Qed.

(** When both calls succeed the start is the last boundary and the end is the next one. *)
Lemma frame_of_dt u q dt s : good u q -> get_frame_start u q dt = Ok s ->
  last_boundary u q (ar_wall dt) (ar_wall s) /\ ar_tz s = ar_tz dt.
Proof.
  intros Hg E. destruct (frame_start_bnd _ _ _ _ Hg E) as (k & H1 & H2 & H3). split; auto.
  rewrite H1. now apply last_boundary_bnd.
Qed.
Lemma frame_end_next u q s e : good u q -> no_skip (ar_tz s) -> boundary u q (ar_wall s) -> get_frame_end u q s = Ok e ->
  next_boundary u q (ar_wall s) (ar_wall e) /\ ar_tz e = ar_tz s.
Proof.
  intros Hg Hz Hb E. apply boundary_bnd in Hb; auto. destruct Hb as [k Hk].
  destruct (frame_end_bnd _ _ _ _ _ Hg Hk E) as [H1 H2]. split; auto. rewrite H1, Hk, Hz. now apply next_boundary_bnd.
Qed.
Lemma dt_in_frame u q dt s e : u <> TICK -> 0 < q -> unit_ok u q -> resolves_forward (ar_tz dt) ->
  get_frame_start u q dt = Ok s -> get_frame_end u q s = Ok e -> ar_wall s <= ar_wall dt < ar_wall e.
Proof.
  intros Hu Hq Hok Hz E1 E2. assert (good u q) as Hg by (repeat split; auto).
  destruct (frame_start_bnd _ _ _ _ Hg E1) as (k & H1 & H2 & H3).
  destruct (frame_end_bnd _ _ _ _ _ Hg H1 E2) as [H4 H5]. rewrite H4, H3. specialize (Hz (bnd u q (k + 1))). lia.
Qed.

(** Partition *)
Lemma last_boundary_fun u q w s s' : last_boundary u q w s -> last_boundary u q w s' -> s = s'.
Proof. intros (A & B & C) (A' & B' & C'). pose proof (C _ A' B'). pose proof (C' _ A B). lia. Qed.
Lemma frame_start_mono u q d1 d2 s1 s2 : good u q -> get_frame_start u q d1 = Ok s1 -> get_frame_start u q d2 = Ok s2 ->
  ar_wall d1 <= ar_wall d2 -> ar_wall s1 <= ar_wall s2.
Proof.
  intros Hg E1 E2 Hle. destruct (frame_of_dt _ _ _ _ Hg E1) as [(A & B & C) _].
  destruct (frame_of_dt _ _ _ _ Hg E2) as [(A' & B' & C') _]. apply C'; auto. lia.
Qed.
Lemma frame_start_idem u q dt s s' : good u q -> get_frame_start u q dt = Ok s -> get_frame_start u q s = Ok s' ->
  ar_wall s' = ar_wall s.
Proof.
  intros Hg E1 E2. destruct (frame_of_dt _ _ _ _ Hg E1) as [(A & B & C) _].
  destruct (frame_of_dt _ _ _ _ Hg E2) as [(A' & B' & C') _].
  specialize (C' _ A ltac:(lia)). lia.
Qed.
Lemma frame_start_iff u q dt s b e : good u q -> no_skip (ar_tz dt) -> get_frame_start u q dt = Ok s ->
  boundary u q (ar_wall b) -> ar_tz b = ar_tz dt -> get_frame_end u q b = Ok e ->
  (ar_wall s = ar_wall b <-> ar_wall b <= ar_wall dt < ar_wall e).
Proof.
  intros Hg Hz E1 Hb Htz E2. rewrite <- Htz in Hz.
  destruct (frame_start_bnd _ _ _ _ Hg E1) as (k & H1 & H2 & H3).
  apply boundary_bnd in Hb; auto. destruct Hb as [k' Hk'].
  destruct (frame_end_bnd _ _ _ _ _ Hg Hk' E2) as [H4 _]. rewrite Hz in H4. rewrite H1, Hk', H4. split.
  - intros E. assert (k = k') as ->; [|lia].
    destruct (Z.lt_trichotomy k k') as [L|[L|L]]; auto; pose proof (bnd_mono u q _ _ Hg L); lia.
  - intros Hin. f_equal. assert (k < k' + 1) by (apply (bnd_inj_lt u q); auto; lia).
    assert (k' < k + 1) by (apply (bnd_inj_lt u q); auto; lia). lia.
Qed.
Lemma same_frame_iff u q d1 d2 s1 s2 : good u q -> get_frame_start u q d1 = Ok s1 -> get_frame_start u q d2 = Ok s2 ->
  ar_wall d1 <= ar_wall d2 ->
  (ar_wall s1 = ar_wall s2 <-> ~ exists b, boundary u q b /\ ar_wall d1 < b <= ar_wall d2).
Proof.
  intros Hg E1 E2 Hle. destruct (frame_of_dt _ _ _ _ Hg E1) as [(A & B & C) _].
  destruct (frame_of_dt _ _ _ _ Hg E2) as [(A' & B' & C') _]. split.
  - intros E (b & Hb & Hb1). specialize (C' b Hb ltac:(lia)). lia.
  - intros Hn. destruct (Z.le_gt_cases (ar_wall s2) (ar_wall d1)) as [L|L].
    + specialize (C _ A' L). specialize (C' _ A ltac:(lia)). lia.
    + exfalso. apply Hn. exists (ar_wall s2). split; auto.
Qed.
Lemma frame_end_is_start u q b e s : good u q -> no_skip (ar_tz b) -> boundary u q (ar_wall b) ->
  get_frame_end u q b = Ok e -> get_frame_start u q e = Ok s -> ar_wall s = ar_wall e.
Proof.
  intros Hg Hz Hb E1 E2. destruct (frame_end_next _ _ _ _ Hg Hz Hb E1) as [(A & _) _].
  destruct (frame_of_dt _ _ _ _ Hg E2) as [(A' & B' & C') _]. specialize (C' _ A ltac:(lia)). lia.
Qed.

(** Acceptance *)
Lemma check_unit_spec u q : 0 < q -> (check_unit u q = Ok () <-> unit_ok u q).
Proof.
  intros Hq. unfold check_unit, unit_quantity_modulo, pymod.
  destruct u; simpl; try tauto; (destruct (Z.eqb_spec q 0); [lia|]); cbn [rbind];
    match goal with |- context [?a mod q =? 0] => destruct (Z.eqb_spec (a mod q) 0) as [E|E] end;
    (split; [try discriminate; intros _|intros Hd; auto]).
  all: try (apply Z.mod_divide in E; [auto|lia]).
  all: try (exfalso; apply E; try subst q; first [apply Z.mod_divide; [lia|assumption] | reflexivity]).
  apply Z.divide_1_r_nonneg in E; lia.
Qed.
Lemma check_unit_reject u q : 0 < q -> ~ unit_ok u q -> check_unit u q = Err TimeFrameException.
Proof.
  intros Hq Hn. rewrite <- (check_unit_spec u q Hq) in Hn. revert Hn. unfold check_unit, unit_quantity_modulo, pymod.
  destruct u; simpl; try tauto; (destruct (Z.eqb_spec q 0); [lia|]); cbn [rbind];
    match goal with |- context [?a mod q =? 0] => destruct (Z.eqb_spec (a mod q) 0) as [E|E] end; tauto.
Qed.
Lemma check_unit_zero u : check_unit u 0 = (match u with TICK | YEAR => Ok () | _ => Err ZeroDivisionError end).
Proof. destruct u; reflexivity. Qed.

(** Totality inside Python's range *)
Lemma wall_min_days : WALL_MIN = days_from_civil 1 1 1 * US_DAY.
Proof. reflexivity. Qed.
Lemma wall_max_days : WALL_MAX + 1 = days_from_civil 10000 1 1 * US_DAY.
Proof. reflexivity. Qed.
Lemma wall_min_month : WALL_MIN = month_first 12 * US_DAY. Proof. reflexivity. Qed.
Lemma wall_max_month : WALL_MAX + 1 = month_first 120000 * US_DAY. Proof. reflexivity. Qed.
Lemma wall_min_bnd u q : good u q -> u <> YEAR -> boundary u q WALL_MIN.
Proof.
  intros Hg Hy. apply boundary_bnd; auto. destruct Hg as (Hu & Hq & Hok). us.
  destruct u; simpl in *; try congruence.
  - destruct Hok as [a Ha]. exists (-62135596800 / 60 * a). unfold WALL_MIN. change (-62135596800 / 60) with (-1035593280). nia.
  - destruct Hok as [a Ha]. exists (-62135596800 / 3600 * a). unfold WALL_MIN. change (-62135596800 / 3600) with (-17259888). nia.
  - destruct Hok as [a Ha]. exists (-719162 * (2 * a)). unfold WALL_MIN. nia.
  - destruct (div7 q Hq Hok) as [->| ->]; [exists (-719162)|exists (-102737)]; vm_compute; reflexivity.
  - exists (-102737). vm_compute. reflexivity.
  - destruct Hok as [a Ha]. exists a. rewrite wall_min_month. do 2 f_equal. lia.
Qed.
Lemma in_range_spec w : in_range w = true <-> WALL_MIN <= w <= WALL_MAX.
Proof. unfold in_range. rewrite andb_true_iff, !Z.leb_le. tauto. Qed.
Lemma month_first_inj_lt a b : month_first a < month_first b -> a < b.
Proof.
  intros Hl. destruct (Z.lt_ge_cases a b); auto. destruct (Z.eq_dec a b) as [->|Hne]; [lia|].
  pose proof (month_first_mono b a ltac:(lia)). lia.
Qed.
Lemma year_in_range w : WALL_MIN <= w <= WALL_MAX -> 1 <= w_year w <= 9999.
Proof.
  intros Hr. unfold w_year, w_ymd. destruct (civil_from_days (w_days w)) as [[y m] d] eqn:E.
  pose proof (civil_month _ _ _ _ E) as Hc. cbv zeta in Hc. destruct Hc as (H1 & H2 & H3 & H4).
  pose proof (w_split w) as (Hw & Hh & Hm & Hs & Hmi). us.
  pose proof wall_min_month. pose proof wall_max_month.
  assert (12 < 12 * y + (m - 1) + 1) by (apply month_first_inj_lt; nia).
  assert (12 * y + (m - 1) < 120000) by (apply month_first_inj_lt; nia). lia.
Qed.
Lemma month_range w : 1 <= w_month w <= 12.
Proof.
  unfold w_month, w_ymd. pose proof (civil_valid (w_days w)) as Hv. destruct (civil_from_days (w_days w)) as [[y m] d].
  destruct Hv. lia.
Qed.
Lemma frame_start_total u q dt : good u q -> WALL_MIN <= ar_wall dt <= WALL_MAX ->
  (u = YEAR -> q <= w_year (ar_wall dt)) -> exists s, get_frame_start u q dt = Ok s.
Proof.
  intros Hg Hr Hy. pose proof Hg as (Hu & Hq & Hok).
  assert (u <> YEAR -> in_range (start_wall u q (ar_wall dt)) = true) as Hin.
  { intros Hny. apply in_range_spec. destruct (start_bnd u q (ar_wall dt) Hg) as (k & -> & Hk).
    destruct (last_boundary_bnd u q k (ar_wall dt) Hg Hk) as (_ & _ & C).
    specialize (C _ (wall_min_bnd u q Hg Hny)). lia. }
  unfold get_frame_start, pymod, arrow_sub_td, w_add. cbv zeta. destruct (Z.eqb_spec q 0); [lia|]. cbn [rbind].
  destruct u; try congruence;
    try (specialize (Hin ltac:(discriminate)); simpl in Hin;
         match goal with |- context [in_range ?x] => match type of Hin with in_range ?y = _ => replace x with y by lia end end;
         rewrite Hin; simpl; eauto).
  - pose proof (year_in_range _ Hr). pose proof (month_range (ar_wall dt)).
    pose proof (Z.mod_pos_bound (w_month (ar_wall dt) - 1) q Hq).
    pose proof (Z.mod_le (w_month (ar_wall dt) - 1) q ltac:(lia) Hq).
    unfold w_replace_first. rewrite !(proj2 (Z.leb_le _ _)) by lia. simpl. eauto.
  - pose proof (year_in_range _ Hr). specialize (Hy eq_refl).
    pose proof (Z.mod_pos_bound (w_year (ar_wall dt)) q Hq).
    unfold w_replace_first. rewrite !(proj2 (Z.leb_le _ _)) by lia. simpl. eauto.
Qed.
Lemma frame_end_total u q s : good u q -> boundary u q (ar_wall s) -> WALL_MIN <= ar_wall s ->
  (forall e, next_boundary u q (ar_wall s) e -> e <= WALL_MAX) -> exists e, get_frame_end u q s = Ok e.
Proof.
  intros Hg Hb Hr Hn. pose proof Hg as (Hu & Hq & Hok). apply boundary_bnd in Hb; auto. destruct Hb as [k Hk].
  specialize (Hn (bnd u q (k + 1))). rewrite Hk in Hn. specialize (Hn (next_boundary_bnd u q k Hg)).
  assert (exists w, w_shift u q (ar_wall s) = Ok w) as [w Hw].
  { assert (forall x, ar_wall s + x = bnd u q (k + 1) -> exists w, w_add (ar_wall s) x = Ok w) as Hadd.
    { intros x Hx. unfold w_add. rewrite Hx. rewrite (proj2 (in_range_spec _)); eauto.
      pose proof (bnd_mono u q k (k + 1) Hg ltac:(lia)). lia. }
    assert (forall t j, ar_wall s = month_first t * US_DAY -> 0 <= j -> month_first (t + j) * US_DAY <= WALL_MAX ->
      exists w, w_add_months (ar_wall s) j = Ok w) as Hmon.
    { intros t j Hs Hj Hle. unfold w_add_months, w_ymd, w_days, w_tod. rewrite Hs, Z.div_mul, Z.mod_mul by (us; lia).
      rewrite civil_month_first. cbv zeta.
      replace (t / 12 * 12 + (t mod 12 + 1 - 1) + j) with (t + j) by (pose proof (Z.div_mod t 12 ltac:(lia)); lia).
      pose proof wall_min_month. pose proof wall_max_month. us.
      assert (month_first (t + j) < month_first 120000) by lia. assert (t + j < 120000) by now apply month_first_inj_lt.
      assert (12 < t + 1).
      { apply month_first_inj_lt. pose proof (month_first_mono t (t + 1) ltac:(lia)). lia. }
      assert (1 <= (t + j) / 12) by (apply Z.div_le_lower_bound; lia).
      assert ((t + j) / 12 <= 9999) by (enough ((t + j) / 12 < 10000) by lia; apply Z.div_lt_upper_bound; lia).
      rewrite !(proj2 (Z.leb_le _ _)) by lia. simpl. eauto. }
    destruct u; simpl in *; try congruence; try (apply Hadd; rewrite Hk; lia).
    - apply (Hmon (q * k)); auto; [lia|]. replace (q * k + q) with (q * (k + 1)) by lia. auto.
    - apply (Hmon (12 * q * k)); auto; [lia|]. replace (12 * q * k + q * 12) with (12 * q * (k + 1)) by lia. auto. }
  unfold get_frame_end, arrow_shift. rewrite Hw. simpl. destruct u; eauto.
Qed.

(** ** Statements with [good] unfolded *)
Lemma mk_good u q : u <> TICK -> 0 < q -> unit_ok u q -> good u q.
Proof. repeat split; auto. Qed.
Lemma start_total u q dt : u <> TICK -> 0 < q -> unit_ok u q -> WALL_MIN <= ar_wall dt <= WALL_MAX ->
  (u = YEAR -> q <= w_year (ar_wall dt)) -> exists s, get_frame_start u q dt = Ok s.
Proof. intros. apply frame_start_total; auto. now apply mk_good. Qed.
Lemma end_total u q s : u <> TICK -> 0 < q -> unit_ok u q -> boundary u q (ar_wall s) -> WALL_MIN <= ar_wall s ->
  (forall e, next_boundary u q (ar_wall s) e -> e <= WALL_MAX) -> exists e, get_frame_end u q s = Ok e.
Proof. intros. apply frame_end_total; auto. now apply mk_good. Qed.
Lemma arrow_eq a b : ar_utc a = ar_utc b -> ar_wall a = ar_wall b -> ar_tz a = ar_tz b -> a = b.
Proof. destruct a, b; simpl; congruence. Qed.
Lemma start_idem u q dt s s' : u <> TICK -> 0 < q -> unit_ok u q ->
  get_frame_start u q dt = Ok s -> get_frame_start u q s = Ok s' -> s' = s.
Proof.
  intros Hu Hq Hok E1 E2. pose proof (frame_start_idem _ _ _ _ _ (mk_good _ _ Hu Hq Hok) E1 E2) as Ew.
  apply get_frame_start_wall in E1 as (_ & T1 & U1); auto. apply get_frame_start_wall in E2 as (_ & T2 & U2); auto.
  apply arrow_eq; congruence.
Qed.
Lemma start_mono u q d1 d2 s1 s2 : u <> TICK -> 0 < q -> unit_ok u q ->
  get_frame_start u q d1 = Ok s1 -> get_frame_start u q d2 = Ok s2 -> ar_wall d1 <= ar_wall d2 -> ar_wall s1 <= ar_wall s2.
Proof. intros. eapply frame_start_mono; eauto using mk_good. Qed.
Lemma end_next u q s e : u <> TICK -> 0 < q -> unit_ok u q -> no_skip (ar_tz s) ->
  boundary u q (ar_wall s) -> get_frame_end u q s = Ok e ->
  next_boundary u q (ar_wall s) (ar_wall e) /\ ar_tz e = ar_tz s /\ forall s', get_frame_start u q e = Ok s' -> s' = e.
Proof.
  intros Hu Hq Hok Hz Hb E. pose proof (mk_good _ _ Hu Hq Hok) as Hg.
  destruct (frame_end_next _ _ _ _ Hg Hz Hb E) as [H1 H2]. do 2 (split; auto). intros s' E'.
  pose proof (frame_end_is_start _ _ _ _ _ Hg Hz Hb E E') as Ew.
  apply get_frame_start_wall in E' as (_ & T1 & U1); auto.
  apply get_frame_end_inv in E as (w & _ & _ & T2 & U2); auto. apply arrow_eq; congruence.
Qed.
Lemma same_frame u q d1 d2 s1 s2 : u <> TICK -> 0 < q -> unit_ok u q ->
  get_frame_start u q d1 = Ok s1 -> get_frame_start u q d2 = Ok s2 -> ar_wall d1 <= ar_wall d2 ->
  (ar_wall s1 = ar_wall s2 <-> ~ exists b, boundary u q b /\ ar_wall d1 < b <= ar_wall d2).
Proof. intros. eapply same_frame_iff; eauto using mk_good. Qed.
Lemma start_partition u q dt s b e : u <> TICK -> 0 < q -> unit_ok u q -> no_skip (ar_tz dt) ->
  get_frame_start u q dt = Ok s -> boundary u q (ar_wall b) -> ar_tz b = ar_tz dt -> get_frame_end u q b = Ok e ->
  (ar_wall s = ar_wall b <-> ar_wall b <= ar_wall dt < ar_wall e).
Proof. intros. eapply frame_start_iff; eauto using mk_good. Qed.
Lemma start_last_boundary u q dt s : u <> TICK -> 0 < q -> unit_ok u q -> get_frame_start u q dt = Ok s ->
  last_boundary u q (ar_wall dt) (ar_wall s) /\ ar_tz s = ar_tz dt.
Proof. intros. eapply frame_of_dt; eauto using mk_good. Qed.
Lemma tick_start q dt : get_frame_start TICK q dt = Ok dt /\ get_frame_end TICK q dt = Ok dt.
Proof. split; reflexivity. Qed.
Lemma check_unit_any_sign u q : q <> 0 -> (check_unit u q = Ok () <-> unit_ok u (Z.abs q)).
Proof.
  intros Hq. rewrite <- check_unit_spec by lia. unfold check_unit, pymod.
  destruct (unit_quantity_modulo u); [|tauto].
  destruct (Z.eqb_spec q 0); [lia|]. destruct (Z.eqb_spec (Z.abs q) 0); [lia|]. cbn [rbind].
  assert (z mod q = 0 <-> z mod Z.abs q = 0) as E.
  { rewrite !Z.mod_divide by lia. now rewrite Z.divide_abs_l. }
  destruct (Z.eqb_spec (z mod q) 0), (Z.eqb_spec (z mod Z.abs q) 0); try tauto.
Qed.
