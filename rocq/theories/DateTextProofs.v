(** Texts of dates and integers. *)
From Coq Require Import Ascii DecimalString DecimalZ.
From Verif Require Import ReportProofs CalendarProofs CsvProofs.
Open Scope Z_scope.

(** *** Digits *)
Lemma digit_char n : 0 <= n < 10 -> Z.of_N (N_of_ascii (ascii_of_N (48 + Z.to_N n))) = 48 + n.
Proof. intros Hn. rewrite N_ascii_embedding by lia. lia. Qed.
Lemma digits_digit n acc s : 0 <= n < 10 -> digits acc (digit n ++ s) = digits (10 * acc + n) s.
Proof.
  intros Hn. unfold digit. rewrite append_cons, append_nil. cbn [digits]. unfold digit_value. rewrite digit_char by exact Hn.
  destruct ((48 <=? 48 + n) && (48 + n <=? 57)) eqn:E; [f_equal; lia|]. apply andb_false_iff in E as [E|E]; apply Z.leb_gt in E; lia.
Qed.
Lemma div10 n : 0 <= n < 100 -> 0 <= n / 10 < 10 /\ 0 <= n mod 10 < 10 /\ n = 10 * (n / 10) + n mod 10.
Proof. intros Hn. pose proof (Z.mod_pos_bound n 10). pose proof (Z.div_mod n 10). nia. Qed.
Lemma digits_pad2 n acc s : 0 <= n < 100 -> digits acc (pad2 n ++ s) = digits (100 * acc + n) s.
Proof.
  intros Hn. destruct (div10 n Hn) as (H1 & H2 & H3). unfold pad2. rewrite str_app_assoc, !digits_digit by assumption. f_equal. lia.
Qed.
Lemma decimal_pad2 n : 0 <= n < 100 -> decimal (pad2 n) = Some n.
Proof.
  intros Hn. change (decimal (pad2 n)) with (digits 0 (pad2 n)). rewrite <- (str_app_nil_r (pad2 n)). rewrite digits_pad2 by exact Hn. reflexivity.
Qed.
Lemma div100 n : 0 <= n < 10000 -> 0 <= n / 100 < 100 /\ 0 <= n mod 100 < 100 /\ n = 100 * (n / 100) + n mod 100.
Proof. intros Hn. pose proof (Z.mod_pos_bound n 100). pose proof (Z.div_mod n 100). nia. Qed.
Lemma decimal_pad4 n : 0 <= n < 10000 -> decimal (pad4 n) = Some n.
Proof.
  intros Hn. destruct (div100 n Hn) as (H1 & H2 & H3). change (decimal (pad4 n)) with (digits 0 (pad4 n)). unfold pad4.
  rewrite digits_pad2 by assumption. rewrite <- (str_app_nil_r (pad2 (n mod 100))). rewrite digits_pad2 by assumption. simpl. f_equal. lia.
Qed.
Lemma length_pad2 n : String.length (pad2 n) = 2%nat.
Proof. reflexivity. Qed.
Lemma length_pad4 n : String.length (pad4 n) = 4%nat.
Proof. reflexivity. Qed.

(** *** Integers *)
Lemma digits_acc d : forall p, digits (Zpos p) (NilEmpty.string_of_uint d) = Some (Zpos (Pos.of_uint_acc d p)).
Proof.
  induction d as [|d IH|d IH|d IH|d IH|d IH|d IH|d IH|d IH|d IH|d IH]; intros p; [reflexivity| | | | | | | | | |];
    cbn [NilEmpty.string_of_uint Pos.of_uint_acc digits digit_value]; cbn -[Z.mul Pos.mul Pos.of_uint_acc NilEmpty.string_of_uint digits Pos.add Z.add];
    rewrite <- IH; f_equal; rewrite ?(Pos2Z.inj_add), ?Pos2Z.inj_mul;
    match goal with |- context [Z.of_N ?n] => let v := eval vm_compute in (Z.of_N n) in change (Z.of_N n) with v end; lia.
Qed.
Lemma digits_uint d : digits 0 (NilEmpty.string_of_uint d) = Some (Z.of_N (Pos.of_uint d)).
Proof.
  induction d as [|d IH|d IH|d IH|d IH|d IH|d IH|d IH|d IH|d IH|d IH]; [reflexivity|exact IH| | | | | | | | |];
    cbn [NilEmpty.string_of_uint Pos.of_uint digits digit_value]; cbn -[Pos.of_uint_acc NilEmpty.string_of_uint digits]; apply digits_acc.
Qed.
Lemma decimal_uint d : decimal (NilZero.string_of_uint d) = Some (Z.of_N (Pos.of_uint d)).
Proof. destruct d; [reflexivity|..]; apply digits_uint. Qed.
Lemma no_minus d : forall s, NilZero.string_of_uint d = s -> match s with String c _ => Ascii.eqb c "-" = false | EmptyString => False end.
Proof. intros s <-. destruct d; reflexivity. Qed.
Lemma integer_text z : integer (int_text z) = Some z.
Proof.
  unfold int_text. rewrite <- (of_to z) at 2. destruct (Z.to_int z) as [d|d]; cbn [NilZero.string_of_int Z.of_int].
  - pose proof (no_minus d _ eq_refl) as Hm. destruct (NilZero.string_of_uint d) as [|c s] eqn:E; [destruct Hm|]. cbn [integer]. rewrite Hm.
    rewrite <- E. apply decimal_uint.
  - cbn [integer]. simpl Ascii.eqb. cbn iota. rewrite decimal_uint. reflexivity.
Qed.
Lemma int_text_inj a b : int_text a = int_text b -> a = b.
Proof. intros E. apply (f_equal integer) in E. rewrite !integer_text in E. congruence. Qed.

(** *** Fields of a wall clock *)
Lemma hms w : let s := (w / 1000000) mod 86400 in
  w_hour w = s / 3600 /\ w_minute w = (s / 60) mod 60 /\ w_second w = s mod 60 /\ 0 <= s < 86400 /\
  0 <= w_hour w < 24 /\ 0 <= w_minute w < 60 /\ 0 <= w_second w < 60 /\ s = w_hour w * 3600 + w_minute w * 60 + w_second w.
Proof.
  cbv zeta. assert (w_tod w / 1000000 = (w / 1000000) mod 86400) as E.
  { unfold w_tod, US_DAY, US_HOUR, US_MIN, US_SEC. change (24 * (60 * (60 * 1000000))) with (1000000 * 86400). rewrite Z.rem_mul_r by lia.
    rewrite Z.mul_comm, Z_div_plus_full by lia. rewrite (Z.div_small (w mod 1000000)); [lia|]. apply Z.mod_pos_bound. lia. }
  assert (w_hour w = (w_tod w / 1000000) / 3600) as E1 by (unfold w_hour, US_HOUR, US_MIN, US_SEC; rewrite Z.div_div by lia; reflexivity).
  assert (w_minute w = ((w_tod w / 1000000) / 60) mod 60) as E2 by (unfold w_minute, US_MIN, US_SEC; rewrite Z.div_div by lia; reflexivity).
  assert (w_second w = (w_tod w / 1000000) mod 60) as E3 by reflexivity.
  rewrite E in E1, E2, E3. pose proof (Z.mod_pos_bound (w / 1000000) 86400 ltac:(lia)) as Hb. set (s := (w / 1000000) mod 86400) in *. rewrite E1, E2, E3.
  pose proof (Z.div_mod s 60 ltac:(lia)). pose proof (Z.mod_pos_bound s 60 ltac:(lia)). pose proof (Z.div_mod (s / 60) 60 ltac:(lia)).
  pose proof (Z.mod_pos_bound (s / 60) 60 ltac:(lia)). assert (s / 60 / 60 = s / 3600) as Ed by (rewrite Z.div_div by lia; reflexivity).
  rewrite Ed in *. repeat split; try lia.
Qed.
Lemma date_fields w : exists y mo d, date_of (w / (86400 * 1000000)) (y, mo, d) /\ w_year w = y /\ w_month w = mo /\ w_day w = d /\ 1 <= mo <= 12 /\ 1 <= d <= 31.
Proof.
  unfold w_year, w_month, w_day, w_ymd, w_days. change US_DAY with (86400 * 1000000). pose proof (civil_valid (w / (86400 * 1000000))) as Hv.
  destruct (civil_from_days (w / (86400 * 1000000))) as [[y mo] d] eqn:E. exists y, mo, d. destruct Hv as [H1 H2]. pose proof (days_in_month_pos y mo).
  split; [now apply date_of_civil|]. repeat split; lia.
Qed.
Lemma representable_year w : representable w <-> 1 <= w_year w <= 9999.
Proof.
  destruct (date_fields w) as (y & mo & d & Hd & <- & _). split.
  - intros (y' & mo' & d' & Hd' & Hy). apply date_of_civil in Hd, Hd'. congruence.
  - intros Hy. exists (w_year w), mo, d. auto.
Qed.
Lemma date_text_shows sep w : representable w -> shows sep (date_text sep w) w.
Proof.
  intros Hr. apply representable_year in Hr. destruct (date_fields w) as (y & mo & d & Hd & <- & <- & <- & Hmo & Hdd).
  pose proof (hms w) as Hs. cbv zeta in Hs. destruct Hs as (_ & _ & _ & _ & Hh & Hmi & Hs & E).
  exists (w_year w), (w_month w), (w_day w), (w_hour w), (w_minute w), (w_second w). split; [|split; [exact Hd|split; [exact E|split; assumption]]].
  exists (pad4 (w_year w)), (pad2 (w_month w)), (pad2 (w_day w)), (pad2 (w_hour w)), (pad2 (w_minute w)), (pad2 (w_second w)).
  split; [reflexivity|]. split; [apply length_pad4|]. split; [repeat constructor|].
  rewrite decimal_pad4 by lia. rewrite !decimal_pad2 by lia. repeat split.
Qed.

(** *** The order of texts *)
Definition andcmp (a b : comparison) : comparison := match a with Eq => b | _ => a end.
Lemma andcmp_assoc a b c : andcmp (andcmp a b) c = andcmp a (andcmp b c).
Proof. now destruct a. Qed.
Lemma cmp_app a : forall b c d, String.length a = String.length b -> String.compare (a ++ c) (b ++ d) = andcmp (String.compare a b) (String.compare c d).
Proof.
  induction a as [|x a IH]; intros [|y b] c d Hl; try discriminate Hl; [reflexivity|]. rewrite !append_cons. cbn [String.compare].
  rewrite IH; [|simpl in Hl; lia]. destruct (Ascii.compare x y); reflexivity.
Qed.
Lemma cmp_refl a : String.compare a a = Eq.
Proof. induction a as [|x a IH]; [reflexivity|]. cbn [String.compare]. unfold Ascii.compare. now rewrite N.compare_refl. Qed.
Lemma cmp_same a c d : String.compare (a ++ c) (a ++ d) = String.compare c d.
Proof. rewrite cmp_app by reflexivity. now rewrite cmp_refl. Qed.
Lemma cmp_digit n m : 0 <= n < 10 -> 0 <= m < 10 -> String.compare (digit n) (digit m) = (n ?= m).
Proof.
  intros Hn Hm. unfold digit. cbn [String.compare]. unfold Ascii.compare. rewrite !N_ascii_embedding by lia.
  assert ((48 + Z.to_N n ?= 48 + Z.to_N m)%N = (n ?= m)) as ->.
  { destruct (Z.compare_spec n m); [apply N.compare_eq_iff|apply N.compare_lt_iff|apply N.compare_gt_iff]; lia. }
  now destruct (n ?= m).
Qed.
(** Comparing quotients, then remainders. *)
Lemma cmp_divmod k q r q' r' : 0 <= r < k -> 0 <= r' < k -> andcmp (q ?= q') (r ?= r') = (k * q + r ?= k * q' + r').
Proof.
  intros Hr Hr'. destruct (Z.compare_spec q q') as [->|Hl|Hl]; cbn [andcmp].
  - destruct (Z.compare_spec r r'); symmetry; [apply Z.compare_eq_iff|apply Z.compare_lt_iff|apply Z.compare_gt_iff]; lia.
  - symmetry. apply Z.compare_lt_iff. nia.
  - symmetry. apply Z.compare_gt_iff. nia.
Qed.
Lemma cmp_pad2 n m : 0 <= n < 100 -> 0 <= m < 100 -> String.compare (pad2 n) (pad2 m) = (n ?= m).
Proof.
  intros Hn Hm. destruct (div10 n Hn) as (H1 & H2 & H3). destruct (div10 m Hm) as (H4 & H5 & H6). unfold pad2.
  rewrite cmp_app by reflexivity. rewrite !cmp_digit by assumption. rewrite (cmp_divmod 10) by assumption. now rewrite <- H3, <- H6.
Qed.
Lemma cmp_pad4 n m : 0 <= n < 10000 -> 0 <= m < 10000 -> String.compare (pad4 n) (pad4 m) = (n ?= m).
Proof.
  intros Hn Hm. destruct (div100 n Hn) as (H1 & H2 & H3). destruct (div100 m Hm) as (H4 & H5 & H6). unfold pad4.
  rewrite cmp_app by reflexivity. rewrite !cmp_pad2 by assumption. rewrite (cmp_divmod 100) by assumption. now rewrite <- H3, <- H6.
Qed.
Lemma cmp_days a b : let '(y, m, d) := civil_from_days a in let '(y', m', d') := civil_from_days b in
  andcmp (y ?= y') (andcmp (m ?= m') (d ?= d')) = (a ?= b).
Proof.
  destruct (civil_from_days a) as [[y m] d] eqn:Ea. destruct (civil_from_days b) as [[y' m'] d'] eqn:Eb.
  pose proof (civil_month _ _ _ _ Ea) as Ha. pose proof (civil_month _ _ _ _ Eb) as Hb. cbv zeta in Ha, Hb.
  destruct Ha as (Hm & _ & Hz & Hr). destruct Hb as (Hm' & _ & Hz' & Hr').
  assert (andcmp (y ?= y') (m ?= m') = (12 * y + (m - 1) ?= 12 * y' + (m' - 1))) as E.
  { rewrite <- cmp_divmod by lia. f_equal. destruct (Z.compare_spec m m'); symmetry; [apply Z.compare_eq_iff|apply Z.compare_lt_iff|apply Z.compare_gt_iff]; lia. }
  rewrite <- andcmp_assoc, E. set (t := 12 * y + (m - 1)) in *. set (t' := 12 * y' + (m' - 1)) in *. clearbody t t'.
  destruct (Z.compare_spec t t') as [Et|Hl|Hl]; cbn [andcmp].
  - subst t'. destruct (Z.compare_spec d d'); symmetry; [apply Z.compare_eq_iff|apply Z.compare_lt_iff|apply Z.compare_gt_iff]; lia.
  - symmetry. apply Z.compare_lt_iff. destruct (Z.eq_dec (t + 1) t') as [Et|Hn]; [subst t'; lia|]. pose proof (month_first_mono (t + 1) t' ltac:(lia)). lia.
  - symmetry. apply Z.compare_gt_iff. destruct (Z.eq_dec (t' + 1) t) as [Et|Hn]; [subst t; lia|]. pose proof (month_first_mono (t' + 1) t ltac:(lia)). lia.
Qed.
Lemma cmp_time a b : String.compare (time_text a) (time_text b) = ((a / 1000000) mod 86400 ?= (b / 1000000) mod 86400).
Proof.
  pose proof (hms a) as Ha. pose proof (hms b) as Hb. cbv zeta in Ha, Hb. destruct Ha as (_ & _ & _ & _ & H1 & H2 & H3 & ->). destruct Hb as (_ & _ & _ & _ & H4 & H5 & H6 & ->).
  unfold time_text. rewrite cmp_app by reflexivity. rewrite cmp_same, cmp_app by reflexivity. rewrite cmp_same. rewrite !cmp_pad2 by lia.
  rewrite (cmp_divmod 60 (w_minute a)), (cmp_divmod 3600) by lia. f_equal; lia.
Qed.
Lemma cmp_dates sep a b : representable a -> representable b -> String.compare (date_text sep a) (date_text sep b) = (a / 1000000 ?= b / 1000000).
Proof.
  intros Ha Hb. apply representable_year in Ha, Hb. destruct (date_fields a) as (ya & ma & da & _ & Ey & Em & Ed & H1 & H2).
  destruct (date_fields b) as (yb & mb & db & _ & Ey' & Em' & Ed' & H3 & H4).
  unfold date_text. rewrite cmp_app by reflexivity. rewrite cmp_same, cmp_app by reflexivity. rewrite cmp_same, cmp_app by reflexivity. rewrite cmp_same.
  rewrite cmp_pad4, !cmp_pad2, cmp_time by lia. rewrite <- andcmp_assoc, <- andcmp_assoc, (andcmp_assoc (_ ?= _)).
  assert (andcmp (w_year a ?= w_year b) (andcmp (w_month a ?= w_month b) (w_day a ?= w_day b)) = (a / 1000000 / 86400 ?= b / 1000000 / 86400)) as ->.
  { rewrite !Z.div_div by lia. change (1000000 * 86400) with US_DAY. change (a / US_DAY) with (w_days a). change (b / US_DAY) with (w_days b).
    pose proof (cmp_days (w_days a) (w_days b)) as Hc. unfold w_year, w_month, w_day, w_ymd in *.
    destruct (civil_from_days (w_days a)) as [[? ?] ?]. now destruct (civil_from_days (w_days b)) as [[? ?] ?]. }
  rewrite (cmp_divmod 86400) by (apply Z.mod_pos_bound; lia). rewrite <- !Z.div_mod by lia. reflexivity.
Qed.
Lemma date_text_inj sep a b : representable a -> representable b -> date_text sep a = date_text sep b -> a / 1000000 = b / 1000000.
Proof. intros Ha Hb E. apply Z.compare_eq_iff. rewrite <- (cmp_dates sep) by assumption. rewrite E. apply cmp_refl. Qed.
Lemma date_text_second sep a b : a / 1000000 = b / 1000000 -> date_text sep a = date_text sep b.
Proof.
  intros E. pose proof (hms a) as Ha. pose proof (hms b) as Hb. cbv zeta in Ha, Hb. destruct Ha as (A1 & A2 & A3 & _). destruct Hb as (B1 & B2 & B3 & _).
  rewrite E in A1, A2, A3. unfold date_text, time_text. rewrite A1, A2, A3, B1, B2, B3.
  assert (w_days a = w_days b) as Ed. { unfold w_days. change US_DAY with (1000000 * 86400). rewrite <- !Z.div_div by lia. now rewrite E. }
  unfold w_year, w_month, w_day, w_ymd. now rewrite Ed.
Qed.

(** *** strftime *)
Lemma years_swept : all_range 9000 1000 (fun y => String.eqb (int_text y) (pad4 y)) = true.
Proof. vm_compute. reflexivity. Qed.
Lemma strftime_date w : 1000 <= w_year w <= 9999 -> strftime_text w = date_text " " w.
Proof.
  intros Hy. pose proof (all_range_spec _ _ _ years_swept (w_year w) ltac:(lia)) as E. apply String.eqb_eq in E.
  unfold strftime_text, date_text. now rewrite E.
Qed.
