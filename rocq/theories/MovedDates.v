(** Dates moved by whole weeks, or whole periods of 400 years (C74). *)
From Verif Require Export SpecMoved SimProofs.
Open Scope Z_scope.

Lemma moved_tod d x : whole_weeks d -> w_tod (x + d) = w_tod x.
Proof. intros [k ->]. unfold w_tod. replace (k * (7 * US_DAY)) with ((k * 7) * US_DAY) by ring. apply Z_mod_plus_full. Qed.
Lemma moved_days d x : whole_weeks d -> w_days (x + d) = w_days x + d / US_DAY.
Proof.
  intros [k ->]. unfold w_days. replace (k * (7 * US_DAY)) with ((k * 7) * US_DAY) by ring. rewrite Z_div_plus_full by (unfold US_DAY, US_HOUR, US_MIN, US_SEC; lia).
  rewrite Z_div_mult_full by (unfold US_DAY, US_HOUR, US_MIN, US_SEC; lia). reflexivity.
Qed.
Lemma moved_weekday d x : whole_weeks d -> w_weekday (x + d) = w_weekday x.
Proof.
  intros Hd. unfold w_weekday. rewrite (moved_days d x Hd). destruct Hd as [k ->]. replace (k * (7 * US_DAY)) with ((k * 7) * US_DAY) by ring.
  rewrite Z_div_mult_full by (unfold US_DAY, US_HOUR, US_MIN, US_SEC; lia). replace (w_days x + k * 7 + 3) with (w_days x + 3 + k * 7) by ring. apply Z_mod_plus_full.
Qed.
Lemma moved_hour d x : whole_weeks d -> w_hour (x + d) = w_hour x. Proof. intros Hd. unfold w_hour. now rewrite moved_tod. Qed.
Lemma moved_minute d x : whole_weeks d -> w_minute (x + d) = w_minute x. Proof. intros Hd. unfold w_minute. now rewrite moved_tod. Qed.
Lemma moved_second d x : whole_weeks d -> w_second (x + d) = w_second x. Proof. intros Hd. unfold w_second. now rewrite moved_tod. Qed.
Lemma moved_micro d x : whole_weeks d -> w_micro (x + d) = w_micro x. Proof. intros Hd. unfold w_micro. now rewrite moved_tod. Qed.
Lemma eras_weeks d k : whole_eras d k -> whole_weeks d.
Proof. intros ->. exists (k * 20871). ring. Qed.
Lemma moved_ymd d k x : whole_eras d k -> w_ymd (x + d) = let '(y, m, a) := w_ymd x in (y + 400 * k, m, a).
Proof.
  intros He. pose proof (eras_weeks d k He) as Hd. unfold w_ymd. rewrite moved_days by auto. rewrite He. replace (k * (146097 * US_DAY)) with ((k * 146097) * US_DAY) by ring.
  rewrite Z_div_mult_full by (unfold US_DAY, US_HOUR, US_MIN, US_SEC; lia). unfold civil_from_days. replace (w_days x + k * 146097 + 719468) with (w_days x + 719468 + k * 146097) by ring.
  cbv zeta. rewrite Z_mod_plus_full, Z_div_plus_full by lia. destruct (civil_of_doe _) as [[y m] a]. f_equal. f_equal. ring.
Qed.
Lemma moved_civil y k m a : days_from_civil (y + 400 * k) m a = days_from_civil y m a + 146097 * k.
Proof.
  unfold days_from_civil. cbv zeta. assert ((if m <=? 2 then y + 400 * k - 1 else y + 400 * k) = (if m <=? 2 then y - 1 else y) + k * 400) as -> by (destruct (m <=? 2); ring).
  rewrite Z_mod_plus_full, Z_div_plus_full by lia. ring.
Qed.
Lemma moved_date y k m a d : whole_eras d k -> w_of_date (y + 400 * k) m a = w_of_date y m a + d.
Proof. intros ->. unfold w_of_date. rewrite moved_civil. ring. Qed.
Lemma moved_dim y k m : days_in_month (y + 400 * k) m = days_in_month y m.
Proof.
  unfold days_in_month, is_leap. replace (y + 400 * k) with (y + (100 * k) * 4) at 1 by ring. rewrite Z_mod_plus_full. replace (y + 400 * k) with (y + (4 * k) * 100) at 1 by ring.
  rewrite Z_mod_plus_full. replace (y + 400 * k) with (y + k * 400) by ring. rewrite Z_mod_plus_full. reflexivity.
Qed.

Section dates.
  Variable d : Z.
  Hypothesis Hd : whole_weeks d.
  Lemma moved_ltb a a' b b' : date_moved d a a' -> date_moved d b b' -> arrow_ltb a' b' = arrow_ltb a b.
  Proof.
    intros [Ua Wa [Ia _ _ _]] [Ub Wb [Ib _ _ _]]. unfold arrow_ltb. rewrite Ua, Ub, Wa, Wb, Ia, Ib. destruct (Nat.eqb _ _).
    - destruct (Z.ltb_spec (ar_wall a) (ar_wall b)); [apply Z.ltb_lt; lia|apply Z.ltb_ge; lia].
    - destruct (Z.ltb_spec (ar_utc a) (ar_utc b)); [apply Z.ltb_lt; lia|apply Z.ltb_ge; lia].
  Qed.
  Lemma moved_to z z' a a' : zone_moved d z z' -> date_moved d a a' -> date_moved d (arrow_to z a) (arrow_to z' a').
  Proof. intros Hz [Ua _ _]. unfold arrow_to, arrow_of_utc. constructor; simpl; auto. rewrite Ua. apply (zm_wall _ _ _ Hz). Qed.
  Lemma moved_of_wall z z' x : zone_moved d z z' -> date_moved d (arrow_of_wall z x) (arrow_of_wall z' (x + d)).
  Proof. intros Hz. unfold arrow_of_wall. constructor; simpl; auto. apply (zm_utc _ _ _ Hz). Qed.
  Lemma moved_sub a a' n s s' : date_moved d a a' -> arrow_sub_td a n = Ok s -> arrow_sub_td a' n = Ok s' -> date_moved d s s'.
  Proof.
    intros [_ Wa Za]. unfold arrow_sub_td, w_add. rewrite Wa. destruct (in_range _); [|discriminate]. destruct (in_range _); [|discriminate]. intros E E'. injection E as <-. injection E' as <-.
    replace (ar_wall a + d + - n) with (ar_wall a + - n + d) by ring. now apply moved_of_wall.
  Qed.
  Lemma moved_start u q a a' s s' : unit_moves d u q -> date_moved d a a' -> get_frame_start u q a = Ok s -> get_frame_start u q a' = Ok s' -> date_moved d s s'.
  Proof.
    intros Hu Ha. pose proof Ha as [_ Wa Za]. unfold get_frame_start. cbv zeta. rewrite Wa. destruct u; simpl in Hu.
    - intros E E'. injection E as <-. injection E' as <-. exact Ha.
    - rewrite !moved_second, !moved_micro by auto. destruct (pymod _ _); [|discriminate]. now apply moved_sub.
    - rewrite !moved_minute, !moved_second, !moved_micro by auto. destruct (pymod _ _); [|discriminate]. now apply moved_sub.
    - rewrite !moved_hour, !moved_minute, !moved_second, !moved_micro by auto. destruct (pymod _ _); [|discriminate]. now apply moved_sub.
    - rewrite !moved_weekday, !moved_hour, !moved_minute, !moved_second, !moved_micro by auto. destruct (pymod _ _); [|discriminate]. now apply moved_sub.
    - rewrite !moved_weekday, !moved_hour, !moved_minute, !moved_second, !moved_micro by auto. now apply moved_sub.
    - destruct Hu as [k Hk]. unfold w_month, w_year. rewrite (moved_ymd d k) by auto. destruct (w_ymd (ar_wall a)) as [[y m] c]. destruct (pymod _ _) as [r|]; [|discriminate].
      unfold w_replace_first. cbn. destruct (_ && _); [|discriminate]. destruct (_ && _); [|discriminate]. intros E E'. injection E as <-. injection E' as <-.
      rewrite (moved_date y k _ _ d) by auto. now apply moved_of_wall.
    - destruct Hu as (k & Hk & Hq). unfold w_month, w_year. rewrite (moved_ymd d k) by auto. destruct (w_ymd (ar_wall a)) as [[y m] c].
      assert (pymod (y + 400 * k) q = pymod y q) as ->. { unfold pymod. destruct (Z.eqb_spec q 0); [auto|]. f_equal. destruct Hq as [j ->]. apply Z_mod_plus_full. }
      destruct (pymod _ _) as [r|]; [|discriminate].
      unfold w_replace_first. cbn. destruct (_ && _); [|discriminate]. destruct (_ && _); [|discriminate]. intros E E'. injection E as <-. injection E' as <-.
      replace (y + 400 * k - r) with (y - r + 400 * k) by ring. rewrite (moved_date (y - r) k _ _ d) by auto. now apply moved_of_wall.
  Qed.
  Lemma moved_months d' k x n s s' : whole_eras d' k -> w_add_months x n = Ok s -> w_add_months (x + d') n = Ok s' -> s' = s + d'.
  Proof.
    intros Hk. unfold w_add_months. rewrite (moved_ymd d' k x Hk), (moved_tod d' x) by (eapply eras_weeks; eauto). destruct (w_ymd x) as [[y m] c]. cbv zeta.
    replace ((y + 400 * k) * 12 + (m - 1) + n) with (y * 12 + (m - 1) + n + (400 * k) * 12) by ring. rewrite Z_mod_plus_full, Z_div_plus_full, moved_dim by lia.
    destruct (_ && _); [|discriminate]. destruct (_ && _); [|discriminate]. intros E E'. injection E as <-. injection E' as <-. rewrite (moved_date _ k _ _ d') by auto. ring.
  Qed.
  Lemma moved_end u q a a' s s' : unit_moves d u q -> date_moved d a a' -> get_frame_end u q a = Ok s -> get_frame_end u q a' = Ok s' -> date_moved d s s'.
  Proof.
    intros Hu Ha. pose proof Ha as [_ Wa Za].
    assert (forall x y, w_shift u q (ar_wall a) = Ok x -> w_shift u q (ar_wall a') = Ok y -> y = x + d) as Hs.
    { rewrite Wa. intros x y. destruct u; cbn [w_shift]; simpl in Hu; unfold w_add; try (destruct (in_range _); [|discriminate]; destruct (in_range _); [|discriminate]; intros E E'; injection E as <-; injection E' as <-; ring).
      - intros E E'. injection E as <-. injection E' as <-. ring.
      - destruct Hu as [k Hk]. now apply (moved_months d k).
      - destruct Hu as (k & Hk & _). now apply (moved_months d k). }
    unfold get_frame_end. assert ((u = TICK) \/ (u <> TICK)) as [->|Hn] by (destruct u; auto; right; discriminate).
    - intros E E'. injection E as <-. injection E' as <-. exact Ha.
    - intros E E'. assert (arrow_shift u q a = Ok s) as E1 by (destruct u; auto; congruence). assert (arrow_shift u q a' = Ok s') as E2 by (destruct u; auto; congruence). clear E E'. unfold arrow_shift in E1, E2.
      destruct (w_shift u q (ar_wall a)) as [x|] eqn:Ex; [|discriminate E1]. destruct (w_shift u q (ar_wall a')) as [y|] eqn:Ey; [|discriminate E2]. injection E1 as <-. injection E2 as <-.
      rewrite (Hs x y) by auto. rewrite (zm_resolve _ _ _ Za). now apply moved_of_wall.
  Qed.
End dates.
