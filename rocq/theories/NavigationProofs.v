(** Proofs about walking between indicator values. *)
From Verif Require Export SpecNavigation IndicatorProofs AverageProofs.
From Verif Require Import FramesProofs IndicatorRunProofs IndicatorFinalProofs.
Open Scope Z_scope.

Global Instance Ok_inj {A} : Inj eq eq (@Ok A).
Proof. intros x y [= E]. exact E. Qed.

Section proofs.
  Context {F : Type} `{Num F}.
  Implicit Types (fs : fset F) (f : frame F).

  Lemma value_at_get fs ref n g : fs_heap fs !! n = Some g ->
    value_at fs ref n = match dict_get (fr_inds g) ref with Some (Some iv) => Some iv | _ => None end.
  Proof. intros E. unfold value_at. now rewrite E. Qed.
  Lemma value_at_lt fs ref n v : value_at fs ref n = Some v -> (n < length (fs_heap fs))%nat.
  Proof. unfold value_at. destruct (fs_heap fs !! n) eqn:E; [|discriminate]. intros _. eapply lookup_lt_Some; eauto. Qed.

  Lemma nav_next mx fs ref k f : 1 <= mx -> fs_reach mx fs -> fs_heap fs !! k = Some f ->
    iv_next (fs_heap fs) f ref = Ok (if (k <? oldest fs)%nat then None else option_map (pair (S k)) (value_at fs ref (S k))).
  Proof.
    intros Hmx Hr Ef. destruct (fs_reach_wf mx fs Hmx Hr) as [[[H1 H2 H3 H4] H5] E]. pose proof (lookup_lt_Some _ _ _ Ef) as Hk.
    unfold iv_next, oldest in *. destruct (Nat.ltb_spec k (length (fs_heap fs) - length (fs_frames fs))) as [Hlt|Hge].
    - destruct (H3 k f Ef Hlt) as [_ ->]. auto.
    - destruct (H4 k f Ef ltac:(lia)) as [_ ->]. rewrite Nat.add_1_r. destruct (Nat.eqb_spec k (length (fs_heap fs) - 1)) as [En|En].
      + unfold value_at. rewrite (lookup_ge_None_2 (fs_heap fs) (S k)) by lia. auto.
      + destruct (lookup_lt_is_Some_2 (fs_heap fs) (S k) ltac:(lia)) as [g Eg]. rewrite Eg, (value_at_get _ _ _ _ Eg).
        destruct (dict_get (fr_inds g) ref) as [[v|]|]; auto.
  Qed.

  Lemma nav_previous mx fs ref k f : 1 <= mx -> fs_reach mx fs -> fs_heap fs !! k = Some f ->
    exists r, previous (fs_heap fs) f ref = Ok r /\ previous_value fs ref k r.
  Proof. intros Hmx Hr Ef. destruct (fs_reach_wf mx fs Hmx Hr) as [W E]. apply previous_at; auto. lia. Qed.

  Lemma nav_next_previous mx fs ref k f v n v' g : 1 <= mx -> fs_reach mx fs -> fs_heap fs !! k = Some f -> value_at fs ref k = Some v ->
    iv_next (fs_heap fs) f ref = Ok (Some (n, v')) -> fs_heap fs !! n = Some g -> previous (fs_heap fs) g ref = Ok (Some (k, v)).
  Proof.
    intros Hmx Hr Ef Hv Hn Eg. rewrite (nav_next mx fs ref k f) in Hn by auto. destruct (Nat.ltb_spec k (oldest fs)) as [|Hge]; [discriminate|].
    destruct (value_at fs ref (S k)) as [x|] eqn:Ex; [|discriminate]. cbn in Hn. apply (inj Ok) in Hn. apply (inj Some) in Hn. injection Hn as <- <-.
    destruct (nav_previous mx fs ref (S k) g Hmx Hr Eg) as (r & -> & Hp). f_equal. unfold previous_value in Hp. destruct r as [[j pv]|].
    - destruct Hp as (Q1 & Q2 & Q3). destruct (Nat.eq_dec j k) as [->|Hne]; [congruence|]. rewrite (Q3 k) in Hv by lia. discriminate.
    - fold (oldest fs) in Hp. rewrite (Hp k) in Hv by lia. discriminate.
  Qed.

  Lemma reach_hist mx (I : indicator F -> Prop) T fs0 fs : fs_reach mx fs0 -> fs_hist I T fs0 fs -> fs_reach mx fs.
  Proof.
    intros H0 Hh. induction Hh as [|fs i Hh IH Hi|fs e Hh IH|fs fuel tk mo lst fs' r Hh IH E HT]; auto.
    - now apply reach_indicator.
    - now apply reach_epic.
    - replace fs' with (fst (fs_on_new_tick fuel fs tk mo lst)) by now rewrite E. now apply reach_tick.
  Qed.

  Lemma nav_previous_next u q ref mx i (T : tick F -> res unit -> Prop) fs0 fs k f v j pv : 1 <= mx -> in_mopen i = false ->
    fset_init u q ref mx = Ok fs0 -> fs_hist (only i) T (fst (add_indicator fs0 i)) fs ->
    fs_heap fs !! k = Some f -> value_at fs (in_ref i) k = Some v -> previous (fs_heap fs) f (in_ref i) = Ok (Some (j, pv)) ->
    S j = k /\ exists g, fs_heap fs !! j = Some g /\ iv_next (fs_heap fs) g (in_ref i) = Ok (Some (k, v)).
  Proof.
    intros Hmx Hmo E0 Hh Ef Hv Hp. pose proof (all_valued u q ref mx i T fs0 fs Hmx Hmo E0 Hh) as Hall.
    assert (fs_reach mx fs) as Hr by (eapply reach_hist; [|exact Hh]; apply reach_indicator; eapply reach_init; eauto).
    destruct (nav_previous mx fs (in_ref i) k f Hmx Hr Ef) as (r & E & Hpv). rewrite Hp in E. apply (inj Ok) in E. subst r. destruct Hpv as (Q1 & Q2 & Q3).
    pose proof (lookup_lt_Some _ _ _ Ef) as Hk.
    assert (S j = k) as Ek. { destruct (Nat.eq_dec (S j) k) as [|Hne]; [auto|]. exfalso. apply (proj2 (Hall (S j)) ltac:(lia)). apply Q3. lia. }
    split; [auto|]. destruct (lookup_lt_is_Some_2 (fs_heap fs) j ltac:(lia)) as [g Eg]. exists g. split; [auto|].
    rewrite (nav_next mx fs (in_ref i) j g) by auto. unfold oldest. rewrite (proj2 (Nat.ltb_ge _ _)) by lia. rewrite Ek, Hv. auto.
  Qed.

  Lemma values_on_app fs ref a n m : values_on fs ref a (n + m) = values_on fs ref a n ++ values_on fs ref (a + n) m.
  Proof. unfold values_on. now rewrite seq_app, omap_app. Qed.
  Lemma values_on_none fs ref a n : (forall j, (a <= j < a + n)%nat -> value_at fs ref j = None) -> values_on fs ref a n = [].
  Proof.
    revert a. induction n as [|n IH]; intros a Hn; [auto|]. unfold values_on. cbn [seq omap list_omap]. rewrite (Hn a) by lia. cbn. apply IH. intros j Hj. apply Hn. lia.
  Qed.

  Lemma nav_back mx fs ref k : 1 <= mx -> fs_reach mx fs -> (oldest fs <= k < length (fs_heap fs))%nat ->
    back fs ref k (reverse (values_on fs ref (oldest fs) (k - oldest fs))).
  Proof.
    intros Hmx Hr. induction (lt_wf k) as [k _ IH]. intros Hk. destruct (lookup_lt_is_Some_2 (fs_heap fs) k ltac:(lia)) as [f Ef].
    destruct (nav_previous mx fs ref k f Hmx Hr Ef) as (r & Er & Hp). destruct r as [[j pv]|].
    - destruct Hp as (Q1 & Q2 & Q3). fold (oldest fs) in Q1.
      assert (k - oldest fs = (j - oldest fs) + (1 + (k - S j)))%nat as -> by lia. rewrite !values_on_app.
      rewrite (values_on_none fs ref (oldest fs + (j - oldest fs) + 1) (k - S j)) by (intros; apply Q3; lia). rewrite app_nil_r.
      assert (oldest fs + (j - oldest fs) = j)%nat as -> by lia. unfold values_on at 2. cbn [seq omap list_omap]. rewrite Q2. cbn [option_map].
      rewrite reverse_app, reverse_singleton. cbn [app]. eapply back_step; eauto. apply IH; lia.
    - rewrite values_on_none; [|intros j Hj; apply Hp; unfold oldest in *; lia]. eapply back_end; eauto.
  Qed.
  Lemma back_unique fs ref k l l' : back fs ref k l -> back fs ref k l' -> l = l'.
  Proof.
    intros Hl. revert l'. induction Hl as [k f Ef Ep|k f j v l Ef Ep Hl IH]; intros l' Hl'; inversion Hl' as [k' f' Ef' Ep'|k' f' j' v' l'' Ef' Ep' Hl'']; subst.
    - auto.
    - rewrite Ef in Ef'. apply (inj Some) in Ef'. subst f'. congruence.
    - rewrite Ef in Ef'. apply (inj Some) in Ef'. subst f'. congruence.
    - rewrite Ef in Ef'. apply (inj Some) in Ef'. subst f'. rewrite Ep in Ep'. apply (inj Ok) in Ep'. apply (inj Some) in Ep'. injection Ep' as <- <-. f_equal. auto.
  Qed.
  Lemma nav_forth mx fs ref k : 1 <= mx -> fs_reach mx fs -> (oldest fs <= k < length (fs_heap fs))%nat ->
    forth fs ref k (run_of fs ref (S k) (length (fs_heap fs) - S k)).
  Proof.
    intros Hmx Hr Hk. remember (length (fs_heap fs) - S k)%nat as n eqn:En. revert k Hk En. induction n as [|n IH]; intros k Hk En;
      destruct (lookup_lt_is_Some_2 (fs_heap fs) k ltac:(lia)) as [f Ef]; pose proof (nav_next mx fs ref k f Hmx Hr Ef) as Hn; rewrite (proj2 (Nat.ltb_ge _ _)) in Hn by lia.
    - cbn. eapply forth_end; eauto. rewrite Hn. assert (value_at fs ref (S k) = None) as -> by (unfold value_at; rewrite (lookup_ge_None_2 (fs_heap fs) (S k)) by lia; auto). auto.
    - cbn [run_of]. destruct (value_at fs ref (S k)) as [v|] eqn:Ev.
      + eapply forth_step; eauto. apply IH; lia.
      + eapply forth_end; eauto.
  Qed.
  Lemma forth_unique fs ref k l l' : forth fs ref k l -> forth fs ref k l' -> l = l'.
  Proof.
    intros Hl. revert l'. induction Hl as [k f Ef Ep|k f j v l Ef Ep Hl IH]; intros l' Hl'; inversion Hl' as [k' f' Ef' Ep'|k' f' j' v' l'' Ef' Ep' Hl'']; subst.
    - auto.
    - rewrite Ef in Ef'. apply (inj Some) in Ef'. subst f'. congruence.
    - rewrite Ef in Ef'. apply (inj Some) in Ef'. subst f'. congruence.
    - rewrite Ef in Ef'. apply (inj Some) in Ef'. subst f'. rewrite Ep in Ep'. apply (inj Ok) in Ep'. apply (inj Some) in Ep'. injection Ep' as <- <-. f_equal. auto.
  Qed.
  Lemma nav_walks mx fs ref k : 1 <= mx -> fs_reach mx fs -> (oldest fs <= k < length (fs_heap fs))%nat ->
    (forall l, back fs ref k l <-> l = reverse (values_on fs ref (oldest fs) (k - oldest fs))) /\
    (forall l, forth fs ref k l <-> l = run_of fs ref (S k) (length (fs_heap fs) - S k)).
  Proof.
    intros Hmx Hr Hk. split; intros l; (split; [intros Hl|intros ->]).
    - eapply back_unique; eauto. eapply nav_back; eauto.
    - eapply nav_back; eauto.
    - eapply forth_unique; eauto. eapply nav_forth; eauto.
    - eapply nav_forth; eauto.
  Qed.
  Lemma nav_evicted mx fs ref k f : 1 <= mx -> fs_reach mx fs -> fs_heap fs !! k = Some f -> (k < oldest fs)%nat ->
    previous (fs_heap fs) f ref = Ok None /\ iv_next (fs_heap fs) f ref = Ok None /\ iv_closed f = false.
  Proof.
    intros Hmx Hr Ef Hk. destruct (fs_reach_wf mx fs Hmx Hr) as [[[H1 H2 H3 H4] H5] E]. destruct (H3 k f Ef Hk) as [Hp Hn].
    unfold previous, iv_next, iv_closed, frame_closed. rewrite Hp, Hn. auto.
  Qed.
  Lemma nav_closed mx fs k f : 1 <= mx -> fs_reach mx fs -> fs_heap fs !! k = Some f -> (oldest fs <= k)%nat ->
    (iv_closed f = true <-> S k <> length (fs_heap fs)).
  Proof.
    intros Hmx Hr Ef Hk. pose proof (lookup_lt_Some _ _ _ Ef) as Hlt. destruct (fs_reach_wf mx fs Hmx Hr) as [[[H1 H2 H3 H4] H5] E]. unfold oldest in Hk.
    destruct (H4 k f Ef ltac:(lia)) as [_ Hn].
    unfold iv_closed, frame_closed. rewrite Hn. destruct (Nat.eqb_spec k (length (fs_heap fs) - 1)); split; intros; try congruence; try lia; auto.
  Qed.
End proofs.
