From Verif Require Export TimeframeProofs SpecFrames.
Open Scope Z_scope.

(** ** [ploop] *)
Section ploop.
  Context {S R : Type} (step : S -> S + R).
  Definition pstep (s s' : S) : Prop := step s = inl s'.
  Lemma ploop_inl p s s' : ploop p step s = inl s' -> nsteps pstep (Pos.to_nat p) s s'.
  Proof.
    revert s s'. induction p as [p IH|p IH|]; intros s s'; simpl.
    - destruct (step s) as [s1|r] eqn:E; [|discriminate].
      destruct (ploop p step s1) as [s2|r] eqn:E2; [|discriminate]. intros E3.
      rewrite Pos2Nat.inj_xI. replace (Datatypes.S (2 * Pos.to_nat p)) with (Datatypes.S (Pos.to_nat p + Pos.to_nat p)) by lia.
      econstructor; [exact E|]. eapply nsteps_trans; eauto.
    - destruct (ploop p step s) as [s2|r] eqn:E2; [|discriminate]. intros E3.
      rewrite Pos2Nat.inj_xO. replace (2 * Pos.to_nat p)%nat with (Pos.to_nat p + Pos.to_nat p)%nat by lia.
      eapply nsteps_trans; eauto.
    - intros E. change (Pos.to_nat 1) with 1%nat. now apply nsteps_once.
  Qed.
  Lemma ploop_inr p s r : ploop p step s = inr r ->
    exists n s', (n < Pos.to_nat p)%nat /\ nsteps pstep n s s' /\ step s' = inr r.
  Proof.
    revert s. induction p as [p IH|p IH|]; intros s; simpl.
    - destruct (step s) as [s1|r'] eqn:E.
      + destruct (ploop p step s1) as [s2|r'] eqn:E2.
        * intros E3. destruct (IH _ E3) as (n & s' & Hn & Hs & Hr). apply ploop_inl in E2.
          exists (Datatypes.S (Pos.to_nat p + n))%nat, s'. split; [lia|]. split; auto.
          econstructor; [exact E|]. eapply nsteps_trans; eauto.
        * intros [= ->]. destruct (IH _ E2) as (n & s' & Hn & Hs & Hr).
          exists (Datatypes.S n), s'. split; [lia|]. split; auto. econstructor; eauto.
      + intros [= ->]. exists 0%nat, s. split; [lia|]. split; [constructor|auto].
    - destruct (ploop p step s) as [s2|r'] eqn:E2.
      + intros E3. destruct (IH _ E3) as (n & s' & Hn & Hs & Hr). apply ploop_inl in E2.
        exists (Pos.to_nat p + n)%nat, s'. split; [lia|]. split; auto. eapply nsteps_trans; eauto.
      + intros [= ->]. destruct (IH _ E2) as (n & s' & Hn & Hs & Hr). exists n, s'. split; [lia|auto].
    - intros E. exists 0%nat, s. split; [lia|]. split; [constructor|auto].
  Qed.
  Lemma nsteps_inv (P : S -> Prop) : (forall s s', P s -> step s = inl s' -> P s') ->
    forall n s s', nsteps pstep n s s' -> P s -> P s'.
  Proof. intros HP n s s' Hs. induction Hs; eauto. Qed.
  Lemma ploop_ind (P : S -> Prop) (Q : R -> Prop) p s :
    (forall s s', P s -> step s = inl s' -> P s') -> (forall s r, P s -> step s = inr r -> Q r) ->
    P s -> match ploop p step s with inl s' => P s' | inr r => Q r end.
  Proof.
    intros H1 H2 HP. destruct (ploop p step s) as [s'|r] eqn:E.
    - apply ploop_inl in E. eapply nsteps_inv; eauto.
    - apply ploop_inr in E as (n & s' & _ & Hs & Hr). eapply H2; [|exact Hr]. eapply nsteps_inv; eauto.
  Qed.
  (** More fuel does not change a finished loop. *)
  Lemma nsteps_fun n s a b : nsteps pstep n s a -> nsteps pstep n s b -> a = b.
  Proof.
    intros Ha. revert b. induction Ha as [x|n x y z Hxy Hyz IH]; intros b Hb; inversion Hb; subst; auto.
    apply IH. unfold pstep in *. congruence.
  Qed.
  Lemma nsteps_split n m s b : nsteps pstep (n + m) s b -> exists a, nsteps pstep n s a /\ nsteps pstep m a b.
  Proof.
    revert s. induction n as [|n IH]; intros s Hs; simpl in Hs; [exists s; split; [constructor|auto]|].
    inversion Hs; subst. destruct (IH _ H1) as (a & Ha & Hb). exists a. split; auto. econstructor; eauto.
  Qed.
  Lemma nsteps_stuck n m s a b r : nsteps pstep n s a -> step a = inr r -> nsteps pstep m s b -> (m <= n)%nat.
  Proof.
    intros Ha Hr Hb. destruct (Nat.le_gt_cases m n) as [|L]; auto. exfalso.
    replace m with (n + (1 + (m - n - 1)))%nat in Hb by lia. apply nsteps_split in Hb as (a' & Ha' & Hb).
    rewrite (nsteps_fun _ _ _ _ Ha' Ha) in Hb. inversion Hb; subst. unfold pstep in *. congruence.
  Qed.
  Lemma ploop_done p n s a r : nsteps pstep n s a -> step a = inr r -> (n < Pos.to_nat p)%nat -> ploop p step s = inr r.
  Proof.
    intros Hs Hr Hn. destruct (ploop p step s) as [b|r'] eqn:E.
    - apply ploop_inl in E. pose proof (nsteps_stuck _ _ _ _ _ _ Hs Hr E). lia.
    - apply ploop_inr in E as (n' & a' & _ & Hs' & Hr').
      pose proof (nsteps_stuck _ _ _ _ _ _ Hs Hr Hs'). pose proof (nsteps_stuck _ _ _ _ _ _ Hs' Hr' Hs).
      assert (n = n') as -> by lia. rewrite (nsteps_fun _ _ _ _ Hs Hs') in Hr. congruence.
  Qed.
  Lemma ploop_measure (P : S -> Prop) (m : S -> Z) p s :
    (forall s s', P s -> step s = inl s' -> P s' /\ m s' + 1 <= m s) ->
    (forall s s', P s -> step s = inl s' -> 0 < m s) ->
    P s -> m s < Zpos p -> exists r, ploop p step s = inr r.
  Proof.
    intros H1 H2 HP Hm. destruct (ploop p step s) as [s'|r] eqn:E; [|eauto]. exfalso.
    apply ploop_inl in E.
    assert (forall n s s', nsteps pstep n s s' -> P s -> n <> 0%nat -> Z.of_nat n <= m s) as Hn.
    { intros n. induction n as [|n IH]; intros x y Hs Hx Hz; [lia|]. inversion Hs as [|? ? z ? Hz1 Hz2]; subst.
      destruct (H1 _ _ Hx Hz1) as [Hpz Hmz]. pose proof (H2 _ _ Hx Hz1).
      destruct n as [|n]; [lia|]. specialize (IH _ _ Hz2 Hpz ltac:(lia)). lia. }
    specialize (Hn _ _ _ E HP ltac:(lia)). lia.
  Qed.
End ploop.

Section frames_proofs.
  Context {F : Type} `{Num F}.
  Implicit Types fs : fset F.
  Implicit Types f : frame F.

  (** ** Content of frames apart from links and indicator values *)
  Record bar := { b_first : tick F; b_high : tick F; b_low : tick F; b_last : tick F;
                  b_start : arrow; b_end : option arrow; b_nb : Z }.
  Definition bar_of f : bar := {| b_first := fr_first f; b_high := fr_high f; b_low := fr_low f; b_last := fr_last f;
                                  b_start := fr_start f; b_end := fr_end f; b_nb := fr_nb f |}.
  Definition bars fs : list bar := bar_of <$> fs_heap fs.
  Definition bar_new (t : tick F) s e : bar :=
    {| b_first := t; b_high := t; b_low := t; b_last := t; b_start := s; b_end := e; b_nb := 1 |}.
  Definition bar_tick (b : bar) (t : tick F) : bar :=
    {| b_first := b_first b;
       b_high := if fltb (tk_value (b_high b)) (tk_value t) then t else b_high b;
       b_low := if fltb (tk_value (b_high b)) (tk_value t) then b_low b
                else if fltb (tk_value t) (tk_value (b_low b)) then t else b_low b;
       b_last := t; b_start := b_start b; b_end := b_end b; b_nb := b_nb b + 1 |}.

  Lemma upsert_only_inds h f tk mo inds f' r : upsert h f tk mo inds = (f', r) -> f' = fr_set_inds f (fr_inds f').
  Proof.
    revert f. induction inds as [|[ref i] inds IH]; intros f; simpl.
    - intros [= <- <-]. now destruct f.
    - destruct (dict_get (fr_inds f) ref) as [[iv|]|].
      + destruct (iv_on_new_tick _ _ _ _ _); [|intros [= <- <-]; now destruct f].
        intros E. apply IH in E. exact E.
      + destruct (build_value _ _ _ _); [|intros [= <- <-]; now destruct f]. intros E. apply IH in E. exact E.
      + destruct (build_value _ _ _ _); [|intros [= <- <-]; now destruct f]. intros E. apply IH in E. exact E.
  Qed.

  (** ** Links *)
  Record linked (h : heap F) (l : list nat) : Prop := {
    lk_len : (length l <= length h)%nat;
    lk_mem : l = seq (length h - length l) (length l);
    lk_old : forall i f, h !! i = Some f -> (i < length h - length l)%nat -> fr_prev f = None /\ fr_next f = None;
    lk_new : forall i f, h !! i = Some f -> (length h - length l <= i)%nat ->
      fr_prev f = (if Nat.eqb i (length h - length l) then None else Some (i - 1)%nat) /\
      fr_next f = (if Nat.eqb i (length h - 1) then None else Some (i + 1)%nat) }.

  Lemma alter_bars g i (h : heap F) : (forall f, bar_of (g f) = bar_of f) -> (bar_of <$> alter g i h) = (bar_of <$> h).
  Proof.
    intros Hg. apply list_eq. intros j. rewrite !list_lookup_fmap.
    destruct (Nat.eq_dec i j) as [->|Hne].
    - rewrite list_lookup_alter. destruct (h !! j); simpl; [now rewrite Hg|auto].
    - now rewrite list_lookup_alter_ne.
  Qed.

  Lemma clean_spec mx h l h' l' r : 1 <= mx -> linked h l -> l <> [] ->
    clean_old_frames mx h l = (h', l', r) ->
    r = Ok () /\ linked h' l' /\ length h' = length h /\ (bar_of <$> h' = bar_of <$> h) /\
    l' = drop (length l - Z.to_nat mx) l /\ (forall i f, h' !! i = Some f -> exists f0, h !! i = Some f0 /\ fr_inds f = fr_inds f0).
  Proof.
    intros Hmx. revert h. induction l as [|a l IH]; intros h Hl Hne; [congruence|]. simpl clean_old_frames.
    destruct (Z.leb_spec (Z.of_nat (S (length l))) mx) as [L|L].
    - intros [= <- <- <-]. split; auto. split; auto. split; auto. split; auto. split; [|eauto].
      replace (length (a :: l) - Z.to_nat mx)%nat with 0%nat by (simpl; lia). reflexivity.
    - destruct l as [|b l]; [simpl in L; lia|]. intros E.
      assert (linked (alter (fun f => fr_set_next f None) a (alter (fun f => fr_set_prev f None) b h)) (b :: l)) as Hl'.
      { destruct Hl as [H1 H2 H3 H4]. set (n := length h) in *. simpl length in *.
        assert (a = (n - S (S (length l)))%nat /\ b :: l = seq (S (n - S (S (length l)))) (S (length l))) as [Ha Hb].
        { simpl in H2. injection H2 as H2a H2b H2c. split; auto. simpl. congruence. }
        assert (b = (n - S (length l))%nat) as Hb' by (injection Hb as Hb _; lia).
        assert (length (alter (fun f => fr_set_next f None) a (alter (fun f => fr_set_prev f None) b h)) = n) as Hn
          by (now rewrite !alter_length).
        split; rewrite ?Hn; simpl length.
        - lia.
        - rewrite Hb. f_equal. lia.
        - intros i f Hi Hlt. destruct (Nat.eq_dec i a) as [->|Hia].
          + rewrite list_lookup_alter in Hi. rewrite list_lookup_alter_ne in Hi by lia.
            destruct (h !! a) as [f0|] eqn:Ef; [|discriminate]. injection Hi as <-. simpl.
            destruct (H4 a f0 Ef ltac:(lia)) as [Hp _]. rewrite Ha, Nat.eqb_refl in Hp. auto.
          + rewrite list_lookup_alter_ne in Hi by lia. rewrite list_lookup_alter_ne in Hi by lia. apply (H3 i); auto. lia.
        - intros i f Hi Hge. rewrite list_lookup_alter_ne in Hi by lia.
          destruct (Nat.eq_dec i b) as [->|Hib].
          + rewrite list_lookup_alter in Hi. destruct (h !! b) as [f0|] eqn:Ef; [|discriminate]. injection Hi as <-. simpl.
            destruct (H4 b f0 Ef ltac:(lia)) as [_ Hp]. split; [|exact Hp]. rewrite Hb', Nat.eqb_refl. auto.
          + rewrite list_lookup_alter_ne in Hi by lia. destruct (H4 i f Hi ltac:(lia)) as [Hp Hq]. split; auto.
            rewrite Hp. destruct (Nat.eqb_spec i (n - S (S (length l)))), (Nat.eqb_spec i (n - S (length l))); auto; lia. }
      specialize (IH _ Hl' ltac:(discriminate) E). destruct IH as (R1 & R2 & R3 & R4 & R5 & R6).
      split; auto. split; auto. split; [now rewrite R3, !alter_length|].
      split; [rewrite R4, !alter_bars; auto; intros []; reflexivity|].
      split.
      + rewrite R5. replace (length (a :: b :: l) - Z.to_nat mx)%nat with (S (length (b :: l) - Z.to_nat mx)) by (simpl in *; lia). reflexivity.
      + intros i f Hi. destruct (R6 i f Hi) as (f1 & Hf1 & E1). rewrite E1. clear -Hf1.
        destruct (Nat.eq_dec i a) as [->|Hia].
        * rewrite list_lookup_alter in Hf1. destruct (alter _ b h !! a) as [f2|] eqn:E2; [|discriminate]. injection Hf1 as <-. simpl.
          destruct (Nat.eq_dec a b) as [->|Hab]; [rewrite list_lookup_alter in E2|rewrite list_lookup_alter_ne in E2 by lia; eauto].
          destruct (h !! b) as [f3|]; [|discriminate]. injection E2 as <-. eauto.
        * rewrite list_lookup_alter_ne in Hf1 by lia.
          destruct (Nat.eq_dec i b) as [->|Hab]; [rewrite list_lookup_alter in Hf1|rewrite list_lookup_alter_ne in Hf1 by lia; eauto].
          destruct (h !! b) as [f3|]; [|discriminate]. injection Hf1 as <-. eauto.
  Qed.

  Definition same_conf fs fs' : Prop :=
    fs_ref fs' = fs_ref fs /\ fs_unit fs' = fs_unit fs /\ fs_q fs' = fs_q fs /\ fs_max fs' = fs_max fs /\
    fs_epic fs' = fs_epic fs /\ fs_inds fs' = fs_inds fs.
  Lemma same_conf_refl fs : same_conf fs fs. Proof. repeat split. Qed.
  Lemma same_conf_trans a b c : same_conf a b -> same_conf b c -> same_conf a c.
  Proof. unfold same_conf. intuition congruence. Qed.

  (** Well-formed frame sets: links, memory bound, non-empty memory as soon as a frame exists. *)
  Definition wf fs : Prop := linked (fs_heap fs) (fs_frames fs) /\
    length (fs_frames fs) = Nat.min (length (fs_heap fs)) (Z.to_nat (fs_max fs)).
  Lemma wf_current fs : 1 <= fs_max fs -> wf fs ->
    fs_current_id fs = (match length (fs_heap fs) with O => None | S n => Some n end).
  Proof.
    intros Hmx [[H1 H2 H3 H4] H5]. unfold fs_current_id. rewrite H2.
    destruct (length (fs_heap fs)) as [|n] eqn:En; [simpl in *; rewrite H5; reflexivity|].
    assert (length (fs_frames fs) = S (length (fs_frames fs) - 1)) as -> by lia.
    rewrite seq_S, last_snoc. f_equal. lia.
  Qed.

  Lemma create_spec fs tk s e mo fs' r : 1 <= fs_max fs -> wf fs -> create_new_frame fs tk s e mo = (fs', r) ->
    (fs' = fs /\ exists x, r = Err x) \/
    (r = Ok () /\ wf fs' /\ same_conf fs fs' /\ bars fs' = bars fs ++ [bar_new tk s e]).
  Proof.
    intros Hmx Hwf. unfold create_new_frame. destruct (upsert _ _ _ _ _) as [fr r0] eqn:Eu.
    destruct r0 as [[]|x]; [|intros [= <- <-]; eauto].
    apply upsert_only_inds in Eu. destruct (clean_old_frames _ _ _) as [[h2 l2] r2] eqn:Ec. intros [= <- <-]. right.
    pose proof Hwf as [[H1 H2 H3 H4] H5]. rewrite (wf_current fs Hmx Hwf) in *.
    remember (length (fs_heap fs)) as n eqn:En. set (m := length (fs_frames fs)) in *.
    set (h1 := match (match n with O => None | S n => Some n end) with Some c => alter (fun f => fr_set_next f (Some n)) c (fs_heap fs) | None => fs_heap fs end) in *.
    assert (length h1 = n) as Hh1 . { unfold h1. destruct n; [now symmetry|]. now rewrite alter_length. }
    assert (linked (h1 ++ [fr]) (fs_frames fs ++ [n])) as Hl.
    { split; rewrite !app_length; simpl length; rewrite ?Hh1; fold m.
      - lia.
      - rewrite H2 at 1. rewrite seq_app. f_equal; [f_equal; lia|]. simpl. f_equal. lia.
      - intros i f Hi Hlt. rewrite lookup_app_l in Hi by lia.
        assert (m <> 0%nat \/ n = 0%nat) as [Hm|Hn0] by lia; [|lia].
        unfold h1 in Hi. destruct n as [|n']; [lia|]. rewrite list_lookup_alter_ne in Hi by lia. apply (H3 i f Hi). lia.
      - intros i f Hi Hge. destruct (Nat.eq_dec i n) as [->|Hin].
        + rewrite lookup_app_r in Hi by lia. rewrite Hh1, Nat.sub_diag in Hi. injection Hi as <-. rewrite Eu. simpl.
          replace (n + 1 - 1)%nat with n by lia. rewrite Nat.eqb_refl. split; auto.
          destruct n as [|n'].
          * replace (0 =? 0 + 1 - (m + 1))%nat with true by (symmetry; apply Nat.eqb_eq; lia). reflexivity.
          * replace (S n' =? S n' + 1 - (m + 1))%nat with false; [f_equal; lia|].
            symmetry. apply Nat.eqb_neq. lia.
        + pose proof (lookup_lt_Some _ _ _ Hi) as Hlt. rewrite app_length in Hlt. simpl in Hlt.
          rewrite lookup_app_l in Hi by lia. unfold h1 in Hi. destruct n as [|n']; [lia|].
          replace (i =? S n' + 1 - 1)%nat with false by (symmetry; apply Nat.eqb_neq; lia).
          replace (S n' + 1 - (m + 1))%nat with (S n' - m)%nat by lia.
          destruct (Nat.eq_dec i n') as [->|Hin'].
          * rewrite list_lookup_alter in Hi. destruct (fs_heap fs !! n') as [f0|] eqn:Ef; [|discriminate].
            injection Hi as <-. simpl. destruct (H4 n' f0 Ef ltac:(lia)) as [Hp _]. split; [exact Hp|f_equal; lia].
          * rewrite list_lookup_alter_ne in Hi by lia. destruct (H4 i f Hi ltac:(lia)) as [Hp Hq]. split; auto.
            rewrite Hq. replace (i =? S n' - 1)%nat with false by (symmetry; apply Nat.eqb_neq; lia). reflexivity. }
    destruct (clean_spec _ _ _ _ _ _ Hmx Hl ltac:(destruct (fs_frames fs); discriminate) Ec) as (R1 & R2 & R3 & R4 & R5 & _).
    split; auto. rewrite app_length, Hh1 in R3. simpl in R3.
    split; [split; [exact R2|]|split; [repeat split|]].
    - simpl. rewrite R5, drop_length, app_length. simpl. rewrite R3. fold m. lia.
    - unfold bars. simpl. rewrite R4, fmap_app. simpl. f_equal.
      + unfold h1. destruct n; auto. apply alter_bars. intros []; reflexivity.
      + rewrite Eu. reflexivity.
  Qed.

  Lemma add_tick_spec fs tk mo fs' r : 1 <= fs_max fs -> wf fs -> add_tick_to_last fs tk mo = (fs', r) ->
    wf fs' /\ same_conf fs fs' /\
    (bars fs' = match last (bars fs) with Some b => take (length (bars fs) - 1) (bars fs) ++ [bar_tick b tk] | None => bars fs end).
  Proof.
    intros Hmx Hwf. unfold add_tick_to_last. rewrite (wf_current fs Hmx Hwf).
    destruct (length (fs_heap fs)) as [|n] eqn:En.
    - intros [= <- <-]. split; auto. split; [apply same_conf_refl|]. unfold bars. destruct (fs_heap fs); [reflexivity|discriminate].
    - destruct (lookup_lt_is_Some_2 (fs_heap fs) n ltac:(lia)) as [cur Ecur]. rewrite Ecur.
      unfold frame_on_new_tick. destruct (upsert _ _ _ _ _) as [fr r0] eqn:Eu. apply upsert_only_inds in Eu.
      intros [= <- <-].
      assert (fs_heap fs = take n (fs_heap fs) ++ [cur]) as Eh.
      { rewrite <- (take_drop_middle _ _ _ Ecur) at 1. rewrite drop_ge by lia. reflexivity. }
      split; [|split; [repeat split|]].
      + destruct Hwf as [[H1 H2 H3 H4] H5]. split; simpl; [|now rewrite insert_length].
        split; rewrite ?insert_length; auto.
        * intros i f Hi Hlt. destruct (Nat.eq_dec i n) as [->|Hne].
          -- rewrite list_lookup_insert in Hi by lia. injection Hi as <-. rewrite Eu. simpl. apply (H3 n cur Ecur). lia.
          -- rewrite list_lookup_insert_ne in Hi by lia. eauto.
        * intros i f Hi Hlt. destruct (Nat.eq_dec i n) as [->|Hne].
          -- rewrite list_lookup_insert in Hi by lia. injection Hi as <-. rewrite Eu. simpl. apply (H4 n cur Ecur). lia.
          -- rewrite list_lookup_insert_ne in Hi by lia. eauto.
      + unfold bars. simpl. rewrite Eh. rewrite (insert_app_r_alt _ _ n) by (rewrite take_length; lia).
        rewrite take_length, En. replace (n - n `min` S n)%nat with 0%nat by lia. simpl.
        rewrite !fmap_app. simpl. rewrite last_snoc. rewrite app_length, fmap_length, take_length, En. simpl.
        replace (n `min` S n + 1 - 1)%nat with (length (bar_of <$> take n (fs_heap fs))) by (rewrite fmap_length, take_length; lia).
        rewrite take_app. f_equal. f_equal. rewrite Eu. reflexivity.
  Qed.

  Lemma fill_step_wf start mo fs : 1 <= fs_max fs -> wf fs ->
    match fill_step start mo fs with
    | inl fs' => wf fs' /\ same_conf fs fs'
    | inr (fs', _) => wf fs' /\ same_conf fs fs'
    end.
  Proof.
    intros Hmx Hwf. unfold fill_step. destruct (fs_current fs) as [cur|]; [|split; auto using same_conf_refl].
    destruct (fr_end cur) as [e|]; [|split; auto using same_conf_refl].
    destruct (arrow_ltb e start); [|split; auto using same_conf_refl].
    destruct (get_frame_end _ _ _) as [e'|]; [|split; auto using same_conf_refl].
    destruct (create_new_frame _ _ _ _ _) as [fs' r] eqn:Ec. apply create_spec in Ec; auto.
    destruct Ec as [[-> [x ->]]|(-> & H1 & H2 & _)]; auto using same_conf_refl.
  Qed.
  Lemma fs_tick_wf fuel fs tk mo last fs' r : 1 <= fs_max fs -> wf fs -> fs_on_new_tick fuel fs tk mo last = (fs', r) ->
    wf fs' /\ same_conf fs fs'.
  Proof.
    intros Hmx Hwf.
    assert (forall s e fs' r, create_new_frame fs tk s e mo = (fs', r) -> wf fs' /\ same_conf fs fs') as Hcr.
    { intros s e fs1 r1 Ec. apply create_spec in Ec; auto. destruct Ec as [[-> _]|(_ & H1 & H2 & _)]; auto using same_conf_refl. }
    assert (forall fs' r, add_tick_to_last fs tk mo = (fs', r) -> wf fs' /\ same_conf fs fs') as Had.
    { intros fs1 r1 Ea. apply add_tick_spec in Ea; auto. tauto. }
    assert (forall fs' r, create_new_frame_timed fuel fs tk mo = (fs', r) -> wf fs' /\ same_conf fs fs') as Htd.
    { intros fs1 r1. unfold create_new_frame_timed.
      destruct (get_frame_start _ _ _) as [start|]; [|intros [= <- <-]; auto using same_conf_refl].
      destruct (get_frame_end _ _ _) as [e1|]; [|intros [= <- <-]; auto using same_conf_refl].
      pose proof (ploop_ind (fill_step start mo) (fun s => wf s /\ same_conf fs s) (fun x => wf x.1 /\ same_conf fs x.1) fuel fs) as Hp.
      assert (match ploop fuel (fill_step start mo) fs with inl s' => wf s' /\ same_conf fs s' | inr r => wf r.1 /\ same_conf fs r.1 end) as Hq.
      { apply Hp; auto using same_conf_refl.
        - intros s s' [Hs Hc] E. pose proof (fill_step_wf start mo s) as Hf. rewrite E in Hf.
          destruct Hf as [Hf1 Hf2]; auto; [destruct Hc as (_ & _ & _ & -> & _); auto|]. eauto using same_conf_trans.
        - intros s [s' r'] [Hs Hc] E. pose proof (fill_step_wf start mo s) as Hf. rewrite E in Hf.
          destruct Hf as [Hf1 Hf2]; auto; [destruct Hc as (_ & _ & _ & -> & _); auto|]. eauto using same_conf_trans. }
      destruct (ploop _ _ _) as [s'|[s' [[]|x]]]; [intros [= <- <-]; auto| |intros [= <- <-]; auto].
      destruct Hq as [Hq1 Hq2]. simpl in *. intros Ec. apply create_spec in Ec; auto.
      - destruct Ec as [[-> _]|(_ & H1 & H2 & _)]; eauto using same_conf_trans.
      - destruct Hq2 as (_ & _ & _ & -> & _). auto. }
    unfold fs_on_new_tick. unfold create_new_frame_tick.
    destruct (fs_unit fs); destruct (is_frame_over_tick fs tk last), (is_frame_over_timed fs tk); eauto.
  Qed.

  Lemma add_indicator_frames fs i : fs_heap (fst (add_indicator fs i)) = fs_heap fs /\ fs_frames (fst (add_indicator fs i)) = fs_frames fs /\
    fs_unit (fst (add_indicator fs i)) = fs_unit fs /\ fs_q (fst (add_indicator fs i)) = fs_q fs /\ fs_max (fst (add_indicator fs i)) = fs_max fs.
  Proof. unfold add_indicator. destruct (in_kind i); repeat split. Qed.
  Lemma fset_init_wf u q ref mx fs : fset_init u q ref mx = Ok fs ->
    wf fs /\ fs_heap fs = [] /\ fs_unit fs = u /\ fs_q fs = q /\ fs_max fs = mx /\ check_unit u q = Ok ().
  Proof.
    unfold fset_init. destruct (check_unit u q) as [[]|]; [|discriminate]. intros [= <-]. simpl. split; [|auto].
    split; simpl; [|lia]. split; simpl; auto; intros i f Hi; rewrite lookup_nil in Hi; discriminate.
  Qed.
  Lemma fs_reach_wf mx fs : 1 <= mx -> fs_reach mx fs -> wf fs /\ fs_max fs = mx.
  Proof.
    intros Hmx Hr. induction Hr as [u q ref fs E|fs i Hr IH|fs e Hr IH|fs fuel tk mo lst Hr IH].
    - apply fset_init_wf in E. tauto.
    - destruct (add_indicator_frames fs i) as (E1 & E2 & _ & _ & E3). unfold wf. rewrite E1, E2, E3. exact IH.
    - exact IH.
    - destruct IH as [IH1 IH2]. destruct (fs_on_new_tick fuel fs tk mo lst) as [fs' r] eqn:E.
      apply fs_tick_wf in E; auto; [|lia]. destruct E as [E1 (_ & _ & _ & E2 & _)]. split; auto. simpl. congruence.
  Qed.
End frames_proofs.
