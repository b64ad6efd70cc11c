(** Invariants of indicator values over histories. *)
From Verif Require Import EpicMoreProofs.
From Verif Require Export IndicatorProofs.
From Verif Require Import FramesProofs.
Open Scope Z_scope.

Section proofs.
  Context {F : Type} `{Num F}.
  Implicit Types (fs : fset F) (f fr : frame F) (i : indicator F) (iv : ivalue F).

  Definition base (mx q : Z) fs : Prop := wf fs /\ fs_max fs = mx /\ fs_q fs = q /\ inds_ok (fs_inds fs).
  Lemma add_indicator_ok fs i : inds_ok (fs_inds fs) -> inds_ok (fs_inds (fst (add_indicator fs i))).
  Proof.
    intros Hok. unfold add_indicator. destruct (in_kind i); cbn [fst fs_set_inds fs_inds]; try (now apply inds_ok_set).
    apply (inds_ok_set _ {| in_ref := in_ref i; in_mopen := in_mopen i; in_kind := KRSI periods (Some (periods * fs_q fs)) |} Hok).
  Qed.
  Lemma base_ind mx q fs i : base mx q fs -> base mx q (fst (add_indicator fs i)).
  Proof.
    intros (H1 & H2 & H3 & H4). destruct (add_indicator_frames fs i) as (E1 & E2 & _ & E4 & E5). unfold base, wf. rewrite E1, E2, E4, E5.
    split; [exact H1|]. split; [auto|]. split; [auto|]. now apply add_indicator_ok.
  Qed.
  Lemma base_conf mx q fs fs' : base mx q fs -> wf fs' -> same_conf fs fs' -> base mx q fs'.
  Proof. intros (H1 & H2 & H3 & H4) Hw (C1 & C2 & C3 & C4 & C5 & C6). split; [auto|]. split; [congruence|]. split; [congruence|]. now rewrite C6. Qed.
  Lemma base_create mx q fs tk s e mo fs' r : 1 <= mx -> base mx q fs -> create_new_frame fs tk s e mo = (fs', r) -> base mx q fs'.
  Proof.
    intros Hmx Hb E. pose proof Hb as (H1 & H2 & H3 & H4). apply create_spec in E; auto; [|lia]. destruct E as [[-> _]|(_ & E1 & E2 & _)]; [auto|]. eapply base_conf; eauto.
  Qed.
  Lemma base_add mx q fs tk mo fs' r : 1 <= mx -> base mx q fs -> add_tick_to_last fs tk mo = (fs', r) -> base mx q fs'.
  Proof. intros Hmx Hb E. pose proof Hb as (H1 & H2 & H3 & H4). apply add_tick_spec in E; auto; [|lia]. destruct E as (E1 & E2 & _). eapply base_conf; eauto. Qed.
  Lemma base_gstep mx q mo fs fs' : 1 <= mx -> base mx q fs -> gstep mo fs fs' -> base mx q fs'.
  Proof. intros Hmx Hb (cur & s & e & _ & E). eapply base_create; eauto. Qed.
  Lemma base_init u q ref mx fs : fset_init u q ref mx = Ok fs -> base mx q fs.
  Proof.
    intros E. pose proof (fset_init_wf _ _ _ _ _ E) as (H1 & H2 & H3 & H4 & H5 & _). split; [auto|]. split; [auto|]. split; [auto|].
    unfold fset_init in E. destruct (check_unit u q); [|discriminate]. injection E as <-. apply inds_ok_nil.
  Qed.

  (** ** Induction principles *)
  Lemma hist_invariant (I : indicator F -> Prop) (T : tick F -> res unit -> Prop) mx q (J : fset F -> Prop) fs0 fs :
    1 <= mx -> base mx q fs0 -> J fs0 ->
    (forall fs j, base mx q fs -> J fs -> I j -> J (fst (add_indicator fs j))) ->
    (forall fs e, base mx q fs -> J fs -> J (fs_set_epic fs e)) ->
    (forall fs fs' tk r mo, base mx q fs -> J fs -> T tk r -> estep tk mo fs fs' -> J fs') ->
    fs_hist I T fs0 fs -> base mx q fs /\ J fs.
  Proof.
    intros Hmx Hb0 HJ0 Hi He Ht Hh. induction Hh as [|fs i Hh [IHb IHJ] HI|fs e Hh [IHb IHJ]|fs fuel tk mo lst fs' r Hh [IHb IHJ] E HT]; [auto| | |].
    - split; [now apply base_ind|auto].
    - split; [exact IHb|auto].
    - pose proof IHb as (W & M & _). apply tick_steps in E; [|lia|auto].
      assert (forall a b, rtc (estep tk mo) a b -> base mx q a -> J a -> base mx q b /\ J b) as Hrtc.
      { intros a b Hs. induction Hs as [a|a c b Hac Hs IH]; [auto|]. intros Ha Hja. apply IH; [|eapply Ht; eauto].
        destruct Hac as [a cur s e c _ Ec|a s e c Ec|a c rr Ec]; eauto using base_create, base_add. }
      eauto.
  Qed.
  Lemma hist_invariant_ok (I : indicator F -> Prop) mx q (J : fset F -> Prop) fs0 fs :
    1 <= mx -> base mx q fs0 -> J fs0 ->
    (forall fs j, base mx q fs -> J fs -> I j -> J (fst (add_indicator fs j))) ->
    (forall fs e, base mx q fs -> J fs -> J (fs_set_epic fs e)) ->
    (forall fs fs' tk s e mo, base mx q fs -> J fs -> create_new_frame fs tk s e mo = (fs', Ok ()) -> J fs') ->
    (forall fs fs' tk mo, base mx q fs -> J fs -> add_tick_to_last fs tk mo = (fs', Ok ()) -> J fs') ->
    fs_hist I no_exn fs0 fs -> base mx q fs /\ J fs.
  Proof.
    intros Hmx Hb0 HJ0 Hi He Hc Ha Hh. induction Hh as [|fs i Hh [IHb IHJ] HI|fs e Hh [IHb IHJ]|fs fuel tk mo lst fs' r Hh [IHb IHJ] E HT]; [auto| | |].
    - split; [now apply base_ind|auto].
    - split; [exact IHb|auto].
    - unfold no_exn in HT. subst r. pose proof IHb as (W & M & _). apply tick_shape in E; [|lia|auto]. destruct E as [[_ E]|(fs1 & s & e & Hg & _ & _ & E)].
      + split; [eapply base_add; eauto|eauto].
      + assert (forall a b, rtc (gstep mo) a b -> base mx q a -> J a -> base mx q b /\ J b) as Hrtc.
        { intros a b Hs. induction Hs as [a|a c b Hac Hs IH]; [auto|]. intros Hba Hja. apply IH; [eapply base_gstep; eauto|]. destruct Hac as (cur & s' & e' & _ & Ec). eauto. }
        destruct (Hrtc _ _ Hg IHb IHJ) as [B1 J1]. split; [eapply base_create; eauto|eauto].
  Qed.

  (** ** Registration *)
  Definition reg (q : Z) i : indicator F :=
    match in_kind i with
    | KRSI p _ => {| in_ref := in_ref i; in_mopen := in_mopen i; in_kind := KRSI p (Some (p * q)) |}
    | _ => i
    end.
  Lemma add_indicator_get fs j ref : dict_get (fs_inds (fst (add_indicator fs j))) ref =
    if String.eqb (in_ref j) ref then Some (reg (fs_q fs) j) else dict_get (fs_inds fs) ref.
  Proof. unfold add_indicator, reg. destruct (in_kind j); cbn [fst fs_set_inds fs_inds]; apply dict_get_set. Qed.
  Lemma add_indicator_vals fs j ref : vals ref (fst (add_indicator fs j)) = vals ref fs.
  Proof. unfold vals. now destruct (add_indicator_frames fs j) as (-> & _). Qed.
  Lemma add_indicator_closes fs j : closes (fst (add_indicator fs j)) = closes fs.
  Proof. unfold closes. now destruct (add_indicator_frames fs j) as (-> & _). Qed.
  Definition registered (q : Z) i fs : Prop := dict_get (fs_inds fs) (in_ref i) = None \/ dict_get (fs_inds fs) (in_ref i) = Some (reg q i).
  Lemma registered_ind q i fs j : fs_q fs = q -> registered q i fs -> only i j -> registered q i (fst (add_indicator fs j)).
  Proof.
    intros Hq Hr Ho. unfold registered in *. rewrite add_indicator_get, Hq. destruct (String.eqb_spec (in_ref j) (in_ref i)) as [E|E]; [|auto].
    rewrite (Ho E). auto.
  Qed.
  Lemma create_inds fs tk s e mo fs' r : create_new_frame fs tk s e mo = (fs', r) -> fs_inds fs' = fs_inds fs.
  Proof.
    intros E. pose proof (EpicMoreProofs.create_conf fs tk s e mo) as Hc. rewrite E in Hc. destruct Hc as (_ & _ & _ & _ & _ & Hc). exact Hc.
  Qed.
  Lemma add_inds fs tk mo fs' r : add_tick_to_last fs tk mo = (fs', r) -> fs_inds fs' = fs_inds fs.
  Proof.
    unfold add_tick_to_last. destruct (fs_current_id fs) as [c|]; [|now intros [= <- _]]. destruct (fs_heap fs !! c) as [cur|]; [|now intros [= <- _]].
    destruct (frame_on_new_tick _ _ _ _ _) as [fr rr]. now intros [= <- _].
  Qed.
  Lemma init_inds u q ref mx fs : fset_init u q ref mx = Ok fs -> fs_inds fs = [].
  Proof. unfold fset_init. destruct (check_unit u q); [|discriminate]. now intros [= <-]. Qed.

  (** ** Last ticks of frames *)
  Definition lasts fs : list (tick F) := map (fun f => fr_last f) (fs_heap fs).
  Lemma lasts_bars fs : lasts fs = map b_last (bars fs).
  Proof. unfold lasts, bars. change (bar_of <$> fs_heap fs) with (map bar_of (fs_heap fs)). rewrite map_map. reflexivity. Qed.
  Lemma closes_lasts fs : closes fs = map tk_value (lasts fs).
  Proof. unfold closes, lasts. rewrite map_map. reflexivity. Qed.
  Lemma lasts_length fs : length (lasts fs) = length (fs_heap fs).
  Proof. apply map_length. Qed.
  Lemma closes_length fs : length (closes fs) = length (fs_heap fs).
  Proof. apply map_length. Qed.
  Lemma create_lasts fs tk s e mo fs' : 1 <= fs_max fs -> wf fs -> create_new_frame fs tk s e mo = (fs', Ok ()) -> lasts fs' = lasts fs ++ [tk].
  Proof.
    intros Hmx Hwf E. apply create_spec in E; auto. destruct E as [[_ [x E]]|(_ & _ & _ & E)]; [discriminate|]. rewrite !lasts_bars, E, map_app. reflexivity.
  Qed.
  Lemma add_lasts fs tk mo fs' r : 1 <= fs_max fs -> wf fs -> add_tick_to_last fs tk mo = (fs', r) ->
    match length (fs_heap fs) with O => fs' = fs | S n => lasts fs' = take n (lasts fs) ++ [tk] end.
  Proof.
    intros Hmx Hwf E. pose proof (add_vals fs tk mo fs' r "" Hmx Hwf) as _. pose proof E as E'. apply add_tick_spec in E; auto. destruct E as (_ & _ & E).
    destruct (length (fs_heap fs)) as [|n] eqn:En.
    - unfold add_tick_to_last in E'. rewrite (wf_current fs Hmx Hwf), En in E'. now injection E'.
    - rewrite !lasts_bars, E. assert (length (bars fs) = S n) as Hl by (unfold bars; rewrite fmap_length; auto).
      destruct (last (bars fs)) as [b|] eqn:El; [|apply last_None in El; rewrite El in Hl; discriminate].
      rewrite Hl. replace (S n - 1)%nat with n by lia. rewrite map_app, firstn_map. reflexivity.
  Qed.
  Lemma current_lasts fs cur : 1 <= fs_max fs -> wf fs -> fs_current fs = Some cur -> fr_last cur ∈ lasts fs.
  Proof.
    intros Hmx Hwf Hc. unfold fs_current in Hc. destruct (fs_current_id fs) as [c|]; [|discriminate]. unfold lasts. apply elem_of_list_fmap. exists cur.
    split; [auto|]. eapply elem_of_list_lookup_2; eauto.
  Qed.

  (** ** Properties of the four ticks of every indicator value *)
  Lemma hist_all_vals (I : indicator F -> Prop) (K : tick F -> Prop) mx q (Pv : ivalue F -> Prop) fs0 fs :
    1 <= mx -> base mx q fs0 -> fs_heap fs0 = [] ->
    (forall ref m t d, K t -> Pv {| iv_ref := ref; iv_mopen := m; iv_first := t; iv_high := t; iv_low := t; iv_last := t; iv_data := d |}) ->
    (forall iv t mo, Pv iv -> K t -> Pv (iv_base_tick iv t mo)) ->
    (forall iv d, Pv iv -> Pv (iv_set_data iv d)) ->
    fs_hist I (fun tk _ => K tk) fs0 fs ->
    base mx q fs /\ (forall ref k iv, vals ref fs !! k = Some (Some iv) -> Pv iv) /\ Forall K (lasts fs).
  Proof.
    intros Hmx Hb0 H0 Pn Pt Pd Hh.
    apply (hist_invariant I (fun tk _ => K tk) mx q (fun fs => (forall ref k iv, vals ref fs !! k = Some (Some iv) -> Pv iv) /\ Forall K (lasts fs)) fs0 fs); auto.
    - split; [|unfold lasts; rewrite H0; constructor]. intros ref k iv Hk. unfold vals in Hk. rewrite H0 in Hk. discriminate.
    - intros g j _ [J1 J2] _. split; [intros ref k iv; rewrite add_indicator_vals; apply J1|]. unfold lasts in *. now destruct (add_indicator_frames g j) as (-> & _).
    - intros g fs' tk r mo Hb [J1 J2] Kt Hs.
      assert (forall tk' s e, K tk' -> create_new_frame g tk' s e mo = (fs', Ok ()) ->
        (forall ref k iv, vals ref fs' !! k = Some (Some iv) -> Pv iv) /\ Forall K (lasts fs')) as Hcr.
      { intros tk' s e Kt' E. destruct Hb as (W & M & _ & O). assert (1 <= fs_max g) as Hm by lia. split.
        - intros ref k iv Hk. destruct (create_vals _ _ _ _ _ _ ref Hm W O E) as (v & Ev & Hv). rewrite Ev in Hk.
          destruct (Nat.lt_ge_cases k (length (vals ref g))) as [Hlt|Hge]; [rewrite lookup_app_l in Hk by auto; eapply J1; eauto|].
          rewrite lookup_app_r in Hk by auto. apply list_lookup_singleton_Some in Hk as [_ ->].
          destruct (dict_get (fs_inds g) ref) as [i|]; [|discriminate]. unfold build_value in Hv. destruct (negb (in_mopen i) || mo); [|discriminate].
          destruct (build_data _ _ _) as [d|x]; [|discriminate]. cbn [rbind frame_new fr_last] in Hv. injection Hv as <-. now apply Pn.
        - rewrite (create_lasts _ _ _ _ _ _ Hm W E). apply Forall_app. auto. }
      destruct Hs as [g cur s e fs' Ec E|g s e fs' E|g fs' rr E].
      + eapply Hcr; [|exact E]. destruct Hb as (W & M & _ & _). rewrite Forall_forall in J2. apply J2, current_lasts; auto. lia.
      + eauto.
      + destruct Hb as (W & M & _ & O). assert (1 <= fs_max g) as Hm by lia. pose proof (add_lasts _ _ _ _ _ Hm W E) as Hl. split.
        * intros ref k iv Hk. pose proof (add_vals _ _ _ _ _ ref Hm W O E) as Hv. destruct (length (fs_heap g)) as [|n] eqn:En; [subst; eapply J1; eauto|].
          destruct Hv as (cur & v & v' & Ecur & Ev & Evs & Hv). rewrite Evs in Hk.
          destruct (Nat.lt_ge_cases k (length (take n (vals ref g)))) as [Hlt|Hge]; [rewrite lookup_app_l in Hk by auto; rewrite lookup_take in Hk by (rewrite take_length in Hlt; lia); eapply J1; eauto|].
          rewrite lookup_app_r in Hk by auto. apply list_lookup_singleton_Some in Hk as [_ ->].
          assert (forall iv', v = Some iv' -> Pv iv') as Hold.
          { intros iv' ->. apply (J1 ref n). unfold vals. rewrite list_lookup_fmap, Ecur. simpl. congruence. }
          destruct (dict_get (fs_inds g) ref) as [i|]; [|auto]. destruct Hv as [Hv|[Hv _]]; [|auto]. unfold step_val in Hv. destruct v as [ivo|].
          -- destruct Hv as (iv' & Et & [= <-]). unfold iv_on_new_tick in Et. pose proof (Pt ivo tk mo (Hold _ eq_refl) Kt) as Hpt.
             destruct (iv_data (iv_base_tick ivo tk mo)) as [ha|o|lc|m lc vo|tl dt]; try (now injection Et as <-).
             ++ destruct (update_rsi _ _ _ _ _) as [x|x]; [|discriminate]. injection Et as <-. now apply Pd.
             ++ destruct (user_code _) as [x|x]; [|discriminate]. injection Et as <-. now apply Pd.
          -- unfold build_value in Hv. destruct (negb (in_mopen i) || mo); [|discriminate].
             destruct (build_data _ _ _) as [d|x]; [|discriminate]. cbn [rbind frame_tick fr_last] in Hv. injection Hv as <-. now apply Pn.
        * destruct (length (fs_heap g)) as [|n]; [subst; auto|]. rewrite Hl. apply Forall_app. split; [now apply Forall_take|auto].
  Qed.
End proofs.
