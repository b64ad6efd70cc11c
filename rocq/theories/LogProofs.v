(** Values of indicators as summaries of the ticks they listen to (C44). *)
From Verif Require Import EpicMoreProofs FrameTimeProofs.
From Verif Require Export CandleProofs.
From Verif Require Import FramesProofs.
Open Scope Z_scope.

Section proofs.
  Context {F : Type} `{Num F}.
  Implicit Types (fs : fset F) (f fr : frame F) (i : indicator F) (iv : ivalue F).
  Implicit Types (b : list (tick F * bool)) (l : list (list (tick F * bool))).

  Definition ibar iv (n : nat) : bar := {| b_first := iv_first iv; b_high := iv_high iv; b_low := iv_low iv; b_last := iv_last iv;
    b_start := tk_dt (iv_first iv); b_end := None; b_nb := Z.of_nat n |}.
  Definition isum (ts : list (tick F)) iv : Prop := bsum ts (ibar iv (length ts)).
  Lemma isum_one t ref m d : isum [t] {| iv_ref := ref; iv_mopen := m; iv_first := t; iv_high := t; iv_low := t; iv_last := t; iv_data := d |}.
  Proof. apply (bsum_one t (tk_dt t) None). Qed.
  Lemma isum_snoc ts iv t mo : negb (iv_mopen iv) || mo = true -> isum ts iv -> isum (ts ++ [t]) (iv_base_tick iv t mo).
  Proof.
    intros E Hs. apply (bsum_snoc _ _ t) in Hs. unfold isum, iv_base_tick. rewrite E. unfold bar_tick, ibar in *. cbn in Hs |- *.
    rewrite app_length. cbn [length]. replace (Z.of_nat (length ts + 1)) with (Z.of_nat (length ts) + 1) by lia. exact Hs.
  Qed.
  Lemma isum_data ts iv d : isum ts iv -> isum ts (iv_set_data iv d).
  Proof. auto. Qed.
  Lemma isum_summary ts iv : comparable ts -> isum ts iv -> isummary ts iv.
  Proof. intros Hc (H1 & H2 & _ & H4). destruct (H4 Hc) as [H5 H6]. repeat split; auto. Qed.

  Lemma heard_snoc i b t (mo : bool) : heard i (b ++ [(t, mo)]) = heard i b ++ (if negb (in_mopen i) || mo then [t] else []).
  Proof. unfold heard. rewrite List.filter_app, map_app. cbn [List.filter snd]. destruct (negb (in_mopen i) || mo); reflexivity. Qed.
  Definition vw (bb : bar) (v : option (ivalue F)) : fview F :=
    {| v_first := b_first bb; v_high := b_high bb; v_low := b_low bb; v_last := b_last bb; v_nb := b_nb bb; v_data := custom_data v |}.
  Lemma view_of_vw ref f : view_of ref f = vw (bar_of f) (slot ref f).
  Proof. unfold view_of, vw, slot, custom_data. destruct (dict_get (fr_inds f) ref) as [[iv|]|]; reflexivity. Qed.
  Definition views (ref : string) fs : list (fview F) := zip_with vw (bars fs) (vals ref fs).
  Lemma views_heap ref fs : map (view_of ref) (fs_heap fs) = views ref fs.
  Proof. unfold views, bars, vals. induction (fs_heap fs) as [|f h IH]; [reflexivity|]. cbn. rewrite view_of_vw. f_equal. exact IH. Qed.
  Lemma bars_length fs : length (bars fs) = length (fs_heap fs).
  Proof. apply fmap_length. Qed.
  Lemma views_length ref fs : length (views ref fs) = length (fs_heap fs).
  Proof. rewrite <- views_heap. apply map_length. Qed.
  Lemma views_take ref fs fs' n : take n (bars fs') = take n (bars fs) -> take n (vals ref fs') = take n (vals ref fs) -> take n (views ref fs') = take n (views ref fs).
  Proof. intros E1 E2. unfold views. now rewrite !zip_with_take, E1, E2. Qed.

  Definition entry past i b (v : option (ivalue F)) : Prop :=
    match v with
    | Some iv => iv_mopen iv = in_mopen i /\ isum (heard i b) iv /\ forall mk tl, in_kind i = KCustom mk tl -> tells i mk tl past b (Some iv)
    | None => heard i b = []
    end.
  Lemma reg_custom q i mk tl : in_kind i = KCustom mk tl -> reg q i = i.
  Proof. intros E. unfold reg. now rewrite E. Qed.
  Lemma entry_new past self h fr q i mo v t b : map (view_of (in_ref i)) h = past ++ self -> (length self <= 1)%nat -> build_value h fr (reg q i) mo = Ok v ->
    fr_last fr = t -> bsum (map fst (b ++ [(t, mo)])) (bar_of fr) -> heard i b = [] -> entry past i (b ++ [(t, mo)]) v.
  Proof.
    intros Ep Hself E Et Hbs Hb. assert (in_mopen (reg q i) = in_mopen i) as Em by (unfold reg; destruct (in_kind i); auto). unfold build_value in E. rewrite Em, Et in E. unfold entry. rewrite heard_snoc, Hb.
    destruct (negb (in_mopen i) || mo) eqn:Eo.
    - destruct (build_data _ _ _) as [d|] eqn:Ed; [|discriminate]. cbn [rbind] in E. injection E as <-. split; [auto|]. split; [apply isum_one|]. intros mk tl Ek.
      rewrite (reg_custom q i mk tl Ek) in Ed. unfold build_data in Ed. rewrite Ek, Ep in Ed. destruct (mk _ _) as [st|] eqn:Emk; [|discriminate]. cbn [user_code rbind] in Ed. injection Ed as <-.
      exists b, [(t, mo)], st. split; [auto|]. split; [auto|]. split; [unfold heard; cbn; rewrite Eo; discriminate|]. split; [|auto]. eapply (told_made _ _ _ _ self (own_view fr)); eauto.
    - injection E as <-. reflexivity.
  Qed.
  Lemma entry_tick past self h fr i tk mo iv iv' b : map (view_of (iv_ref iv)) h = past ++ self -> (length self <= 1)%nat -> bsum (map fst (b ++ [(tk, mo)])) (bar_of fr) ->
    entry past i b (Some iv) -> iv_on_new_tick h fr iv tk mo = Ok iv' -> entry past i (b ++ [(tk, mo)]) (Some iv').
  Proof.
    intros Ep Hself Hbs (Em & Hs & Ht) E. assert (iv_mopen (iv_base_tick iv tk mo) = in_mopen i /\ isum (heard i (b ++ [(tk, mo)])) (iv_base_tick iv tk mo)) as [M1 S1].
    { destruct (base_tick_kind iv tk mo) as (_ & -> & _). split; [auto|]. rewrite heard_snoc. destruct (negb (in_mopen i) || mo) eqn:Eo.
      - apply isum_snoc; [now rewrite Em|auto].
      - rewrite app_nil_r. unfold iv_base_tick. now rewrite Em, Eo. }
    assert (iv_mopen iv' = in_mopen i /\ isum (heard i (b ++ [(tk, mo)])) iv') as [M2 S2].
    { unfold iv_on_new_tick in E. destruct (iv_data (iv_base_tick iv tk mo)); try (injection E as <-; split; auto).
      - destruct (update_rsi _ _ _ _ _) as [x|]; [|discriminate]. cbn [rbind] in E. injection E as <-. split; [exact M1|exact S1].
      - destruct (user_code _) as [x|]; [|discriminate]. cbn [rbind] in E. injection E as <-. split; [exact M1|exact S1]. }
    split; [auto|]. split; [auto|]. intros mk tl Ek. destruct (Ht mk tl Ek) as (b1 & b2 & d & -> & H1 & H1' & H2 & H3). unfold iv_on_new_tick in E.
    destruct (base_tick_kind iv tk mo) as (_ & _ & B3). rewrite B3, H3, Ep in E. destruct (tl _ _ _ _ _) as [d'|] eqn:Etl; [|discriminate]. cbn [user_code rbind] in E. injection E as <-.
    exists b1, (b2 ++ [(tk, mo)]), d'. rewrite <- app_assoc in Hbs. rewrite app_assoc. split; [auto|]. split; [auto|]. split; [destruct b2; [inversion H2; now destruct b|exact H1']|]. split; [|auto].
    eapply (told_tick _ _ _ _ self (own_view fr)); eauto.
  Qed.

  Definition log_inv (q : Z) i l fs : Prop :=
    dict_get (fs_inds fs) (in_ref i) = Some (reg q i) /\ length l = length (fs_heap fs) /\
    forall k b, l !! k = Some b -> exists v bb, vals (in_ref i) fs !! k = Some v /\ bars fs !! k = Some bb /\ bsum (map fst b) bb /\
      (forall iv, v = Some iv -> iv_ref iv = in_ref i) /\ entry (take k (views (in_ref i) fs)) i b v.
  Lemma build_value_ref h fr q i mo iv : build_value h fr (reg q i) mo = Ok (Some iv) -> iv_ref iv = in_ref i.
  Proof.
    unfold build_value. assert (in_ref (reg q i) = in_ref i) as -> by (unfold reg; destruct (in_kind i); auto). destruct (negb _ || _); [|discriminate].
    destruct (build_data _ _ _); [|discriminate]. cbn [rbind]. now intros [= <-].
  Qed.
  Lemma on_new_tick_ref h fr iv tk mo iv' : iv_on_new_tick h fr iv tk mo = Ok iv' -> iv_ref iv' = iv_ref iv.
  Proof.
    assert (iv_ref (iv_base_tick iv tk mo) = iv_ref iv) as Er by (unfold iv_base_tick; destruct (negb _ || _); reflexivity). unfold iv_on_new_tick. rewrite <- Er.
    destruct (iv_data (iv_base_tick iv tk mo)); try (now intros [= <-]).
    - destruct (update_rsi _ _ _ _ _); [|discriminate]. cbn [rbind]. now intros [= <-].
    - destruct (user_code _); [|discriminate]. cbn [rbind]. now intros [= <-].
  Qed.
  Lemma log_create mx q i l fs tk s e mo fs' : 1 <= mx -> base mx q fs -> log_inv q i l fs -> create_new_frame fs tk s e mo = (fs', Ok ()) -> log_inv q i (l ++ [[(tk, mo)]]) fs'.
  Proof.
    intros Hmx (W & M & _ & O) (R & Hl & He) E. assert (1 <= fs_max fs) as Hm by lia. destruct (create_vals _ _ _ _ _ _ (in_ref i) Hm W O E) as (v & Ev & Hv).
    assert (bars fs' = bars fs ++ [bar_new tk s e]) as El by (pose proof E as E1; apply create_spec in E1; auto; destruct E1 as [[_ [x E1]]|(_ & _ & _ & E1)]; [discriminate|auto]).
    rewrite R in Hv. split; [now rewrite (create_inds _ _ _ _ _ _ _ E)|]. split.
    { rewrite app_length, Hl, <- (bars_length fs'), El, app_length, bars_length. reflexivity. }
    assert (forall k, (k <= length l)%nat -> take k (views (in_ref i) fs') = take k (views (in_ref i) fs)) as Et.
    { intros k Hk. apply views_take; [rewrite El|rewrite Ev]; rewrite take_app_le; rewrite ?bars_length, ?vals_length; auto; lia. }
    intros k b Hk. rewrite Et by (apply lookup_lt_Some in Hk; rewrite app_length in Hk; simpl in Hk; lia). rewrite Ev, El. apply lookup_app_Some in Hk as [Hk|[Hge Hk]].
    - destruct (He k b Hk) as (v0 & t & V1 & V2 & V3). exists v0, t. rewrite (lookup_app_l_Some _ _ _ _ V1), (lookup_app_l_Some _ _ _ _ V2). auto.
    - apply list_lookup_singleton_Some in Hk as [Hk <-]. exists v, (bar_new tk s e). rewrite !lookup_app_r by (rewrite ?vals_length, ?bars_length; lia). rewrite vals_length, bars_length, <- Hl, Hk.
      split; [auto|]. split; [auto|]. split; [apply bsum_one|]. split; [intros iv ->; eapply build_value_ref; eauto|].
      assert (take k (views (in_ref i) fs) = views (in_ref i) fs) as -> by (apply take_ge; rewrite views_length; lia).
      apply (entry_new (views (in_ref i) fs) [] _ _ _ _ _ _ _ [] (eq_trans (views_heap _ _) (eq_sym (app_nil_r _))) (le_S _ _ (le_n 0)) Hv eq_refl); [apply bsum_one|reflexivity].
  Qed.
  Lemma log_add mx q i l b fs tk mo fs' : 1 <= mx -> base mx q fs -> log_inv q i l fs -> last l = Some b -> add_tick_to_last fs tk mo = (fs', Ok ()) ->
    log_inv q i (take (length l - 1) l ++ [b ++ [(tk, mo)]]) fs' /\ length (fs_heap fs') = length (fs_heap fs).
  Proof.
    intros Hmx (W & M & _ & O) (R & Hl & He) Hb E. assert (1 <= fs_max fs) as Hm by lia. pose proof (add_vals _ _ _ _ _ (in_ref i) Hm W O E) as Hv.
    pose proof E as E1. apply add_tick_spec in E1; auto. destruct E1 as (_ & _ & El). rewrite last_lookup in Hb. pose proof (lookup_lt_Some _ _ _ Hb) as Hlt. rewrite R in Hv.
    destruct (length (fs_heap fs)) as [|n] eqn:En; [lia|].
    assert (length l - 1 = n)%nat as Hn by lia. replace (pred (length l)) with n in Hb by lia. rewrite Hn. destruct Hv as (cur & v & v' & Ecur & Esl & Evs & Hv).
    destruct Hv as [Hv|[_ Hv]]; [|congruence].
    destruct (He n b Hb) as (v0 & bb & V1 & V2 & Vs & Vr & Ve). assert (bb = bar_of cur) as -> by (unfold bars in V2; rewrite list_lookup_fmap, Ecur in V2; simpl in V2; congruence).
    assert (v0 = v) as -> by (unfold vals in V1; rewrite list_lookup_fmap, Ecur in V1; simpl in V1; congruence).
    assert (last (bars fs) = Some (bar_of cur)) as Elb by (rewrite last_lookup, bars_length, En; exact V2). rewrite Elb, bars_length, En in El. replace (S n - 1)%nat with n in El by lia.
    assert (length (fs_heap fs') = S n) as El' by (rewrite <- (bars_length fs'), El, app_length, take_length, bars_length; simpl; lia). split; [|auto].
    split; [now rewrite (add_inds _ _ _ _ _ E)|]. split; [rewrite app_length, take_length; cbn [length]; lia|].
    assert (forall k, (k <= n)%nat -> take k (views (in_ref i) fs') = take k (views (in_ref i) fs)) as Et.
    { intros k Hk. apply views_take; [rewrite El|rewrite Evs]; rewrite take_app_le by (rewrite take_length, ?bars_length, ?vals_length; lia); rewrite take_take; f_equal; lia. }
    assert (bsum (map fst (b ++ [(tk, mo)])) (bar_of (frame_tick cur tk))) as Hbs by (rewrite map_app; apply (bsum_snoc _ _ tk Vs)).
    assert (exists x, map (view_of (in_ref i)) (fs_heap fs) = take n (views (in_ref i) fs) ++ [x]) as [x Ex].
    { rewrite views_heap. destruct (lookup_lt_is_Some_2 (views (in_ref i) fs) n) as [x Ex]; [rewrite views_length; lia|]. exists x.
      rewrite <- (take_drop_middle _ _ _ Ex) at 1. rewrite drop_ge by (rewrite views_length; lia). reflexivity. }
    intros k b' Hk. rewrite Et by (apply lookup_lt_Some in Hk; rewrite app_length, take_length in Hk; simpl in Hk; lia). rewrite Evs, El. apply lookup_app_Some in Hk as [Hk|[Hge Hk]].
    - apply lookup_take_Some in Hk as [Hk Hkn]. destruct (He k b' Hk) as (v0 & t & V1' & V2' & V3). exists v0, t.
      rewrite !lookup_app_l by (rewrite take_length, ?vals_length, ?bars_length; lia). rewrite !lookup_take by auto. auto.
    - rewrite take_length in Hge, Hk. apply list_lookup_singleton_Some in Hk as [Hk <-]. assert (k = n) as -> by lia. exists v', (bar_of (frame_tick cur tk)).
      rewrite !lookup_app_r by (rewrite take_length, ?vals_length, ?bars_length; lia). rewrite !take_length, vals_length, bars_length, En. replace (n - n `min` S n)%nat with 0%nat by lia.
      split; [auto|]. split; [auto|]. split; [auto|]. destruct v as [iv|].
      + destruct Hv as (iv' & Eiv & ->). split; [intros iv0 [= <-]; rewrite (on_new_tick_ref _ _ _ _ _ _ Eiv); auto|].
        rewrite <- (Vr iv eq_refl) in Ex at 1. apply (entry_tick _ [x] _ _ _ _ _ _ _ _ Ex (le_n 1) Hbs Ve Eiv).
      + split; [intros iv ->; eapply build_value_ref; eauto|]. apply (entry_new _ [x] _ _ _ _ _ _ _ _ Ex (le_n 1) Hv eq_refl Hbs Ve).
  Qed.
  Lemma log_inv_last q i l fs k b : log_inv q i l fs -> l !! k = Some b -> exists t, lasts fs !! k = Some t /\ last (map fst b) = Some t.
  Proof.
    intros (_ & _ & He) Hb. destruct (He k b Hb) as (v & bb & _ & V2 & (_ & V3 & _) & _). exists (b_last bb). split; [|auto]. unfold bars in V2. unfold lasts.
    change (map (fun f => fr_last f) (fs_heap fs)) with ((fun f => fr_last f) <$> fs_heap fs). rewrite list_lookup_fmap in V2. rewrite list_lookup_fmap. destruct (fs_heap fs !! k) as [f|]; cbn in V2 |- *; [|discriminate]. now apply (inj Some) in V2 as <-.
  Qed.
  Lemma log_gaps mx q i mo t fs fs1 : 1 <= mx -> rtc (gstep mo) fs fs1 -> forall l b, base mx q fs -> log_inv q i l fs -> last l = Some b -> last (map fst b) = Some t ->
    exists m, base mx q fs1 /\ log_inv q i (l ++ replicate m [(t, mo)]) fs1.
  Proof.
    intros Hmx Hg. induction Hg as [fs|fs fs2 fs1 Hs Hg IH]; intros l b B J Hl Hb.
    - exists 0%nat. now rewrite app_nil_r.
    - pose proof (base_gstep _ _ _ _ _ Hmx B Hs) as B2. destruct Hs as (cur & s & e & Ec & E). pose proof B as (W & M & _). assert (1 <= fs_max fs) as Hm by lia.
      assert (fr_last cur = t) as Et.
      { pose proof J as (_ & Hll & _). rewrite last_lookup in Hl. destruct (log_inv_last _ _ _ _ _ _ J Hl) as (t' & V2 & V3). assert (t' = t) as -> by congruence.
        unfold fs_current in Ec. rewrite (wf_current fs Hm W) in Ec. rewrite Hll in V2. destruct (length (fs_heap fs)) as [|n]; [discriminate|]. cbn [pred] in V2. unfold lasts in V2.
        change (map (fun f => fr_last f) (fs_heap fs)) with ((fun f => fr_last f) <$> fs_heap fs) in V2. rewrite list_lookup_fmap, Ec in V2. cbn in V2. congruence. }
      rewrite Et in E. pose proof (log_create mx q i l fs t s e mo fs2 Hmx B J E) as J2.
      destruct (IH _ [(t, mo)] B2 J2 (last_snoc _ _) eq_refl) as (m & B3 & J3). exists (S m). split; [auto|]. cbn [replicate]. now rewrite <- app_assoc in J3.
  Qed.

  Lemma log_tick_inv mx q i l fs fuel tk mo lst fs' : 1 <= mx -> base mx q fs -> log_inv q i l fs -> fs_on_new_tick fuel fs tk mo lst = (fs', Ok ()) ->
    base mx q fs' /\ log_inv q i (deal l (length (fs_heap fs')) tk mo) fs' /\
    (length (fs_heap fs') = length l \/ exists m, length (fs_heap fs') = (length l + m + 1)%nat).
  Proof.
    intros Hmx B J E. pose proof B as (W & M & _). assert (1 <= fs_max fs) as Hm by lia. pose proof J as (R & Hl & He). destruct (tick_shape _ _ _ _ _ _ E Hm W) as [[Hne Ea]|(fs1 & s & e & Hg & W1 & C1 & Ec)].
    - assert (base mx q fs') as B' by (eapply base_add; eauto). assert (length l <> 0)%nat as Hl0 by (rewrite Hl; destruct (fs_heap fs); [congruence|discriminate]).
      destruct (last l) as [b|] eqn:Eb; [|apply last_None in Eb; subst l; now cbn in Hl0]. destruct (log_add mx q i l b fs tk mo fs' Hmx B J Eb Ea) as [J' L'].
      split; [auto|]. unfold deal. rewrite Eb, L', <- Hl, Nat.eqb_refl. auto.
    - destruct (last l) as [b|] eqn:Eb.
      + assert (exists t, last (map fst b) = Some t) as [t Ht].
        { pose proof Eb as Eb'. rewrite last_lookup in Eb'. destruct (log_inv_last _ _ _ _ _ _ J Eb') as (t & _ & V3). eauto. }
        destruct (log_gaps mx q i mo t fs fs1 Hmx Hg l b B J Eb Ht) as (m & B1 & J1). assert (base mx q fs') as B' by (eapply base_create; eauto).
        pose proof (log_create mx q i _ fs1 tk s e mo fs' Hmx B1 J1 Ec) as J2. pose proof J2 as (_ & Hl2 & _). rewrite !app_length, replicate_length in Hl2. cbn [length] in Hl2.
        split; [auto|]. split; [|right; exists m; lia]. unfold deal. rewrite Eb, <- Hl2. destruct (Nat.eqb_spec (length l + m + 1) (length l)); [lia|]. replace (length l + m + 1 - length l - 1)%nat with m by lia.
        assert (match last b with Some (t0, _) => [(t0, mo)] | None => [] end = [(t, mo)]) as ->.
        { rewrite last_lookup in Ht. change (map fst b) with (fst <$> b) in Ht. rewrite list_lookup_fmap, fmap_length in Ht. rewrite last_lookup. destruct (b !! pred (length b)) as [[t0 m0]|]; [|discriminate]. cbn in Ht. congruence. }
        now rewrite <- app_assoc in J2.
      + apply last_None in Eb. subst l. cbn [length] in Hl. assert (fs1 = fs) as ->.
        { inversion Hg as [|? fs2 ? (cur & s' & e' & Ecur & _) _]; [auto|]. unfold fs_current in Ecur. rewrite (wf_current fs Hm W), <- Hl in Ecur. discriminate. }
        assert (base mx q fs') as B' by (eapply base_create; eauto). pose proof (log_create mx q i _ fs tk s e mo fs' Hmx B J Ec) as J2. split; [auto|]. split; [exact J2|].
        right. exists 0%nat. destruct J2 as (_ & J2 & _). rewrite <- J2. reflexivity.
  Qed.

  Lemma deal_concat l rs tk mo n : (forall b x, b ∈ l -> x ∈ map fst b -> x ∈ map fst rs) ->
    forall b x, b ∈ deal l n tk mo -> x ∈ map fst b -> x ∈ map fst (rs ++ [(tk, mo)]).
  Proof.
    intros Hc b x Hb Hx. rewrite map_app. apply elem_of_app. unfold deal in Hb. destruct (last l) as [b0|] eqn:Eb.
    - assert (b0 ∈ l) as Hin by (rewrite last_lookup in Eb; eapply elem_of_list_lookup_2; eauto). destruct (Nat.eqb n (length l)).
      + apply elem_of_app in Hb as [Hb|Hb].
        * left. apply (Hc b); [|auto]. rewrite <- (take_drop (length l - 1) l). set_solver.
        * apply elem_of_list_singleton in Hb as ->. rewrite map_app in Hx. apply elem_of_app in Hx as [Hx|Hx]; [left; eauto|right; exact Hx].
      + apply elem_of_app in Hb as [Hb|Hb]; [left; eauto|]. apply elem_of_app in Hb as [Hb|Hb].
        * apply elem_of_replicate_inv in Hb as ->. left. destruct (last b0) as [[t m]|] eqn:El; [|inversion Hx]. cbn [map fst] in Hx. apply elem_of_list_singleton in Hx as ->.
          apply (Hc b0); [auto|]. apply elem_of_list_fmap. exists (t, m). split; [auto|]. rewrite last_lookup in El. eapply elem_of_list_lookup_2; eauto.
        * apply elem_of_list_singleton in Hb as ->. right. exact Hx.
    - apply elem_of_list_singleton in Hb as ->. right. exact Hx.
  Qed.

  (** C44: the value of every frame is the summary of the ticks of that frame it listens to. *)
  Lemma log_summary u q ref mx i G fs0 l rs fs : 1 <= mx -> fset_init u q ref mx = Ok fs0 ->
    fs_log (only i) G (fst (add_indicator fs0 i)) l rs fs ->
    base mx q fs /\ log_inv q i l fs /\ (forall b x, b ∈ l -> x ∈ map fst b -> x ∈ map fst rs).
  Proof.
    intros Hmx E0 Hh. pose proof (fset_init_wf _ _ _ _ _ E0) as (_ & Hn & _). pose proof (base_init _ _ _ _ _ E0) as B0.
    induction Hh as [|l rs fs j Hh (B & (R & Hl & He) & Hc) Ho|l rs fs e Hh IH|l rs fs fuel tk mo lst fs' Hh (B & J & Hc) E HG].
    - split; [now apply base_ind|]. split; [|intros b x Hb; inversion Hb]. destruct B0 as (_ & _ & Q0 & _). split; [rewrite add_indicator_get, String.eqb_refl, Q0; auto|].
      destruct (add_indicator_frames fs0 i) as (-> & _). rewrite Hn. split; [auto|]. intros k b Hk. discriminate.
    - split; [now apply base_ind|]. split; [|auto]. destruct B as (_ & _ & Q0 & _). split.
      + rewrite add_indicator_get, Q0. destruct (String.eqb_spec (in_ref j) (in_ref i)) as [E|E]; [now rewrite (Ho E)|auto].
      + unfold views, bars. rewrite add_indicator_vals. destruct (add_indicator_frames fs j) as (-> & _). auto.
    - exact IH.
    - destruct (log_tick_inv mx q i l fs fuel tk mo lst fs' Hmx B J E) as (B' & J' & _). split; [auto|]. split; [auto|]. now apply deal_concat.
  Qed.
  Lemma log_hears u q ref mx i G fs0 l rs fs : 1 <= mx -> fset_init u q ref mx = Ok fs0 ->
    fs_log (only i) G (fst (add_indicator fs0 i)) l rs fs -> comparable (map fst rs) ->
    length l = length (fs_heap fs) /\
    forall k b f, l !! k = Some b -> fs_heap fs !! k = Some f -> last (map fst b) = Some (fr_last f) /\ hears i b (value_at fs (in_ref i) k).
  Proof.
    intros Hmx E0 Hh Hc. destruct (log_summary _ _ _ _ _ _ _ _ _ _ Hmx E0 Hh) as (B & J & Hin). pose proof J as (_ & Hl & He). split; [auto|]. intros k b f Hb Hf.
    destruct (He k b Hb) as (v & bb & V1 & _ & _ & _ & V4). destruct (log_inv_last _ _ _ _ _ _ J Hb) as (t & V2 & V3). split.
    - unfold lasts in V2. change (map (fun f => fr_last f) (fs_heap fs)) with ((fun f => fr_last f) <$> fs_heap fs) in V2. rewrite list_lookup_fmap, Hf in V2. cbn in V2. congruence.
    - rewrite value_at_vals, V1. unfold hears. destruct v as [iv|]; [|exact V4]. destruct V4 as (_ & V4 & _). apply isum_summary; [|auto]. eapply comparable_sub; [|exact Hc].
      intros x Hx. apply (Hin b); [eapply elem_of_list_lookup_2; eauto|]. unfold heard in Hx. apply elem_of_list_fmap in Hx as (y & -> & Hy).
      apply elem_of_list_In, filter_In in Hy as [Hy _]. apply elem_of_list_fmap. exists y. split; [auto|]. now apply elem_of_list_In.
  Qed.
  Lemma log_tells u q ref mx i mk tl G fs0 l rs fs k b : 1 <= mx -> fset_init u q ref mx = Ok fs0 -> in_kind i = KCustom mk tl ->
    fs_log (only i) G (fst (add_indicator fs0 i)) l rs fs -> l !! k = Some b ->
    exists past, earlier l fs (in_ref i) k past /\ tells i mk tl past b (value_at fs (in_ref i) k).
  Proof.
    intros Hmx E0 Ek Hh Hb. destruct (log_summary _ _ _ _ _ _ _ _ _ _ Hmx E0 Hh) as (_ & (_ & Hl & He) & _). exists (take k (views (in_ref i) fs)). split.
    - pose proof (lookup_lt_Some _ _ _ Hb) as Hk. split; [rewrite take_length, views_length; lia|]. intros j v Hj. apply lookup_take_Some in Hj as [Hj Hjk].
      destruct (lookup_lt_is_Some_2 l j ltac:(lia)) as [b' Eb']. exists b'. split; [auto|]. destruct (He j b' Eb') as (v0 & bb & V1 & V2 & V3 & _).
      unfold views in Hj. apply lookup_zip_with_Some in Hj as (bb' & v0' & -> & J1 & J2). rewrite V2 in J1. rewrite V1 in J2. injection J1 as <-. injection J2 as <-.
      split; [exact V3|]. cbn. now rewrite value_at_vals, V1.
    - destruct (He k b Hb) as (v & bb & V1 & _ & _ & _ & V4). rewrite value_at_vals, V1. destruct v as [iv|]; [|exact V4]. now apply V4.
  Qed.
  (** A class that does not look at the frames: a fold over the ticks. *)
  Lemma told_fold mk tl past b0 (g : tick F -> list F) (f : list F -> tick F * bool -> list F) :
    (forall p o, mk p o = Some (g (v_last o))) -> (forall p o t mo d, tl p o t mo d = Some (f d (t, mo))) ->
    forall b d, told mk tl past b0 b d -> exists t mo b', b = (t, mo) :: b' /\ d = fold_left f b' (g t).
  Proof.
    intros Hm Hf b d Ht. induction Ht as [self own t mo d _ (_ & Hs & _) Em|self own b t mo d d' Ht (t0 & mo0 & b' & -> & ->) _ _ Et].
    - exists t, mo, []. split; [auto|]. rewrite Hm in Em. rewrite map_app in Hs. cbn [map fst] in Hs. rewrite last_snoc in Hs. cbn. congruence.
    - exists t0, mo0, (b' ++ [(t, mo)]). split; [auto|]. rewrite fold_left_app. cbn. rewrite Hf in Et. congruence.
  Qed.
  Lemma from_heard_app i b0 b1 : heard i b0 = [] -> heard i (take 1 b1) <> [] -> from_heard i (b0 ++ b1) = b1.
  Proof.
    intros H0 H1. induction b0 as [|[t mo] b0 IH].
    - destruct b1 as [|x b1]; [now destruct H1|]. cbn [take app from_heard] in *. unfold heard in H1. cbn [List.filter] in H1. now destruct (negb (in_mopen i) || snd x).
    - unfold heard in H0. cbn [List.filter snd] in H0. cbn [app from_heard snd]. destruct (negb (in_mopen i) || mo); [discriminate|]. now apply IH.
  Qed.
  Lemma from_heard_nil i b : heard i b = [] -> from_heard i b = [].
  Proof. induction b as [|[t mo] b IH]; [reflexivity|]. unfold heard. cbn [List.filter snd from_heard]. destruct (negb (in_mopen i) || mo); [discriminate|exact IH]. Qed.
  Lemma log_fold u q ref mx i mk tl (g : tick F -> list F) (f : list F -> tick F * bool -> list F) G fs0 l rs fs k b : 1 <= mx -> fset_init u q ref mx = Ok fs0 -> in_kind i = KCustom mk tl ->
    (forall p o, mk p o = Some (g (v_last o))) -> (forall p o t mo d, tl p o t mo d = Some (f d (t, mo))) ->
    fs_log (only i) G (fst (add_indicator fs0 i)) l rs fs -> l !! k = Some b ->
    custom_data (value_at fs (in_ref i) k) = match from_heard i b with [] => None | (t, _) :: b' => Some (fold_left f b' (g t)) end.
  Proof.
    intros Hmx E0 Ek Hm Hf Hh Hb. destruct (log_tells _ _ _ _ _ _ _ _ _ _ _ _ _ _ Hmx E0 Ek Hh Hb) as (past & _ & Ht). unfold tells in Ht.
    destruct (value_at fs (in_ref i) k) as [iv|]; [|now rewrite from_heard_nil]. destruct Ht as (b0 & b1 & d & -> & H0 & H1 & Ht & Ed). rewrite (from_heard_app _ _ _ H0 H1).
    destruct (told_fold _ _ _ _ g f Hm Hf _ _ Ht) as (t & mo & b' & -> & ->). cbn. now rewrite Ed.
  Qed.
  (** No tick is lost nor repeated when no frame is created for an empty period. *)
  Lemma log_open u q ref mx i fs0 l rs fs : 1 <= mx -> fset_init u q ref mx = Ok fs0 ->
    fs_log (only i) no_gap_at_opening (fst (add_indicator fs0 i)) l rs fs ->
    forall b x, b ∈ l -> (x, true) ∈ b -> (x, true) ∈ rs.
  Proof.
    intros Hmx E0 Hh. pose proof (fset_init_wf _ _ _ _ _ E0) as (_ & Hn & _). pose proof (base_init _ _ _ _ _ E0) as B0.
    assert ((forall b x, b ∈ l -> (x, true) ∈ b -> (x, true) ∈ rs) /\ (forall b, last l = Some b -> exists t m m', last b = Some (t, m) /\ last rs = Some (t, m'))) as [Hx _]; [|exact Hx].
    induction Hh as [|l rs fs j Hh IH Ho|l rs fs e Hh IH|l rs fs fuel tk mo lst fs' Hh [IH1 IH2] E HG]; [|exact IH|exact IH|].
    - split; [intros b x Hb; inversion Hb|discriminate].
    - destruct (log_summary _ _ _ _ _ _ _ _ _ _ Hmx E0 Hh) as (B & J & _). destruct (log_tick_inv mx q i l fs fuel tk mo lst fs' Hmx B J E) as (_ & (_ & Hlen & _) & Hn').
      pose proof J as (_ & Hl & _). unfold no_gap_at_opening in HG. rewrite <- Hl in HG. set (n := length (fs_heap fs')) in *. unfold deal. rewrite last_snoc. destruct (last l) as [b0|] eqn:Eb.
      + assert (b0 ∈ l) as Hin by (rewrite last_lookup in Eb; eapply elem_of_list_lookup_2; eauto). destruct (IH2 _ eq_refl) as (t0 & m0 & m0' & L1 & L2).
        destruct (Nat.eqb_spec n (length l)) as [En|En].
        * split.
          -- intros b x Hb Hx. apply elem_of_app in Hb as [Hb|Hb].
             ++ apply elem_of_app. left. apply (IH1 b); [|auto]. rewrite <- (take_drop (length l - 1) l). set_solver.
             ++ apply elem_of_list_singleton in Hb as ->. apply elem_of_app in Hx as [Hx|Hx]; apply elem_of_app; [left; eauto|right; exact Hx].
          -- intros b Hb. rewrite last_snoc in Hb. injection Hb as <-. rewrite last_snoc. eauto 10.
        * split.
          -- intros b x Hb Hx. apply elem_of_app. apply elem_of_app in Hb as [Hb|Hb]; [left; eauto|]. apply elem_of_app in Hb as [Hb|Hb].
             ++ pose proof Hb as Hr. apply elem_of_replicate_inv in Hb as ->. left. rewrite L1 in Hx. apply elem_of_list_singleton in Hx as [= -> <-].
                destruct HG as [t Ht]; [auto| |].
                ** destruct Hn' as [Hn'|[m Hn']]; [lia|]. destruct m as [|m]; [|lia]. exfalso. replace (n - length l - 1)%nat with 0%nat in Hr by lia. inversion Hr.
                ** rewrite L2 in Ht. injection Ht as -> ->. rewrite last_lookup in L2. eapply elem_of_list_lookup_2; eauto.
             ++ apply elem_of_list_singleton in Hb as ->. right. exact Hx.
          -- intros b Hb. rewrite app_assoc, last_snoc in Hb. injection Hb as <-. cbn. eauto 10.
      + split; [|intros b [= <-]; cbn; eauto 10]. intros b x Hb Hx. apply elem_of_list_singleton in Hb as ->. apply elem_of_app. right. exact Hx.
  Qed.
  Lemma log_heard_open u q ref mx i fs0 l rs fs b x : 1 <= mx -> fset_init u q ref mx = Ok fs0 -> in_mopen i = true ->
    fs_log (only i) no_gap_at_opening (fst (add_indicator fs0 i)) l rs fs -> b ∈ l -> x ∈ heard i b -> (x, true) ∈ rs.
  Proof.
    intros Hmx E0 Hm Hh Hb Hx. apply (log_open u q ref mx i fs0 l rs fs Hmx E0 Hh b); [auto|]. unfold heard in Hx. apply elem_of_list_fmap in Hx as ([y m] & -> & Hy).
    apply elem_of_list_In, filter_In in Hy as [Hy Hf]. rewrite Hm in Hf. cbn in Hf. subst m. now apply elem_of_list_In.
  Qed.

  (** A summary determines the four ticks. *)
  Lemma earliest_max_unique ts t t' : earliest_max ts t -> earliest_max ts t' -> t = t'.
  Proof.
    intros (l1 & l2 & E & H1 & H2) (l1' & l2' & E' & H1' & H2'). assert (ts !! length l1 = Some t) as T by (rewrite E, lookup_app_r, Nat.sub_diag by lia; auto).
    assert (ts !! length l1' = Some t') as T' by (rewrite E', lookup_app_r, Nat.sub_diag by lia; auto).
    destruct (Nat.lt_trichotomy (length l1) (length l1')) as [Hlt|[Heq|Hlt]]; [|congruence|].
    - rewrite E', lookup_app_l in T by auto. rewrite E, lookup_app_r in T' by lia. destruct (length l1' - length l1)%nat as [|n] eqn:En; [lia|]. cbn in T'.
      apply elem_of_list_lookup_2, H1' in T. apply elem_of_list_lookup_2, H2 in T'. congruence.
    - rewrite E, lookup_app_l in T' by auto. rewrite E', lookup_app_r in T by lia. destruct (length l1 - length l1')%nat as [|n] eqn:En; [lia|]. cbn in T.
      apply elem_of_list_lookup_2, H2' in T. apply elem_of_list_lookup_2, H1 in T'. congruence.
  Qed.
  Lemma earliest_min_unique ts t t' : earliest_min ts t -> earliest_min ts t' -> t = t'.
  Proof.
    intros (l1 & l2 & E & H1 & H2) (l1' & l2' & E' & H1' & H2'). assert (ts !! length l1 = Some t) as T by (rewrite E, lookup_app_r, Nat.sub_diag by lia; auto).
    assert (ts !! length l1' = Some t') as T' by (rewrite E', lookup_app_r, Nat.sub_diag by lia; auto).
    destruct (Nat.lt_trichotomy (length l1) (length l1')) as [Hlt|[Heq|Hlt]]; [|congruence|].
    - rewrite E', lookup_app_l in T by auto. rewrite E, lookup_app_r in T' by lia. destruct (length l1' - length l1)%nat as [|n] eqn:En; [lia|]. cbn in T'.
      apply elem_of_list_lookup_2, H1' in T. apply elem_of_list_lookup_2, H2 in T'. congruence.
    - rewrite E, lookup_app_l in T' by auto. rewrite E', lookup_app_r in T by lia. destruct (length l1 - length l1')%nat as [|n] eqn:En; [lia|]. cbn in T.
      apply elem_of_list_lookup_2, H2' in T. apply elem_of_list_lookup_2, H1 in T'. congruence.
  Qed.
  Lemma isummary_unique ts iv iv' : isummary ts iv -> isummary ts iv' ->
    iv_first iv = iv_first iv' /\ iv_high iv = iv_high iv' /\ iv_low iv = iv_low iv' /\ iv_last iv = iv_last iv'.
  Proof.
    intros (A1 & A2 & A3 & A4) (B1 & B2 & B3 & B4). split; [congruence|]. split; [eapply earliest_max_unique; eauto|]. split; [eapply earliest_min_unique; eauto|congruence].
  Qed.
End proofs.
