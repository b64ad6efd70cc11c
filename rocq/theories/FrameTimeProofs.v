From Verif Require Export FramesProofs.
Open Scope Z_scope.

Section frame_time.
  Context {F : Type} `{Num F}.
  Implicit Types fs : fset F.
  Implicit Types ts l : list (tick F).

  (** ** Summaries *)
  Lemma comparable_sub l l' : (forall x, x ∈ l -> x ∈ l') -> comparable l' -> comparable l.
  Proof. intros Hs (A & B & C). repeat split; intros; eauto 10. Qed.
  Definition bsum l (b : bar) : Prop :=
    head l = Some (b_first b) /\ last l = Some (b_last b) /\ b_nb b = Z.of_nat (length l) /\
    (comparable l -> earliest_max l (b_high b) /\ earliest_min l (b_low b)).
  Lemma earliest_max_in l t : earliest_max l t -> t ∈ l.
  Proof. intros (l1 & l2 & -> & _). set_solver. Qed.
  Lemma earliest_min_in l t : earliest_min l t -> t ∈ l.
  Proof. intros (l1 & l2 & -> & _). set_solver. Qed.
  Lemma bsum_one t s e : bsum [t] (bar_new t s e).
  Proof.
    split; auto. split; auto. split; auto. intros _.
    split; exists [], []; (split; [reflexivity|]); split; intros x Hx; inversion Hx.
  Qed.
  Lemma bsum_snoc l b t : bsum l b -> bsum (l ++ [t]) (bar_tick b t).
  Proof.
    intros (H1 & H2 & H3 & H4). split; [destruct l; [discriminate|exact H1]|].
    split; [apply last_snoc|]. split; [simpl; rewrite H3, app_length; simpl; lia|].
    intros Hc. destruct H4 as [H4 H5]; [eapply comparable_sub, Hc; set_solver|].
    pose proof (earliest_max_in _ _ H4) as Hin. pose proof (earliest_min_in _ _ H5) as Hin'.
    destruct Hc as (Hir & Htr & Hnt). simpl.
    assert (t ∈ l ++ [t]) as Ht by set_solver.
    assert (forall x, x ∈ l -> x ∈ l ++ [t]) as Hsub by set_solver.
    assert (fltb (tk_value (b_high b)) (tk_value t) = true -> forall x, x ∈ l -> fltb (tk_value x) (tk_value t) = true) as Hall.
    { intros E x Hx. destruct H4 as (l1 & l2 & El & Hl1 & Hl2). rewrite El in Hx.
      apply elem_of_app in Hx as [Hx|Hx]; [|apply elem_of_cons in Hx as [->|Hx]]; auto.
      - apply (Htr x (b_high b) t); auto. apply Hsub. rewrite El. set_solver.
      - destruct (fltb (tk_value x) (tk_value t)) eqn:E1; auto.
        rewrite (Hnt (b_high b) x t) in E; auto. apply Hsub. rewrite El. set_solver. }
    assert (fltb (tk_value t) (tk_value (b_low b)) = true -> forall x, x ∈ l -> fltb (tk_value t) (tk_value x) = true) as Hall'.
    { intros E x Hx. destruct H5 as (l1 & l2 & El & Hl1 & Hl2). rewrite El in Hx.
      apply elem_of_app in Hx as [Hx|Hx]; [|apply elem_of_cons in Hx as [->|Hx]]; auto.
      - apply (Htr t (b_low b) x); auto. apply Hsub. rewrite El. set_solver.
      - destruct (fltb (tk_value t) (tk_value x)) eqn:E1; auto.
        rewrite (Hnt t x (b_low b)) in E; auto. apply Hsub. rewrite El. set_solver. }
    destruct (fltb (tk_value (b_high b)) (tk_value t)) eqn:E.
    - split.
      + exists l, []. split; auto. split; [intros x Hx; now apply Hall|intros x Hx; inversion Hx].
      + destruct H5 as (l1 & l2 & El & Hl1 & Hl2). exists l1, (l2 ++ [t]). split; [rewrite El, <- app_assoc; reflexivity|].
        split; auto. intros x Hx. apply elem_of_app in Hx as [Hx|Hx]; auto. apply elem_of_list_singleton in Hx as ->.
        destruct (fltb (tk_value t) (tk_value (b_low b))) eqn:E1; auto.
        rewrite <- (Hir t Ht). symmetry. apply (Htr t (b_low b) t); auto.
    - split.
      + destruct H4 as (l1 & l2 & El & Hl1 & Hl2). exists l1, (l2 ++ [t]). split; [rewrite El, <- app_assoc; reflexivity|].
        split; auto. intros x Hx. apply elem_of_app in Hx as [Hx|Hx]; auto. apply elem_of_list_singleton in Hx as ->. exact E.
      + destruct (fltb (tk_value t) (tk_value (b_low b))) eqn:E1.
        * exists l, []. split; auto. split; [intros x Hx; now apply Hall'|intros x Hx; inversion Hx].
        * destruct H5 as (l1 & l2 & El & Hl1 & Hl2). exists l1, (l2 ++ [t]). split; [rewrite El, <- app_assoc; reflexivity|].
          split; auto. intros x Hx. apply elem_of_app in Hx as [Hx|Hx]; auto. apply elem_of_list_singleton in Hx as ->. exact E1.
  Qed.

  (** ** Evolution of the bars of a timed frame set *)
  Definition gap_bar (u : unit_) (q : Z) (start : arrow) (bs bs' : list (bar (F:=F))) : Prop :=
    exists b e e', last bs = Some b /\ b_end b = Some e /\ arrow_ltb e start = true /\
      get_frame_end u q e = Ok e' /\ bs' = bs ++ [bar_new (b_last b) e (Some e')].
  Definition timed_step (u : unit_) (q : Z) (bs : list bar) (tk : tick F) (bs' : list bar) : Prop :=
    (exists b e, last bs = Some b /\ b_end b = Some e /\ arrow_ltb (tk_dt tk) e = true /\
       bs' = take (length bs - 1) bs ++ [bar_tick b tk]) \/
    (exists s e bs1,
       (forall b, last bs = Some b -> exists e0, b_end b = Some e0 /\ arrow_ltb (tk_dt tk) e0 = false) /\
       get_frame_start u q (tk_dt tk) = Ok s /\ get_frame_end u q s = Ok e /\
       rtc (gap_bar u q s) bs bs1 /\
       (forall b, last bs1 = Some b -> exists e0, b_end b = Some e0 /\ arrow_ltb e0 s = false) /\
       bs' = bs1 ++ [bar_new tk s (Some e)]).

  Lemma current_last fs : 1 <= fs_max fs -> wf fs -> fs_current fs = last (fs_heap fs).
  Proof.
    intros Hmx Hwf. unfold fs_current. rewrite (wf_current fs Hmx Hwf), last_lookup.
    destruct (length (fs_heap fs)) as [|n] eqn:E; simpl; auto. destruct (fs_heap fs); [auto|discriminate].
  Qed.
  Lemma current_bar fs : 1 <= fs_max fs -> wf fs -> last (bars fs) = bar_of <$> fs_current fs.
  Proof. intros Hmx Hwf. rewrite (current_last fs Hmx Hwf). unfold bars. now rewrite fmap_last. Qed.

  Lemma fill_step_bars start mo fs : 1 <= fs_max fs -> wf fs ->
    match fill_step start mo fs with
    | inl fs' => wf fs' /\ same_conf fs fs' /\ gap_bar (fs_unit fs) (fs_q fs) start (bars fs) (bars fs')
    | inr (fs', Ok _) => fs' = fs /\ (forall b, last (bars fs) = Some b -> exists e0, b_end b = Some e0 /\ arrow_ltb e0 start = false)
    | inr (fs', Err _) => True
    end.
  Proof.
    intros Hmx Hwf. pose proof (current_bar fs Hmx Hwf) as Hcb. unfold fill_step. destruct (fs_current fs) as [cur|].
    - simpl in Hcb. destruct (fr_end cur) as [e|] eqn:Ee; [|auto].
      destruct (arrow_ltb e start) eqn:El.
      + destruct (get_frame_end _ _ _) as [e'|] eqn:Eg; [|auto].
        destruct (create_new_frame _ _ _ _ _) as [fs' r] eqn:Ec. apply create_spec in Ec; auto.
        destruct Ec as [[-> [x ->]]|(-> & H1 & H2 & H3)]; auto. split; auto. split; auto.
        exists (bar_of cur), e, e'. repeat (split; auto).
      + split; auto. intros b Hb. rewrite Hcb in Hb. injection Hb as <-. eauto.
    - split; auto. intros b Hb. rewrite Hcb in Hb. discriminate.
  Qed.

  Lemma timed_tick_bars fuel fs tk mo last fs' : fs_unit fs <> TICK -> 1 <= fs_max fs -> wf fs ->
    fs_on_new_tick fuel fs tk mo last = (fs', Ok ()) -> timed_step (fs_unit fs) (fs_q fs) (bars fs) tk (bars fs').
  Proof.
    intros Hu Hmx Hwf. pose proof (current_bar fs Hmx Hwf) as Hcb.
    assert ((if is_frame_over_timed fs tk then create_new_frame_timed fuel fs tk mo else add_tick_to_last fs tk mo) = (fs', Ok ()) ->
            timed_step (fs_unit fs) (fs_q fs) (bars fs) tk (bars fs')) as Hgo; [|unfold fs_on_new_tick; destruct (fs_unit fs); try congruence; exact Hgo].
    destruct (is_frame_over_timed fs tk) eqn:Eo.
    - unfold create_new_frame_timed.
      destruct (get_frame_start _ _ _) as [start|] eqn:Es; [|discriminate].
      destruct (get_frame_end _ _ _) as [e1|] eqn:Ee; [|discriminate].
      destruct (ploop fuel (fill_step start mo) fs) as [s'|[s' [[]|x]]] eqn:Ep; try discriminate.
      apply ploop_inr in Ep as (n & s1 & _ & Hst & Hr).
      assert (wf s1 /\ same_conf fs s1 /\ rtc (gap_bar (fs_unit fs) (fs_q fs) start) (bars fs) (bars s1)) as (W1 & C1 & R1).
      { clear Hr Eo. induction n as [|n IH] in s1, Hst |- *.
        - inversion Hst; subst. split; [auto|]. split; [apply same_conf_refl|apply rtc_refl].
        - replace (S n) with (n + 1)%nat in Hst by lia. apply nsteps_split in Hst as (a & Ha & Hb).
          inversion Hb as [|? ? ? ? Hb1 Hb2]; subst. inversion Hb2; subst. destruct (IH _ Ha) as (W & C & R).
          pose proof (fill_step_bars start mo a) as Hf. unfold pstep in Hb1. rewrite Hb1 in Hf.
          pose proof C as (_ & C2 & C3 & C4 & _). rewrite C2, C3, C4 in Hf. destruct (Hf Hmx W) as (W' & C' & G).
          split; auto. split; [eapply same_conf_trans; eauto|]. eapply rtc_r; eauto. }
      pose proof (fill_step_bars start mo s1) as Hf. rewrite Hr in Hf.
      pose proof C1 as (_ & C2 & C3 & C4 & _). rewrite C4 in Hf. destruct (Hf Hmx W1) as [-> Hend].
      intros Ec. apply create_spec in Ec; [|lia|auto]. destruct Ec as [[_ [x Ex]]|(_ & _ & _ & Eb)]; [discriminate|].
      right. exists start, e1, (bars s1). split; [|repeat (split; auto)].
      intros b Hb. rewrite Hcb in Hb. destruct (fs_current fs) as [cur|] eqn:Ecur; [|discriminate]. injection Hb as <-.
      unfold is_frame_over_timed in Eo. rewrite Ecur in Eo. simpl.
      destruct (fr_end cur) as [e0|] eqn:E0.
      + exists e0. split; auto. unfold arrow_geb in Eo. now apply negb_true_iff in Eo.
      + exfalso. destruct (rtc_inv _ _ R1) as [Eb1|(y0 & Hg & _)].
        * destruct (Hend (bar_of cur)) as (e0 & He0 & _); [rewrite <- Eb1; exact Hcb|]. simpl in He0. congruence.
        * destruct Hg as (b & e & e' & Hl & He & _). rewrite Hcb in Hl. simpl in Hl. injection Hl as <-. simpl in He. congruence.
    - intros Ea. apply add_tick_spec in Ea as (_ & _ & Eb); auto. left.
      unfold is_frame_over_timed in Eo. destruct (fs_current fs) as [cur|] eqn:Ecur; [|discriminate].
      destruct (fr_end cur) as [e0|] eqn:E0; [|discriminate]. simpl in Hcb. exists (bar_of cur), e0.
      rewrite Hcb in Eb. repeat (split; auto). unfold arrow_geb in Eo. now apply negb_false_iff in Eo.
  Qed.

  Lemma fs_run_wf u q mx ts fs : 1 <= mx -> fs_run u q mx ts fs ->
    wf fs /\ fs_max fs = mx /\ fs_unit fs = u /\ fs_q fs = q /\ check_unit u q = Ok ().
  Proof.
    intros Hmx Hr. induction Hr as [ref fs E|ts fs i Hr IH|ts fs e Hr IH|ts fs fuel tk mo lst fs' Hr IH E].
    - apply fset_init_wf in E. tauto.
    - destruct (add_indicator_frames fs i) as (E1 & E2 & E4 & E5 & E3). unfold wf. rewrite E1, E2, E3, E4, E5. exact IH.
    - exact IH.
    - destruct IH as (IH1 & IH2 & IH3 & IH4 & IH5).
      apply fs_tick_wf in E; auto; [|lia]. destruct E as [E1 (_ & E3 & E4 & E2 & _)]. repeat (split; [congruence || auto|]). auto.
  Qed.
  (** Induction principle on the bars. *)
  Lemma fs_run_bars u q mx ts fs : 1 <= mx -> u <> TICK -> fs_run u q mx ts fs ->
    (ts = [] /\ bars fs = []) \/
    (exists ts0 tk fs0, ts = ts0 ++ [tk] /\ fs_run u q mx ts0 fs0 /\ timed_step u q (bars fs0) tk (bars fs)).
  Proof.
    intros Hmx Hu Hr. induction Hr as [ref fs E|ts fs i Hr IH|ts fs e Hr IH|ts fs fuel tk mo lst fs' Hr IH E].
    - left. apply fset_init_wf in E as (_ & E & _). split; auto. unfold bars. now rewrite E.
    - destruct (add_indicator_frames fs i) as (E1 & _). unfold bars in *. rewrite E1. exact IH.
    - exact IH.
    - right. pose proof (fs_run_wf _ _ _ _ _ Hmx Hr) as (W1 & W2 & W3 & W4 & _).
      apply timed_tick_bars in E; try congruence. exists ts, tk, fs. rewrite W3, W4 in E. auto.
  Qed.

  (** ** Zones: comparisons inside one zone are wall-clock comparisons *)
  Lemma arrow_ltb_same a b : ar_tz a = ar_tz b -> arrow_ltb a b = (ar_wall a <? ar_wall b).
  Proof. intros E. unfold arrow_ltb. now rewrite E, Nat.eqb_refl. Qed.

  (** ** C32: the current frame, in every zone resolving skipped times forwards *)
  Lemma start_tz u q dt s : 0 < q -> u <> TICK -> get_frame_start u q dt = Ok s -> ar_tz s = ar_tz dt.
  Proof. intros Hq Hu E. now apply get_frame_start_wall in E. Qed.
  Lemma end_tz u q s e : u <> TICK -> get_frame_end u q s = Ok e -> ar_tz e = ar_tz s.
  Proof. intros Hu E. apply get_frame_end_inv in E as (? & _ & _ & ? & _); auto. Qed.

  Lemma in_order_snoc z ts tk : in_order z (ts ++ [tk]) ->
    in_order z ts /\ ar_tz (tk_dt tk) = z /\ forall t, t ∈ ts -> tk_wall t <= tk_wall tk.
  Proof.
    intros [H1 H2]. apply Forall_app in H1 as [H1 H1']. rewrite Forall_singleton in H1'.
    split; [split; auto|split; [exact H1'|]].
    - induction ts as [|a ts IH]; [constructor|]. simpl in H2. inversion H2 as [|? ? Hs Hf]; subst. inversion H1; subst. constructor; auto.
      apply Forall_app in Hf as [Hf _]. auto.
    - induction ts as [|a ts IH]; intros t Ht; [inversion Ht|]. simpl in H2. inversion H2 as [|? ? Hs Hf]; subst.
      apply elem_of_cons in Ht as [->|Ht].
      + apply Forall_app in Hf as [_ Hf]. now rewrite Forall_singleton in Hf.
      + apply IH; auto. now inversion H1.
  Qed.

  Definition cur_ok (z : tzinfo) ts (bs : list bar) : Prop :=
    exists b e t, last bs = Some b /\ b_end b = Some e /\ last ts = Some t /\ b_last b = t /\
      ar_tz (b_start b) = z /\ ar_tz e = z /\ ar_wall (b_start b) <= tk_wall t < ar_wall e.
  Lemma cur_ok_run u q mx z ts fs : 1 <= mx -> u <> TICK -> 0 < q -> resolves_forward z ->
    fs_run u q mx ts fs -> in_order z ts -> ts <> [] -> cur_ok z ts (bars fs).
  Proof.
    intros Hmx Hu Hq Hz. revert fs. induction ts as [|tk ts IH] using rev_ind; intros fs Hr Ho Hne; [congruence|].
    pose proof (fs_run_wf _ _ _ _ _ Hmx Hr) as (_ & _ & _ & _ & Hck). apply check_unit_spec in Hck; auto.
    apply fs_run_bars in Hr as [[E _]|(ts0 & tk0 & fs0 & E & Hr & Hs)]; auto; [destruct ts; discriminate|].
    apply app_inj_2 in E as [<- [= <-]]; [|reflexivity]. apply in_order_snoc in Ho as (Ho & Htz & Hle).
    destruct Hs as [(b & e & Hb & He & Hlt & Hbs)|(s & e & bs1 & _ & Hs & He & _ & _ & Hbs)].
    - destruct (decide (ts = [])) as [->|Hts].
      { apply fs_run_bars in Hr as [[_ E]|(? & ? & ? & E & _)]; auto; [rewrite E in Hb; discriminate|destruct x; discriminate]. }
      destruct (IH _ Hr Ho Hts) as (b' & e' & t & H1 & H2 & H3 & H4 & H5 & H6 & H7).
      assert (b' = b) as -> by congruence. assert (e' = e) as -> by congruence.
      exists (bar_tick b tk), e, tk. rewrite Hbs, !last_snoc. repeat (split; auto); simpl.
      + assert (t ∈ ts) by (apply last_Some in H3 as [l' ->]; set_solver). specialize (Hle t ltac:(auto)). lia.
      + rewrite arrow_ltb_same in Hlt by congruence. apply Z.ltb_lt in Hlt. exact Hlt.
    - exists (bar_new tk s (Some e)), e, tk. rewrite Hbs, !last_snoc. pose proof (start_tz _ _ _ _ Hq Hu Hs). pose proof (end_tz _ _ _ _ Hu He).
      repeat (split; [first [reflexivity | simpl; congruence]|]). simpl.
      apply (dt_in_frame u q (tk_dt tk) s e); auto. now rewrite Htz.
  Qed.

  (** ** Exact structure in a zone without skipped times *)
  Section exact.
    Context (z : tzinfo) (u : unit_) (q : Z) (Hg : good u q) (Hz : no_skip z).
    Notation at_ k := (arrow_of_wall z (bnd u q k)).

    Lemma start_at dt s : ar_tz dt = z -> get_frame_start u q dt = Ok s ->
      exists k, s = at_ k /\ bnd u q k <= ar_wall dt < bnd u q (k + 1).
    Proof.
      intros Htz E. pose proof Hg as (Hu & Hq & _). destruct (frame_start_bnd _ _ _ _ Hg E) as (k & H1 & H2 & H3).
      apply get_frame_start_wall in E as (_ & H4 & H5); auto. exists k. split; auto. apply arrow_eq; simpl; congruence.
    Qed.
    Lemma end_at k e : get_frame_end u q (at_ k) = Ok e -> e = at_ (k + 1).
    Proof.
      intros E. pose proof Hg as (Hu & Hq & _). destruct (frame_end_bnd u q (at_ k) e k Hg eq_refl E) as [H1 H2].
      apply get_frame_end_inv in E as (w & _ & _ & H3 & H4); auto. simpl in *. rewrite Hz in H1. apply arrow_eq; simpl; congruence.
    Qed.
    Lemma at_ltb a b : arrow_ltb (at_ a) (at_ b) = true <-> a < b.
    Proof.
      rewrite arrow_ltb_same by auto. simpl. rewrite Z.ltb_lt. split; [apply bnd_inj_lt; auto|apply bnd_mono; auto].
    Qed.

    Definition bcovers ts (s e : Z) (b : bar) : Prop :=
      (ticks_in s e ts <> [] -> bsum (ticks_in s e ts) b) /\
      (ticks_in s e ts = [] -> exists t, last (filter (fun t => tk_wall t < s) ts) = Some t /\
         b_first b = t /\ b_high b = t /\ b_low b = t /\ b_last b = t /\ b_nb b = 1).
    Record BI ts (k0 : Z) (bs : list bar) : Prop := {
      bi_bar : forall i b, bs !! i = Some b ->
        b_start b = at_ (k0 + Z.of_nat i) /\ b_end b = Some (at_ (k0 + Z.of_nat i + 1)) /\
        bcovers ts (bnd u q (k0 + Z.of_nat i)) (bnd u q (k0 + Z.of_nat i + 1)) b;
      bi_in : forall t, t ∈ ts -> bnd u q k0 <= tk_wall t < bnd u q (k0 + Z.of_nat (length bs));
      bi_ne : bs <> [];
      bi_last : exists b t, last bs = Some b /\ last ts = Some t /\ b_last b = t }.

    Lemma filter_all {A} (P : A -> Prop) `{forall x, Decision (P x)} (l : list A) : (forall x, x ∈ l -> P x) -> filter P l = l.
    Proof.
      induction l as [|a l IH]; intros Ha; [reflexivity|]. rewrite filter_cons_True by (apply Ha; set_solver).
      f_equal. apply IH. intros x Hx. apply Ha. set_solver.
    Qed.
    Lemma filter_none {A} (P : A -> Prop) `{forall x, Decision (P x)} (l : list A) : (forall x, x ∈ l -> ~ P x) -> filter P l = [].
    Proof.
      induction l as [|a l IH]; intros Ha; [reflexivity|]. rewrite filter_cons_False by (apply Ha; set_solver).
      apply IH. intros x Hx. apply Ha. set_solver.
    Qed.

    (** A gap frame. *)
    Lemma BI_gap ts k0 bs b : BI ts k0 bs -> last bs = Some b ->
      BI ts k0 (bs ++ [bar_new (b_last b) (at_ (k0 + Z.of_nat (length bs))) (Some (at_ (k0 + Z.of_nat (length bs) + 1)))]).
    Proof.
      intros [B1 B2 B3 (b' & t & B4 & B5 & B6)] Hb. assert (b' = b) as -> by congruence. split.
      - intros i c Hc. apply lookup_app_Some in Hc as [Hc|[Hl Hc]]; [auto|].
        destruct (i - length bs)%nat as [|j] eqn:Ei; [|destruct j; discriminate]. injection Hc as <-.
        assert (i = length bs) as -> by lia. split; [auto|]. split; [auto|].
        assert (ticks_in (bnd u q (k0 + Z.of_nat (length bs))) (bnd u q (k0 + Z.of_nat (length bs) + 1)) ts = []) as E.
        { apply filter_none. intros x Hx. specialize (B2 x Hx). lia. }
        split; [congruence|]. intros _. exists t. rewrite filter_all; [|intros x Hx; specialize (B2 x Hx); lia].
        simpl. auto 10.
      - intros x Hx. specialize (B2 x Hx). rewrite app_length. simpl.
        pose proof (bnd_mono u q (k0 + Z.of_nat (length bs)) (k0 + Z.of_nat (length bs + 1)) Hg ltac:(lia)). lia.
      - intros E. destruct bs; discriminate.
      - exists (bar_new (b_last b) (at_ (k0 + Z.of_nat (length bs))) (Some (at_ (k0 + Z.of_nat (length bs) + 1)))), t.
        rewrite last_snoc. auto.
    Qed.
    Lemma ticks_in_snoc_out s e ts tk : ~ (s <= tk_wall tk < e) -> ticks_in s e (ts ++ [tk]) = ticks_in s e ts.
    Proof. intros Hn. unfold ticks_in. rewrite filter_app, filter_cons_False by auto. simpl. now rewrite app_nil_r. Qed.
    Lemma ticks_in_snoc_in s e ts tk : s <= tk_wall tk < e -> ticks_in s e (ts ++ [tk]) = ticks_in s e ts ++ [tk].
    Proof. intros Hn. unfold ticks_in. rewrite filter_app, filter_cons_True by auto. reflexivity. Qed.
    Lemma bcovers_snoc s e ts tk b : e <= tk_wall tk -> s < e -> bcovers ts s e b -> bcovers (ts ++ [tk]) s e b.
    Proof.
      intros Hle Hse [H1 H2]. split; rewrite ticks_in_snoc_out by lia; auto.
      intros E. destruct (H2 E) as (t & Ht & Hr). exists t. split; auto. rewrite filter_app, filter_cons_False by lia. simpl. now rewrite app_nil_r.
    Qed.
    (** A new frame with the tick. *)
    Lemma BI_new ts k0 bs tk : BI ts k0 bs ->
      bnd u q (k0 + Z.of_nat (length bs)) <= tk_wall tk < bnd u q (k0 + Z.of_nat (length bs) + 1) ->
      BI (ts ++ [tk]) k0 (bs ++ [bar_new tk (at_ (k0 + Z.of_nat (length bs))) (Some (at_ (k0 + Z.of_nat (length bs) + 1)))]).
    Proof.
      intros [B1 B2 B3 _] Hw. split.
      - intros i c Hc. apply lookup_app_Some in Hc as [Hc|[Hl Hc]].
        + pose proof (lookup_lt_Some _ _ _ Hc) as Hlt. destruct (B1 i c Hc) as (E1 & E2 & E3). split; auto. split; auto.
          apply bcovers_snoc; auto.
          * pose proof (bnd_mono_le u q (k0 + Z.of_nat i + 1) (k0 + Z.of_nat (length bs)) Hg ltac:(lia)). lia.
          * apply bnd_mono; auto. lia.
        + destruct (i - length bs)%nat as [|j] eqn:Ei; [|destruct j; discriminate]. injection Hc as <-.
          assert (i = length bs) as -> by lia. split; [auto|]. split; [auto|].
          assert (ticks_in (bnd u q (k0 + Z.of_nat (length bs))) (bnd u q (k0 + Z.of_nat (length bs) + 1)) (ts ++ [tk]) = [tk]) as E.
          { rewrite ticks_in_snoc_in by auto. unfold ticks_in. rewrite filter_none; auto. intros x Hx. specialize (B2 x Hx). lia. }
          split; rewrite E; [intros _; apply bsum_one|discriminate].
      - intros x Hx. rewrite app_length. simpl. replace (k0 + Z.of_nat (length bs + 1)) with (k0 + Z.of_nat (length bs) + 1) by lia.
        pose proof (bnd_mono u q (k0 + Z.of_nat (length bs)) (k0 + Z.of_nat (length bs) + 1) Hg ltac:(lia)).
        pose proof (bnd_mono_le u q k0 (k0 + Z.of_nat (length bs)) Hg ltac:(lia)).
        apply elem_of_app in Hx as [Hx|Hx]; [specialize (B2 x Hx); lia|]. apply elem_of_list_singleton in Hx as ->. lia.
      - intros E. destruct bs; discriminate.
      - eexists _, tk. rewrite !last_snoc. eauto.
    Qed.
    (** The first frame. *)
    Lemma BI_first k0 tk : bnd u q k0 <= tk_wall tk < bnd u q (k0 + 1) -> BI [tk] k0 [bar_new tk (at_ k0) (Some (at_ (k0 + 1)))].
    Proof.
      intros Hw. split.
      - intros i c Hc. destruct i; [|discriminate]. injection Hc as <-. rewrite Z.add_0_r. split; [auto|]. split; [auto|].
        assert (ticks_in (bnd u q k0) (bnd u q (k0 + 1)) [tk] = [tk]) as E by (unfold ticks_in; rewrite filter_cons_True by auto; reflexivity).
        split; rewrite E; [intros _; apply bsum_one|discriminate].
      - intros x Hx. apply elem_of_list_singleton in Hx as ->. exact Hw.
      - discriminate.
      - eexists _, tk. repeat split.
    Qed.
    (** One more tick in the current frame. *)
    Lemma BI_add ts k0 bs b tk t : BI ts k0 bs -> last bs = Some b -> last ts = Some t ->
      bnd u q (k0 + Z.of_nat (length bs) - 1) <= tk_wall t -> tk_wall t <= tk_wall tk < bnd u q (k0 + Z.of_nat (length bs)) ->
      BI (ts ++ [tk]) k0 (take (length bs - 1) bs ++ [bar_tick b tk]).
    Proof.
      intros [B1 B2 B3 _] Hb Ht Hw1 Hw2. pose proof Hb as Hb'. apply last_Some in Hb' as [l ->].
      rewrite app_length in *. simpl length in *. replace (length l + 1 - 1)%nat with (length l) by lia. rewrite take_app.
      replace (k0 + Z.of_nat (length l + 1) - 1) with (k0 + Z.of_nat (length l)) in Hw1 by lia.
      replace (k0 + Z.of_nat (length l + 1)) with (k0 + Z.of_nat (length l) + 1) in * by lia.
      split.
      - intros i c Hc. apply lookup_app_Some in Hc as [Hc|[Hl Hc]].
        + pose proof (lookup_lt_Some _ _ _ Hc) as Hlt. destruct (B1 i c) as (E1 & E2 & E3); [now apply lookup_app_l_Some|].
          split; auto. split; auto. apply bcovers_snoc; auto.
          * pose proof (bnd_mono_le u q (k0 + Z.of_nat i + 1) (k0 + Z.of_nat (length l)) Hg ltac:(lia)). lia.
          * apply bnd_mono; auto. lia.
        + destruct (i - length l)%nat as [|j] eqn:Ei; [|destruct j; discriminate]. injection Hc as <-.
          assert (i = length l) as -> by lia.
          destruct (B1 (length l) b) as (E1 & E2 & E3); [rewrite lookup_app_r, Nat.sub_diag by lia; auto|].
          split; [exact E1|]. split; [exact E2|].
          assert (t ∈ ticks_in (bnd u q (k0 + Z.of_nat (length l))) (bnd u q (k0 + Z.of_nat (length l) + 1)) ts) as Hin.
          { apply elem_of_list_filter. split; [lia|]. apply last_Some in Ht as [l' ->]. set_solver. }
          destruct E3 as [E3 _].
          assert (ticks_in (bnd u q (k0 + Z.of_nat (length l))) (bnd u q (k0 + Z.of_nat (length l) + 1)) ts <> []) as Hne
            by (intros E; rewrite E in Hin; inversion Hin).
          split; rewrite ticks_in_snoc_in by lia.
          * intros _. apply bsum_snoc. auto.
          * intros E. exfalso. eapply app_cons_not_nil. symmetry. exact E.
      - intros x Hx. rewrite app_length. simpl. replace (k0 + Z.of_nat (length l + 1)) with (k0 + Z.of_nat (length l) + 1) by lia.
        apply elem_of_app in Hx as [Hx|Hx]; [now apply B2|]. apply elem_of_list_singleton in Hx as ->.
        pose proof (bnd_mono_le u q k0 (k0 + Z.of_nat (length l)) Hg ltac:(lia)). lia.
      - intros E. eapply app_cons_not_nil. symmetry. exact E.
      - eexists _, tk. rewrite !last_snoc. eauto.
    Qed.

    Lemma BI_gaps ts k0 bs k bs1 : BI ts k0 bs -> rtc (gap_bar u q (at_ k)) bs bs1 -> k0 + Z.of_nat (length bs) <= k ->
      BI ts k0 bs1 /\ k0 + Z.of_nat (length bs1) <= k.
    Proof.
      intros HB Hr. induction Hr as [bs|bs bs' bs1 Hs Hr IH]; intros Hk; [auto|].
      destruct Hs as (b & e & e' & Hb & He & Hlt & Hge & ->).
      pose proof (BI_gap _ _ _ _ HB Hb) as HB'.
      assert (e = at_ (k0 + Z.of_nat (length bs))) as ->.
      { apply last_Some in Hb as [l ->]. destruct HB as [B1 _ _ _]. destruct (B1 (length l) b) as (_ & E2 & _).
        - rewrite lookup_app_r, Nat.sub_diag by lia. auto.
        - rewrite E2 in He. injection He as <-. rewrite app_length. simpl. f_equal. f_equal. lia. }
      apply end_at in Hge as ->. apply at_ltb in Hlt. apply IH; auto. rewrite app_length. simpl. lia.
    Qed.

    Lemma BI_run mx ts fs : 1 <= mx -> fs_run u q mx ts fs -> in_order z ts -> ts <> [] ->
      exists k0, BI ts k0 (bars fs) /\ (forall t, last ts = Some t -> bnd u q (k0 + Z.of_nat (length (bars fs)) - 1) <= tk_wall t).
    Proof.
      intros Hmx. pose proof Hg as (Hu & Hq & Hok). revert fs. induction ts as [|tk ts IH] using rev_ind; intros fs Hr Ho Hne; [congruence|].
      apply fs_run_bars in Hr as [[E _]|(ts0 & tk0 & fs0 & E & Hr & Hs)]; auto; [destruct ts; discriminate|].
      apply app_inj_2 in E as [<- [= <-]]; [|reflexivity]. apply in_order_snoc in Ho as (Ho & Htz & Hle).
      destruct (decide (ts = [])) as [->|Hts].
      - assert (bars fs0 = []) as E0.
        { apply fs_run_bars in Hr as [[_ E]|(? & ? & ? & E & _)]; auto. destruct x; discriminate. }
        rewrite E0 in Hs. destruct Hs as [(b & e & Hb & _)|(s & e & bs1 & _ & Hs & He & Hgap & _ & Hbs)]; [discriminate|].
        destruct (start_at _ _ Htz Hs) as (k & -> & Hk). apply end_at in He as ->.
        assert (bs1 = []) as ->.
        { inversion Hgap as [|x y w Hx]; subst; auto. destruct Hx as (b & e & e' & Hb & _). discriminate. }
        rewrite Hbs. exists k. split; [apply BI_first; exact Hk|]. intros t [= <-]. simpl length.
        replace (k + Z.of_nat 1 - 1) with k by lia. apply Hk.
      - destruct (IH _ Hr Ho Hts) as (k0 & HB & Hl). clear IH. exists k0.
        destruct Hs as [(b & e & Hb & He & Hlt & Hbs)|(s & e & bs1 & Hover & Hs & He & Hgap & Hend & Hbs)].
        + destruct (last ts) as [t|] eqn:Et; [|apply last_None in Et; congruence]. specialize (Hl t eq_refl).
          assert (e = at_ (k0 + Z.of_nat (length (bars fs0)))) as ->.
          { apply last_Some in Hb as [l El]. destruct HB as [B1 _ _ _]. destruct (B1 (length l) b) as (_ & E2 & _).
            - rewrite El, lookup_app_r, Nat.sub_diag by lia. auto.
            - rewrite E2 in He. injection He as <-. rewrite El, app_length. simpl. f_equal. f_equal. lia. }
          rewrite arrow_ltb_same in Hlt by auto. apply Z.ltb_lt in Hlt. simpl in Hlt.
          assert (t ∈ ts) as Hin by (apply last_Some in Et as [l' ->]; set_solver). specialize (Hle t Hin).
          rewrite Hbs. split; [eapply BI_add; eauto|].
          intros t' Ht'. rewrite last_snoc in Ht'. injection Ht' as <-.
          assert (length (bars fs0) <> 0%nat) as Hn0 by (destruct HB as [_ _ B3 _]; destruct (bars fs0); [congruence|discriminate]).
          rewrite app_length, take_length. simpl.
          replace (k0 + Z.of_nat ((length (bars fs0) - 1) `min` length (bars fs0) + 1) - 1) with (k0 + Z.of_nat (length (bars fs0)) - 1) by lia. lia.
        + destruct (start_at _ _ Htz Hs) as (k & -> & Hk). apply end_at in He as ->.
          assert (k0 + Z.of_nat (length (bars fs0)) <= k) as Hk0.
          { destruct HB as [B1 _ _ (b & t & B4 & _)]. destruct (Hover b B4) as (e0 & He0 & Hge).
            apply last_Some in B4 as [l El]. destruct (B1 (length l) b) as (_ & E2 & _).
            - rewrite El, lookup_app_r, Nat.sub_diag by lia. auto.
            - rewrite E2 in He0. injection He0 as <-. rewrite arrow_ltb_same in Hge by auto. apply Z.ltb_ge in Hge. simpl in Hge.
              rewrite El, app_length. simpl. enough (k0 + Z.of_nat (length l) + 1 < k + 1) by lia.
              apply (bnd_inj_lt u q); auto. lia. }
          destruct (BI_gaps _ _ _ _ _ HB Hgap Hk0) as [HB1 Hk1].
          assert (k0 + Z.of_nat (length bs1) = k) as Ek.
          { destruct HB1 as [B1 _ _ (b & t & B4 & _)]. destruct (Hend b B4) as (e0 & He0 & Hge).
            apply last_Some in B4 as [l El]. destruct (B1 (length l) b) as (_ & E2 & _).
            - rewrite El, lookup_app_r, Nat.sub_diag by lia. auto.
            - rewrite E2 in He0. injection He0 as <-.
              assert (~ (k0 + Z.of_nat (length l) + 1 < k)) as Hnlt by (rewrite <- at_ltb, Hge; discriminate).
              rewrite El, app_length in *. simpl in *. lia. }
          subst k. rewrite Hbs. split; [apply BI_new; auto|].
          intros t' Ht'. rewrite last_snoc in Ht'. injection Ht' as <-. rewrite app_length. simpl.
          replace (k0 + Z.of_nat (length bs1 + 1) - 1) with (k0 + Z.of_nat (length bs1)) by lia. apply Hk.
    Qed.
  End exact.
End frame_time.
