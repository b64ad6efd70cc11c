(** Sharing an indicator object between frame sets. *)
From Verif Require Import FramesProofs.
From Verif Require Export SpecShared ChartProofs.
Open Scope Z_scope.

Section proofs.
  Context {F : Type} `{Num F}.
  Implicit Types (w : world F) (fs : fset F) (s : sworld F) (l : list (sop F)) (i : indicator F) (ob : iobj F).

  (** ** Settings of frame sets that ticks and calls do not change *)
  Definition sconf fs : Z * dict (indicator F) := (fs_q fs, fs_inds fs).
  Lemma tick_sconf pr w eid tk : sconf <$> w_fsets (fst (epic_on_new_tick pr w eid tk)) = sconf <$> w_fsets w.
  Proof.
    unfold epic_on_new_tick. destruct (w_epics w !! eid) as [e|]; [|auto]. cbv zeta. destruct (arrow_ltb _ _); [auto|]. set (tk' := tick_to _ _).
    set (e' := ep_set_last _ _ _). set (a := upd_epics w _).
    assert (sconf <$> w_fsets (fst (forM (update_frame_set tk') a (ep_fsets e'))) = sconf <$> w_fsets w) as E.
    { apply (forM_inv (fun w1 => sconf <$> w_fsets w1 = sconf <$> w_fsets w)); [|auto]. intros w1 x _ <-. unfold update_frame_set.
      destruct (w_fsets w1 !! x.2) as [fs|] eqn:Ef; [|auto]. destruct (fs_epic_state w1 fs) as [mo lst].
      pose proof (fs_tick_conf (gap_fuel fs tk') fs tk' mo lst) as C. destruct (fs_on_new_tick _ fs tk' mo lst) as [fs' r]. cbn [fst] in *.
      eapply fmap_insert_same; [exact Ef|]. destruct C as (_ & _ & C1 & _ & _ & C2). unfold sconf. congruence. }
    destruct (forM (update_frame_set tk') a _) as [a1 [[]|x]]; cbn [andthen fst] in *; [|exact E].
    destruct (execute_fsets pr eid (ep_mopen e) (ep_strats e') (update_open_trades a1 (ep_prov e') tk')) as [-> _].
    destruct (value_rest a1 (ep_prov e') tk') as (_ & _ & _ & ->). exact E.
  Qed.
  Definition adds_indicator (o : op F) : bool := match o with OAddIndicator _ _ => true | _ => false end.
  Lemma step_sconf pr w o : adds_indicator o = false ->
    exists new, sconf <$> w_fsets (fst (step pr w o)) = (sconf <$> w_fsets w) ++ new /\ Forall (fun c => snd c = []) new.
  Proof.
    intros Ho. assert (forall w', sconf <$> w_fsets w' = sconf <$> w_fsets w -> exists new, sconf <$> w_fsets w' = (sconf <$> w_fsets w) ++ new /\ Forall (fun c => snd c = []) new) as K.
    { intros w' E. exists []. rewrite app_nil_r. split; [exact E|constructor]. }
    destruct o as [k|ref|u q ref m|ref tz op cl ds hs p|a f|a x|f i|a tk|c]; try discriminate Ho; cbn [step].
    - now apply K.
    - now apply K.
    - destruct (fset_init u q ref m) as [fs|x] eqn:E; [|now apply K]. exists [sconf fs]. cbn [fst w_fsets upd_fsets]. rewrite fmap_app. split; [reflexivity|].
      constructor; [|constructor]. unfold fset_init in E. destruct (check_unit u q); [|discriminate E]. simpl in E. injection E as <-. reflexivity.
    - apply K. unfold new_epic. destruct tz as [z|]; [|auto]. destruct (valid_id _ _); [|auto]. now destruct p.
    - apply K. unfold add_frame_set. destruct (w_epics w !! a); [|auto]. destruct (w_fsets w !! f) as [fs|] eqn:E; [|auto]. destruct (dict_get _ _); [auto|].
      cbn [fst w_fsets upd_fsets upd_epics]. eapply fmap_insert_same; [exact E|reflexivity].
    - apply K. unfold add_strategy. destruct (w_epics w !! a); [|auto]. destruct (w_strats w !! x); [|auto]. now destruct (dict_get _ _).
    - apply K, tick_sconf.
    - apply K. pose proof (cmd_charts w c) as E. apply charts_inj in E as [_ E]. now rewrite E.
  Qed.
  Lemma step_quantity pr w o f fs : w_fsets w !! f = Some fs -> exists fs', w_fsets (fst (step pr w o)) !! f = Some fs' /\ fs_q fs' = fs_q fs.
  Proof.
    intros Hf. destruct (adds_indicator o) eqn:Ho.
    - destruct o as [| | | | | |g i| |]; try discriminate Ho. cbn [step]. destruct (w_fsets w !! g) as [gs|] eqn:Eg; [|eauto].
      destruct (add_indicator_frames gs i) as (_ & _ & _ & Q & _). destruct (add_indicator gs i) as [gs' r]. cbn [fst w_fsets upd_fsets] in *.
      destruct (decide (f = g)) as [->|Hn]; [|rewrite list_lookup_insert_ne by auto; eauto]. rewrite list_lookup_insert by (eapply lookup_lt_Some; eauto).
      exists gs'. split; [auto|congruence].
    - destruct (step_sconf pr w o Ho) as (new & E & _). assert ((sconf <$> w_fsets (fst (step pr w o))) !! f = Some (sconf fs)) as L.
      { rewrite E. apply lookup_app_l_Some. rewrite list_lookup_fmap, Hf. reflexivity. }
      rewrite list_lookup_fmap in L. destruct (w_fsets (fst (step pr w o)) !! f) as [fs'|]; [|discriminate L]. exists fs'. split; [auto|]. unfold sconf in L. simpl in L. congruence.
  Qed.
  Lemma run_quantity pr lo : forall w f fs, w_fsets w !! f = Some fs -> exists fs', w_fsets (run pr w lo) !! f = Some fs' /\ fs_q fs' = fs_q fs.
  Proof.
    induction lo as [|o lo IH]; intros w f fs Hf; [exists fs; auto|]. rewrite run_cons. destruct (step_quantity pr w o f fs Hf) as (fs1 & H1 & E1).
    destruct (IH _ _ _ H1) as (fs2 & H2 & E2). exists fs2. split; [auto|congruence].
  Qed.

  (** ** Dictionaries of objects *)
  Definition known (objs : list (iobj F)) (d : dict nat) : Prop := forall x, x ∈ d -> is_Some (objs !! snd x).
  Lemma attributes_cons (objs : list (iobj F)) k a d : attributes objs ((k, a) :: d) = match objs !! a with Some ob => (k, ob_ind ob) :: attributes objs d | None => attributes objs d end.
  Proof. unfold attributes. simpl. now destruct (objs !! a). Qed.
  Lemma attributes_set (objs : list (iobj F)) d ref o ob : known objs d -> objs !! o = Some ob -> attributes objs (dict_set d ref o) = dict_set (attributes objs d) ref (ob_ind ob).
  Proof.
    intros K Ho. induction d as [|[k a] d IH]; [unfold attributes; simpl; now rewrite Ho|]. assert (known objs d) as Kd by (intros x Hx; apply K; now right).
    destruct (K (k, a) ltac:(left)) as [oa Ha]. simpl in Ha. rewrite attributes_cons, Ha. cbn [dict_set]. destruct (String.eqb k ref) eqn:E; rewrite attributes_cons, ?Ha, ?Ho; [reflexivity|].
    now rewrite IH.
  Qed.
  Lemma attributes_ext (objs objs' : list (iobj F)) d : (forall x, x ∈ d -> ob_ind <$> objs' !! snd x = ob_ind <$> objs !! snd x) -> attributes objs' d = attributes objs d.
  Proof.
    intros E. induction d as [|[k a] d IH]; [reflexivity|]. rewrite !attributes_cons, IH by (intros x Hx; apply E; now right).
    specialize (E (k, a) ltac:(left)). simpl in E. destruct (objs' !! a) as [x|], (objs !! a) as [y|]; simpl in E; congruence.
  Qed.
  Lemma dict_set_in {V} (d : dict V) k v x : x ∈ dict_set d k v -> x = (k, v) \/ x ∈ d.
  Proof.
    induction d as [|[a b] d IH]; simpl.
    - intros Hx. apply elem_of_list_singleton in Hx. auto.
    - destruct (String.eqb_spec a k) as [->|]; intros Hx; apply elem_of_cons in Hx as [->|Hx]; [auto|right; now right|right; left|]. destruct (IH Hx); [auto|right; now right].
  Qed.

  (** ** Registering *)
  (** [i] and [i'] were created with the same arguments. *)
  Definition same_args i i' : Prop := in_ref i' = in_ref i /\ in_mopen i' = in_mopen i /\
    match in_kind i with KRSI p _ => exists rp, in_kind i' = KRSI p rp | k => in_kind i' = k end.
  Lemma same_args_eq i i' : same_args i i' -> (forall p rp, in_kind i <> KRSI p rp) -> i' = i.
  Proof. intros (R & M & K) N. destruct i as [r m k], i' as [r' m' k']. simpl in *. destruct k as [ha|ol|mp|p rp|mk tl]; try congruence; now elim (N p rp). Qed.
  Lemma add_same fs i i' : same_args i i' -> add_indicator fs i' = add_indicator fs i.
  Proof.
    intros A. destruct (in_kind i) as [ha|ol|mp|p rp|mk tl] eqn:Ek; try (rewrite (same_args_eq _ _ A) by (intros; congruence); reflexivity).
    destruct A as (R & M & K). rewrite Ek in K. destruct K as [rp' K]. unfold add_indicator. rewrite Ek, K, R, M. reflexivity.
  Qed.
  Lemma set_frame_set_spec ob f fs : let '(ob', r) := set_frame_set ob f fs in
    add_indicator fs (ob_ind ob) = (fs_set_inds fs (dict_set (fs_inds fs) (in_ref (ob_ind ob)) (ob_ind ob')), r) /\
    same_args (ob_ind ob) (ob_ind ob') /\ (forall p rp, in_kind (ob_ind ob') = KRSI p rp -> rp = Some (p * fs_q fs)) /\ ob_set ob' = Some f.
  Proof.
    unfold set_frame_set, add_indicator, same_args. destruct (in_kind (ob_ind ob)) as [ha|ol|mp|p rp|mk tl] eqn:Ek; cbn [ob_ind in_ref in_mopen in_kind ob_set];
      (split; [reflexivity|]); (split; [split; [reflexivity|]; split; [reflexivity|]; try assumption; eauto|]); (split; [|reflexivity]); intros; congruence.
  Qed.
  Lemma same_args_trans i1 i2 i3 : same_args i1 i2 -> same_args i2 i3 -> same_args i1 i3.
  Proof.
    intros (R & M & K) (R' & M' & K'). split; [congruence|]. split; [congruence|]. destruct (in_kind i1) as [ha|ol|mp|p rp|mk tl]; try (rewrite K in K'; exact K').
    destruct K as [rp1 K]. rewrite K in K'. exact K'.
  Qed.

  (** ** The simulation *)
  Lemma created_app l l' : new_inds (l ++ l') = new_inds l ++ new_inds l'.
  Proof. induction l as [|[i|f o|o] l IH]; simpl; [auto|now rewrite IH|auto|]. destruct o; simpl; now rewrite IH. Qed.
  Lemma registrations_app l l' n : registrations n (l ++ l') = registrations n l ++ registrations (n + length (new_inds l)) l'.
  Proof.
    revert n. induction l as [|[i|f o|o] l IH]; intros n; simpl; [now rewrite Nat.add_0_r| | |].
    - rewrite IH. simpl. do 2 f_equal. lia.
    - now rewrite IH.
    - destruct o; simpl; rewrite IH; try reflexivity. simpl. do 3 f_equal. lia.
  Qed.
  Lemma unshared_app l l' m : unshared m (l ++ l') = unshared m l ++ unshared (m ++ new_inds l) l'.
  Proof.
    revert m. induction l as [|[i|f o|o] l IH]; intros m; simpl; [now rewrite app_nil_r| | |].
    - rewrite IH, <- app_assoc. reflexivity.
    - destruct (m !! o); simpl; now rewrite IH.
    - destruct o; simpl; rewrite IH, <- ?app_assoc; reflexivity.
  Qed.
  Lemma run_app pr w (a b : list (op F)) : run pr w (a ++ b) = run pr (run pr w a) b.
  Proof. unfold run. apply fold_left_app. Qed.
  Lemma one_quantity_prefix pr l l' : one_quantity pr (l ++ l') -> one_quantity pr l.
  Proof.
    intros O o i p rp f f' fs fs' Hc Hk Hf Hf' Hw Hw'.
    destruct (run_quantity pr (unshared (new_inds l) l') _ _ _ Hw) as (x & X1 & X2). destruct (run_quantity pr (unshared (new_inds l) l') _ _ _ Hw') as (y & Y1 & Y2).
    rewrite <- X2, <- Y2. apply (O o i p rp f f'); auto; rewrite ?created_app, ?registrations_app, ?unshared_app, ?run_app; simpl; auto.
    - now apply lookup_app_l_Some.
    - apply in_app_iff. auto.
    - apply in_app_iff. auto.
  Qed.

  Record simulates pr l s : Prop := {
    sm_world : s_w s = run pr empty_world (unshared [] l);
    sm_regs : length (s_regs s) = length (w_fsets (s_w s));
    sm_objs : Forall2 (fun i ob => same_args i (ob_ind ob)) (new_inds l) (s_objs s);
    sm_inds : forall f fs d, w_fsets (s_w s) !! f = Some fs -> s_regs s !! f = Some d -> fs_inds fs = attributes (s_objs s) d;
    sm_dict : forall f fs d ref o, w_fsets (s_w s) !! f = Some fs -> s_regs s !! f = Some d -> (ref, o) ∈ d ->
      exists ob, s_objs s !! o = Some ob /\ In (f, o) (registrations 0 l) /\ forall p rp, in_kind (ob_ind ob) = KRSI p rp -> rp = Some (p * fs_q fs) }.

  Lemma sim_ext pr l l' s : new_inds l' = new_inds l -> registrations 0 l' = registrations 0 l -> unshared [] l' = unshared [] l -> simulates pr l s -> simulates pr l' s.
  Proof. intros E1 E2 E3 [A B C D E]. constructor; rewrite ?E1, ?E2, ?E3; auto. Qed.
  Lemma sim_new pr l s i : simulates pr l s -> simulates pr (l ++ [XNew i]) (snew s i).
  Proof.
    intros [A B C D E]. constructor; cbn [snew s_w s_objs s_regs].
    - rewrite unshared_app. simpl. now rewrite app_nil_r.
    - exact B.
    - rewrite created_app. apply Forall2_app; [exact C|]. constructor; [|constructor]. split; [auto|]. split; [auto|]. simpl. destruct (in_kind i); eauto.
    - intros f fs d Hf Hd. rewrite (D f fs d Hf Hd). symmetry. apply attributes_ext. intros [ref o] Ho. destruct (E f fs d ref o Hf Hd Ho) as (ob & Hob & _).
      simpl. now rewrite (lookup_app_l_Some _ _ _ _ Hob), Hob.
    - intros f fs d ref o Hf Hd Ho. destruct (E f fs d ref o Hf Hd Ho) as (ob & Hob & Hr & Hp). exists ob. split; [now apply lookup_app_l_Some|]. split; [|exact Hp].
      rewrite registrations_app. apply in_app_iff. auto.
  Qed.
  Lemma sim_more pr l s x : unshared (new_inds l) [x] = [] -> new_inds [x] = [] -> simulates pr l s -> simulates pr (l ++ [x]) s.
  Proof.
    intros U K [A B C D E]. constructor; auto.
    - rewrite unshared_app. cbn [app]. rewrite U, app_nil_r. exact A.
    - rewrite created_app, K, app_nil_r. exact C.
    - intros f fs d ref o Hf Hd Ho. destruct (E f fs d ref o Hf Hd Ho) as (ob & Hob & Hr & Hp). exists ob. split; [auto|]. split; [|auto].
      rewrite registrations_app. apply in_app_iff. auto.
  Qed.
  Lemma sadd_sim pr l s f o : simulates pr l s -> one_quantity pr (l ++ [XAdd f o]) ->
    simulates pr (l ++ [XAdd f o]) (fst (sadd s f o)) /\
    forall i, new_inds l !! o = Some i -> snd (sadd s f o) = snd (step pr (s_w s) (OAddIndicator f i)).
  Proof.
    intros S O. pose proof S as [A B C D E]. unfold sadd.
    destruct (new_inds l !! o) as [i|] eqn:Hi.
    2:{ assert (s_objs s !! o = None) as Ho. { apply lookup_ge_None. apply lookup_ge_None in Hi. now rewrite <- (Forall2_length _ _ _ C). }
        rewrite Ho. assert (simulates pr (l ++ [XAdd f o]) s) as S' by (apply sim_more; auto; simpl; now rewrite Hi).
        split; [|discriminate]. destruct (w_fsets (s_w s) !! f); exact S'. }
    destruct (Forall2_lookup_l _ _ _ _ _ C Hi) as (ob & Hob & Ha). rewrite Hob.
    assert (unshared [] (l ++ [XAdd f o]) = unshared [] l ++ [OAddIndicator f i]) as U by (rewrite unshared_app; simpl; now rewrite Hi).
    assert (new_inds (l ++ [XAdd f o]) = new_inds l) as K by (rewrite created_app; simpl; now rewrite app_nil_r).
    assert (registrations 0 (l ++ [XAdd f o]) = registrations 0 l ++ [(f, o)]) as R by (rewrite registrations_app; reflexivity).
    assert (run pr empty_world (unshared [] (l ++ [XAdd f o])) = fst (step pr (s_w s) (OAddIndicator f i))) as W by (rewrite U, run_app, <- A; reflexivity).
    destruct (w_fsets (s_w s) !! f) as [fs|] eqn:Hf.
    2:{ cbn [fst snd]. split.
        - constructor; rewrite ?K, ?W; auto; [cbn [step]; now rewrite Hf|]. intros g gs d ref o' Hg Hd Ho. destruct (E g gs d ref o' Hg Hd Ho) as (ob' & H1 & H2 & H3).
          exists ob'. split; [auto|]. split; [|auto]. rewrite R. apply in_app_iff. auto.
        - intros i' [= <-]. cbn [step]. rewrite Hf. reflexivity. }
    destruct (s_regs s !! f) as [d|] eqn:Hd.
    2:{ apply lookup_ge_None in Hd. apply lookup_lt_Some in Hf. lia. }
    pose proof (set_frame_set_spec ob f fs) as Q. destruct (set_frame_set ob f fs) as [ob' r]. destruct Q as (Q1 & Q2 & Q3 & _).
    rewrite (add_same _ _ _ Ha) in Q1. cbn [fst snd].
    set (objs := <[o := ob']> (s_objs s)). set (regs := <[f := _]> (s_regs s)).
    (* an RSI object that some frame set holds already keeps its attributes *)
    assert (forall g gs dg ref, w_fsets (s_w s) !! g = Some gs -> s_regs s !! g = Some dg -> (ref, o) ∈ dg -> fs_q gs = fs_q fs \/ forall p rp, in_kind i <> KRSI p rp) as HQ.
    { intros g gs dg ref Hg Hdg Hin. destruct (E g gs dg ref o Hg Hdg Hin) as (_ & _ & Hr & _). destruct (in_kind i) as [ha|ol|mp|p rp|mk tl] eqn:Ek; try (right; intros; discriminate).
      left. destruct (step_quantity pr (s_w s) (OAddIndicator f i) g gs Hg) as (gs' & G1 & G2). destruct (step_quantity pr (s_w s) (OAddIndicator f i) f fs Hf) as (fs' & F1 & F2).
      rewrite <- G2, <- F2. apply (O o i p rp g f gs' fs'); rewrite ?K, ?R, ?W; auto; apply in_app_iff; [auto|right; now left]. }
    assert (forall g gs dg, w_fsets (s_w s) !! g = Some gs -> s_regs s !! g = Some dg -> forall x, x ∈ dg -> ob_ind <$> objs !! snd x = ob_ind <$> s_objs s !! snd x) as HE.
    { intros g gs dg Hg Hdg [ref o'] Hin. unfold objs. simpl. destruct (decide (o' = o)) as [->|Hn]; [|now rewrite list_lookup_insert_ne by auto].
      rewrite list_lookup_insert by (eapply lookup_lt_Some; eauto). rewrite Hob. simpl. f_equal. destruct (E g gs dg ref o Hg Hdg Hin) as (ob1 & Hob1 & _ & Hp).
      assert (ob1 = ob) as -> by congruence. destruct Q2 as (R1 & R2 & R3). destruct (HQ g gs dg ref Hg Hdg Hin) as [Hq|Hq].
      - destruct (ob_ind ob) as [r1 m1 k1], (ob_ind ob') as [r2 m2 k2]. simpl in *. subst r2 m2. f_equal. destruct k1 as [ha|ol|mp|p rp|mk tl]; try exact R3.
        destruct R3 as [rp2 ->]. rewrite (Hp p rp eq_refl), (Q3 p rp2 eq_refl), Hq. reflexivity.
      - apply same_args_eq; [split; [exact R1|]; split; [exact R2|exact R3]|]. intros p rp Hk. destruct Ha as (_ & _ & Ha). destruct (in_kind i) as [ha|ol|mp|p1 rp1|mk tl]; try congruence; now elim (Hq p1 rp1). }
    assert (known (s_objs s) d) as Kd. { intros [ref o'] Hin. destruct (E f fs d ref o' Hf Hd Hin) as (ob1 & Hob1 & _). eauto. }
    assert (known objs d) as Kd'. { intros x Hx. specialize (HE f fs d Hf Hd x Hx). destruct (Kd x Hx) as [y Hy]. rewrite Hy in HE. destruct (objs !! snd x); [eauto|discriminate HE]. }
    assert (attributes objs (dict_set d (in_ref (ob_ind ob)) o) = dict_set (fs_inds fs) (in_ref (ob_ind ob)) (ob_ind ob')) as HA.
    { rewrite (attributes_set objs d _ o ob' Kd'); [|apply list_lookup_insert; eapply lookup_lt_Some; eauto]. f_equal. rewrite (D f fs d Hf Hd). apply attributes_ext. exact (HE f fs d Hf Hd). }
    set (fs1 := fs_set_inds fs (dict_set (fs_inds fs) (in_ref (ob_ind ob)) (ob_ind ob'))) in *.
    assert (reread objs regs (s_w s) = upd_fsets (s_w s) (<[f := fs1]> (w_fsets (s_w s)))) as HR.
    { unfold reread. f_equal. apply list_eq. intros g. rewrite list_lookup_imap. destruct (w_fsets (s_w s) !! g) as [gs|] eqn:Hg.
      - simpl. destruct (decide (g = f)) as [->|Hn].
        + assert (gs = fs) as -> by congruence. unfold regs. rewrite !list_lookup_insert by (eapply lookup_lt_Some; eauto). unfold fs1. now rewrite HA.
        + rewrite list_lookup_insert_ne by auto. unfold regs. rewrite list_lookup_insert_ne by auto. rewrite Hg. destruct (s_regs s !! g) as [dg|] eqn:Hdg; [|reflexivity]. f_equal.
          rewrite (attributes_ext _ _ _ (HE g gs dg Hg Hdg)), <- (D g gs dg Hg Hdg). now destruct gs.
      - simpl. symmetry. apply lookup_ge_None. rewrite insert_length. now apply lookup_ge_None in Hg. }
    assert (step pr (s_w s) (OAddIndicator f i) = (upd_fsets (s_w s) (<[f := fs1]> (w_fsets (s_w s))), r)) as HS by (cbn [step]; rewrite Hf, Q1; reflexivity).
    rewrite HS in W. cbn [fst] in W.
    split; [|intros i' [= <-]; now rewrite HS].
    constructor; cbn [s_w s_objs s_regs]; rewrite ?HR, ?W, ?K; auto.
    - unfold regs. cbn [w_fsets upd_fsets]. now rewrite !insert_length.
    - apply Forall2_same_length_lookup_2.
      + unfold objs. rewrite insert_length. now apply Forall2_length in C.
      + intros k x y Hx Hy. unfold objs in Hy. destruct (decide (k = o)) as [->|Hn].
        * rewrite list_lookup_insert in Hy by (eapply lookup_lt_Some; eauto). assert (x = i) as -> by congruence. assert (y = ob') as -> by congruence. eapply same_args_trans; eauto.
        * rewrite list_lookup_insert_ne in Hy by auto. eapply (Forall2_lookup_lr _ _ _ _ _ _ C); eauto.
    - cbn [w_fsets upd_fsets]. intros g gs dg Hg Hdg. unfold regs in Hdg. destruct (decide (g = f)) as [->|Hn].
      + rewrite list_lookup_insert in Hg by (eapply lookup_lt_Some; eauto). rewrite list_lookup_insert in Hdg by (eapply lookup_lt_Some; eauto).
        injection Hdg as <-. assert (gs = fs1) as -> by congruence. symmetry. exact HA.
      + rewrite list_lookup_insert_ne in Hg by auto. rewrite list_lookup_insert_ne in Hdg by auto. rewrite (D g gs dg Hg Hdg). symmetry. apply attributes_ext. exact (HE g gs dg Hg Hdg).
    - cbn [w_fsets upd_fsets]. intros g gs dg ref o' Hg Hdg Hin. rewrite R.
      assert (exists gs0 dg0, w_fsets (s_w s) !! g = Some gs0 /\ s_regs s !! g = Some dg0 /\ fs_q gs = fs_q gs0 /\ ((ref, o') ∈ dg0 \/ g = f /\ o' = o)) as (gs0 & dg0 & G1 & G2 & G3 & G4).
      { unfold regs in Hdg. destruct (decide (g = f)) as [->|Hn].
        - rewrite list_lookup_insert in Hg by (eapply lookup_lt_Some; eauto). rewrite list_lookup_insert in Hdg by (eapply lookup_lt_Some; eauto).
          injection Hdg as <-. assert (gs = fs1) as -> by congruence. exists fs, d. split; [auto|]. split; [auto|]. split; [reflexivity|].
          destruct (dict_set_in _ _ _ _ Hin) as [[= -> ->]|X]; auto.
        - rewrite list_lookup_insert_ne in Hg by auto. rewrite list_lookup_insert_ne in Hdg by auto. exists gs, dg. auto. }
      unfold objs. destruct (decide (o' = o)) as [->|Hn].
      + rewrite list_lookup_insert by (eapply lookup_lt_Some; eauto). exists ob'. split; [auto|]. destruct G4 as [G4|[-> _]].
        * destruct (E g gs0 dg0 ref o G1 G2 G4) as (_ & _ & Hr & _). split; [apply in_app_iff; auto|]. intros p rp Hk. rewrite (Q3 p rp Hk), G3.
          destruct (HQ g gs0 dg0 ref G1 G2 G4) as [->|Hq]; [reflexivity|]. exfalso. destruct Q2 as (_ & _ & Q2). destruct Ha as (_ & _ & Ha). destruct (in_kind i) as [ha|ol|mp|p1 rp1|mk tl]; try (rewrite Ha in Q2; congruence); now elim (Hq p1 rp1).
        * split; [apply in_app_iff; right; now left|]. intros p rp Hk. rewrite (Q3 p rp Hk), G3. congruence.
      + destruct G4 as [G4|[_ G4]]; [|now elim Hn]. rewrite list_lookup_insert_ne by auto. destruct (E g gs0 dg0 ref o' G1 G2 G4) as (ob1 & X1 & X2 & X3). exists ob1. split; [auto|].
        split; [apply in_app_iff; auto|]. rewrite G3. exact X3.
  Qed.
  Lemma sop_sim pr l s o : adds_indicator o = false -> simulates pr l s -> simulates pr (l ++ [XOp o]) (fst (sstep pr s (XOp o))) /\ snd (sstep pr s (XOp o)) = snd (step pr (s_w s) o).
  Proof.
    intros Ho S. pose proof S as [A B C D E].
    assert (sstep pr s (XOp o) = let '(w', r) := step pr (s_w s) o in
      ({| s_w := w'; s_objs := s_objs s; s_regs := s_regs s ++ replicate (length (w_fsets w') - length (s_regs s)) [] |}, r)) as -> by (destruct o; try discriminate Ho; reflexivity).
    destruct (step_sconf pr (s_w s) o Ho) as (new & N1 & N2). destruct (step pr (s_w s) o) as [w' r] eqn:Es. cbn [fst snd] in *. split; [|reflexivity].
    assert (length (w_fsets w') = length (w_fsets (s_w s)) + length new)%nat as L. { apply (f_equal length) in N1. now rewrite app_length, !fmap_length in N1. }
    assert (forall f fs d, w_fsets w' !! f = Some fs -> (s_regs s ++ replicate (length (w_fsets w') - length (s_regs s)) []) !! f = Some d ->
      (exists fs0, w_fsets (s_w s) !! f = Some fs0 /\ s_regs s !! f = Some d /\ sconf fs = sconf fs0) \/ (fs_inds fs = [] /\ d = [])) as HX.
    { intros f fs d Hf Hd. destruct (decide (f < length (s_regs s))%nat) as [Hl|Hl].
      - left. rewrite lookup_app_l in Hd by auto. destruct (w_fsets (s_w s) !! f) as [fs0|] eqn:H0.
        + exists fs0. split; [auto|]. split; [auto|]. assert ((sconf <$> w_fsets w') !! f = Some (sconf fs0)) as X by (rewrite N1; apply lookup_app_l_Some; rewrite list_lookup_fmap, H0; reflexivity).
          rewrite list_lookup_fmap, Hf in X. simpl in X. congruence.
        + apply lookup_ge_None in H0. lia.
      - right. assert (length (w_fsets (s_w s)) <= f)%nat as Hl2 by (rewrite <- B; apply Nat.nlt_ge; exact Hl). rewrite lookup_app_r in Hd by (apply Nat.nlt_ge; exact Hl). apply lookup_replicate in Hd as [-> _]. split; [|reflexivity].
        assert ((sconf <$> w_fsets w') !! f = Some (sconf fs)) as X by (rewrite list_lookup_fmap, Hf; reflexivity). rewrite N1, lookup_app_r in X by (rewrite fmap_length; lia).
        rewrite Forall_lookup in N2. exact (N2 _ _ X). }
    assert (unshared (new_inds l) [XOp o] = [o]) as U by (destruct o; try discriminate Ho; reflexivity).
    assert (new_inds [XOp o] = []) as K by (destruct o; try discriminate Ho; reflexivity).
    constructor; cbn [s_w s_objs s_regs].
    - rewrite unshared_app. cbn [app]. rewrite U, run_app, <- A. cbn [run fold_left]. now rewrite Es.
    - rewrite app_length, replicate_length. lia.
    - now rewrite created_app, K, app_nil_r.
    - intros f fs d Hf Hd. destruct (HX f fs d Hf Hd) as [(fs0 & H0 & Hd0 & Ec)|[E0 ->]]; [|exact E0]. injection Ec as _ ->. eauto.
    - intros f fs d ref x Hf Hd Hin. destruct (HX f fs d Hf Hd) as [(fs0 & H0 & Hd0 & Ec)|[_ ->]]; [|now apply elem_of_nil in Hin].
      destruct (E f fs0 d ref x H0 Hd0 Hin) as (ob & X1 & X2 & X3). exists ob. split; [auto|]. injection Ec as -> _. split; [|auto]. rewrite registrations_app. apply in_app_iff. auto.
  Qed.

  Lemma srun_snoc pr l x : srun pr (l ++ [x]) = fst (sstep pr (srun pr l) x).
  Proof. unfold srun. rewrite fold_left_app. reflexivity. Qed.
  Lemma sim_step pr l s x : simulates pr l s -> one_quantity pr (l ++ [x]) ->
    simulates pr (l ++ [x]) (fst (sstep pr s x)) /\ forall o, unshared (new_inds l) [x] = [o] -> snd (sstep pr s x) = snd (step pr (s_w s) o).
  Proof.
    intros S O. destruct x as [i|f o|o].
    - split; [now apply sim_new|discriminate].
    - cbn [sstep]. destruct (sadd_sim pr l s f o S O) as [X Y]. split; [exact X|]. intros o' Ho. simpl in Ho. destruct (new_inds l !! o) as [i|] eqn:Hi; [|discriminate Ho].
      injection Ho as <-. now apply Y.
    - destruct (adds_indicator o) eqn:Ho.
      + destruct o as [| | | | | |f i| |]; try discriminate Ho. cbn [sstep].
        assert (length (s_objs s) = length (new_inds l)) as Ln by (symmetry; eapply Forall2_length; apply (sm_objs _ _ _ S)).
        assert (new_inds ((l ++ [XNew i]) ++ [XAdd f (length (s_objs s))]) = new_inds (l ++ [XOp (OAddIndicator f i)])) as E1 by (rewrite <- app_assoc, !created_app; reflexivity).
        assert (registrations 0 ((l ++ [XNew i]) ++ [XAdd f (length (s_objs s))]) = registrations 0 (l ++ [XOp (OAddIndicator f i)])) as E2
          by (rewrite <- app_assoc, !registrations_app, Ln; reflexivity).
        assert (unshared [] ((l ++ [XNew i]) ++ [XAdd f (length (s_objs s))]) = unshared [] (l ++ [XOp (OAddIndicator f i)])) as E3
          by (rewrite <- app_assoc, !unshared_app; simpl; rewrite Ln, list_lookup_middle by auto; reflexivity).
        assert (one_quantity pr ((l ++ [XNew i]) ++ [XAdd f (length (s_objs s))])) as O' by (unfold one_quantity in *; rewrite E1, E2, E3; exact O).
        destruct (sadd_sim pr _ _ f _ (sim_new pr l s i S) O') as [X Y]. split; [now apply (sim_ext pr _ _ _ (eq_sym E1) (eq_sym E2) (eq_sym E3))|].
        intros o' Ho'. simpl in Ho'. injection Ho' as <-. rewrite (Y i); [reflexivity|]. rewrite created_app, Ln. simpl. now apply list_lookup_middle.
      + destruct (sop_sim pr l s o Ho S) as [X Y]. split; [exact X|]. intros o' Ho'. assert (unshared (new_inds l) [XOp o] = [o]) as U by (destruct o; try discriminate Ho; reflexivity). congruence.
  Qed.
  Lemma sim_run pr l : one_quantity pr l -> simulates pr l (srun pr l).
  Proof.
    induction l as [|x l IH] using rev_ind; intros O.
    - assert (forall f fs, w_fsets (s_w (srun pr [])) !! f = Some fs -> False) as N by (intros f fs Hf; apply lookup_lt_Some in Hf; simpl in Hf; lia).
      constructor; [reflexivity|reflexivity|exact (List.Forall2_nil _)|intros f fs d Hf; elim (N f fs Hf)|intros f fs d ref o Hf; elim (N f fs Hf)].
    - rewrite srun_snoc. apply sim_step; [|exact O]. apply IH. now apply one_quantity_prefix in O.
  Qed.
  Theorem shared_program pr l : one_quantity pr l -> s_w (srun pr l) = run pr empty_world (unshared [] l).
  Proof. intros O. exact (sm_world _ _ _ (sim_run pr l O)). Qed.
  Theorem shared_results pr l x o : one_quantity pr (l ++ [x]) -> unshared (new_inds l) [x] = [o] ->
    snd (sstep pr (srun pr l) x) = snd (step pr (run pr empty_world (unshared [] l)) o).
  Proof. intros O U. pose proof (one_quantity_prefix pr l [x] O) as O'. rewrite <- (shared_program pr l O'). now apply (sim_step pr l _ x (sim_run pr l O') O). Qed.

  (** ** The frame set of an indicator *)
  Lemma set_kept pr s x n o : n = length (s_objs s) -> (o < n)%nat -> (forall f, ~ In (f, o) (registrations n [x])) ->
    s_objs (fst (sstep pr s x)) !! o = s_objs s !! o /\ (n + length (new_inds [x]) = length (s_objs (fst (sstep pr s x))))%nat.
  Proof.
    intros -> Hl Hn. assert (forall s f a, a <> o -> s_objs (fst (sadd s f a)) !! o = s_objs s !! o /\ length (s_objs (fst (sadd s f a))) = length (s_objs s)) as K.
    { intros s0 f a Ha. unfold sadd. destruct (w_fsets (s_w s0) !! f) as [fs|]; [|auto]. destruct (s_objs s0 !! a) as [ob|]; [|auto]. destruct (s_regs s0 !! f) as [d|]; [|auto].
      destruct (set_frame_set ob f fs) as [ob' r]. cbn [fst s_objs]. rewrite insert_length. now rewrite list_lookup_insert_ne by auto. }
    destruct x as [i|f a|a]; cbn [sstep].
    - cbn [fst snew s_objs new_inds length]. rewrite app_length, lookup_app_l by auto. simpl. auto.
    - destruct (K s f a) as [-> ->]; [intros ->; apply (Hn f); now left|]. simpl. auto.
    - destruct (adds_indicator a) eqn:Ha.
      + destruct a as [| | | | | |f i| |]; try discriminate Ha. destruct (K (snew s i) f (length (s_objs s))) as [-> ->]; [lia|]. cbn [snew s_objs new_inds length]. rewrite app_length, lookup_app_l by auto. simpl. auto.
      + assert (new_inds [XOp a] = []) as -> by (destruct a; try discriminate Ha; reflexivity). simpl. rewrite Nat.add_0_r.
        destruct a; try discriminate Ha; destruct (step pr (s_w s) _) as [w' r]; auto.
  Qed.
  Lemma objs_length pr l : length (s_objs (srun pr l)) = length (new_inds l).
  Proof.
    induction l as [|x l IH] using rev_ind; [reflexivity|]. rewrite srun_snoc, created_app, app_length, <- IH. generalize (srun pr l). clear. intros s.
    assert (forall s f a, length (s_objs (fst (sadd s f a))) = length (s_objs s)) as K.
    { intros s0 f a. unfold sadd. destruct (w_fsets (s_w s0) !! f) as [fs|]; [|auto]. destruct (s_objs s0 !! a) as [ob|]; [|auto]. destruct (s_regs s0 !! f) as [d|]; [|auto].
      destruct (set_frame_set ob f fs) as [ob' r]. cbn [fst s_objs]. now rewrite insert_length. }
    destruct x as [i|f a|a]; cbn [sstep].
    - cbn [fst snew s_objs]. now rewrite app_length.
    - rewrite K. simpl. lia.
    - destruct a; try (destruct (step pr (s_w s) _) as [w' r]; simpl; lia). rewrite K. cbn [snew s_objs]. now rewrite app_length.
  Qed.
  Lemma regs_length pr l : length (s_regs (srun pr l)) = length (w_fsets (s_w (srun pr l))).
  Proof.
    induction l as [|x l IH] using rev_ind; [reflexivity|]. rewrite srun_snoc. revert IH. generalize (srun pr l). clear. intros s IH.
    assert (forall s f a, length (s_regs s) = length (w_fsets (s_w s)) -> length (s_regs (fst (sadd s f a))) = length (w_fsets (s_w (fst (sadd s f a))))) as K.
    { intros s0 f a E. unfold sadd. destruct (w_fsets (s_w s0) !! f) as [fs|]; [|auto]. destruct (s_objs s0 !! a) as [ob|]; [|auto]. destruct (s_regs s0 !! f) as [d|]; [|auto].
      destruct (set_frame_set ob f fs) as [ob' r]. cbn [fst s_regs s_w]. unfold reread. cbn [w_fsets upd_fsets]. now rewrite insert_length, imap_length. }
    destruct x as [i|f a|a]; cbn [sstep]; [exact IH|now apply K|]. destruct (adds_indicator a) eqn:Ha.
    - destruct a as [| | | | | |f i| |]; try discriminate Ha. now apply K.
    - destruct (step_sconf pr (s_w s) a Ha) as (new & N & _). apply (f_equal length) in N. rewrite app_length, !fmap_length in N.
      destruct a; try discriminate Ha; destruct (step pr (s_w s) _) as [w' r]; cbn [fst s_regs s_w] in *; rewrite app_length, replicate_length, IH, N; lia.
  Qed.
  Theorem last_frame_set pr l f o l' fs : (o < length (new_inds l))%nat -> w_fsets (s_w (srun pr l)) !! f = Some fs ->
    (forall g, ~ In (g, o) (registrations (length (new_inds l)) l')) ->
    exists ob, s_objs (srun pr (l ++ XAdd f o :: l')) !! o = Some ob /\ ob_set ob = Some f.
  Proof.
    intros Ho Hf Hn. pose proof (regs_length pr l) as Hr. assert (exists ob, s_objs (srun pr (l ++ [XAdd f o])) !! o = Some ob /\ ob_set ob = Some f) as (ob & Hob & Hs).
    { rewrite srun_snoc. cbn [sstep]. unfold sadd. rewrite Hf. rewrite <- (objs_length pr l) in Ho. destruct (lookup_lt_is_Some_2 _ _ Ho) as [ob0 H0]. rewrite H0.
      destruct (lookup_lt_is_Some_2 (s_regs (srun pr l)) f) as [d Hd]; [rewrite Hr; eapply lookup_lt_Some; eauto|]. rewrite Hd.
      pose proof (set_frame_set_spec ob0 f fs) as Q. destruct (set_frame_set ob0 f fs) as [ob r]. destruct Q as (_ & _ & _ & Q). exists ob. cbn [fst s_objs].
      split; [now apply list_lookup_insert|exact Q]. }
    exists ob. split; [|exact Hs]. replace (l ++ XAdd f o :: l') with ((l ++ [XAdd f o]) ++ l') by now rewrite <- app_assoc.
    assert (length (new_inds (l ++ [XAdd f o])) = length (new_inds l)) as Lc by (rewrite created_app, app_length; simpl; lia).
    revert Hob Hn Ho. rewrite <- Lc. generalize (l ++ [XAdd f o]). clear. intros l Hob. induction l' as [|x l' IH] using rev_ind; intros Hn Ho; [now rewrite app_nil_r|].
    rewrite app_assoc, srun_snoc. rewrite registrations_app in Hn.
    rewrite (proj1 (set_kept pr (srun pr (l ++ l')) x (length (new_inds l) + length (new_inds l'))%nat o
      ltac:(rewrite objs_length, created_app, app_length; reflexivity) ltac:(lia) ltac:(intros g Hg; apply (Hn g), in_app_iff; auto))).
    apply IH; [|exact Ho]. intros g Hg. apply (Hn g), in_app_iff. auto.
  Qed.
  Theorem last_epic pr l f o l' fs : (o < length (new_inds l))%nat -> w_fsets (s_w (srun pr l)) !! f = Some fs ->
    (forall g, ~ In (g, o) (registrations (length (new_inds l)) l')) ->
    indicator_epic (srun pr (l ++ XAdd f o :: l')) o = match w_fsets (s_w (srun pr (l ++ XAdd f o :: l'))) !! f with Some fs' => fs_epic fs' | None => None end.
  Proof. intros Ho Hf Hn. destruct (last_frame_set pr l f o l' fs Ho Hf Hn) as (ob & E1 & E2). unfold indicator_epic. now rewrite E1, E2. Qed.
  Lemma equal_quantities pr l q : forallb (fun fs => fs_q fs =? q) (w_fsets (run pr empty_world (unshared [] l))) = true -> one_quantity pr l.
  Proof. intros A o i p rp f f' fs fs' _ _ _ _ Hf Hf'. rewrite forallb_forall in A. apply elem_of_list_lookup_2, elem_of_list_In, A in Hf. apply elem_of_list_lookup_2, elem_of_list_In, A in Hf'. lia. Qed.
End proofs.
