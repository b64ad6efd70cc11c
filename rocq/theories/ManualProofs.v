(** Proofs about trades handled by hand. *)
From Verif Require Export SpecManual QuantityProofs.
Open Scope Z_scope.

Section proofs.
  Context {F : Type} `{Num F}.
  Implicit Types (w : world F) (t : trade F).

  Definition minv w : Prop := wfg NoDup w /\ qinv w /\ one_dir w.

  Lemma one_dir_keep w w' : keeps w w' -> qinv w ->
    (forall pid i t, registered w pid i -> w_trades w !! i = Some t -> exists t', w_trades w' !! i = Some t' /\ rtc trade_call t t') ->
    one_dir w -> one_dir w'.
  Proof.
    intros K Q He Ho pid p' i j t' u' Hp' Hk Hi Hj Ht' Hu' Es Hot Hou. pose proof (keeps_sym _ _ K) as K'.
    destruct (keeps_p _ _ _ _ K' Hp') as (p & Hp & E1 & E2). rewrite <- E2 in Hi, Hj.
    destruct (keeps_t _ _ _ _ K' Ht') as (t & Ht & Ft). destruct (keeps_t _ _ _ _ K' Hu') as (u & Hu & Fu).
    destruct (He pid i t (ex_intro _ p (conj Hp Hi)) Ht) as (t1 & Ht1 & Rt). rewrite Ht' in Ht1. injection Ht1 as <-.
    destruct (He pid j u (ex_intro _ p (conj Hp Hj)) Hu) as (u1 & Hu1 & Ru). rewrite Hu' in Hu1. injection Hu1 as <-.
    destruct Ft as (_ & F1 & F2 & _). destruct Fu as (_ & G1 & G2 & _). rewrite <- F2, <- G2.
    apply (Ho pid p i j t u); auto; try congruence; eapply rtc_opened; eauto.
  Qed.

  Lemma minv_keeps w w' : keeps w w' -> evo w w' -> minv w -> minv w'.
  Proof.
    intros K E (W & Q & D). split; [eapply wfw_keeps; eauto|]. split; [eapply evo_qinv; eauto; now apply keeps_length|].
    eapply one_dir_evo; eauto.
  Qed.

  (** ** The netting loop for a trade that is in no ledger *)
  Definition nloop (s : option nat) (d : dir) (tid : nat) w0 (done : list nat) w : Prop :=
    qinv w /\
    (exists t, w_trades w !! tid = Some t /\ tr_closes t = [] /\ tr_strat t = s /\ tr_dir t = d /\
       forall oid o, oid ∈ done -> w_trades w !! oid = Some o -> tr_dir o = dir_opp d -> tr_strat o = s -> opened_quantities o = 0 \/ tr_oq t = 0) /\
    forall i t, i <> tid -> w_trades w0 !! i = Some t -> exists t', w_trades w !! i = Some t' /\ rtc trade_call t t'.
  Lemma nloop_mono s d tid w0 done done' w : (forall i, i ∈ done' -> i ∈ done) -> nloop s d tid w0 done w -> nloop s d tid w0 done' w.
  Proof. intros Hd (Q & (t & H1 & H2 & H3 & H4 & H5) & E). split; [auto|]. split; [|auto]. exists t. repeat (split; [assumption|]). intros; eauto. Qed.

  Lemma close_all_or_some o q tk ref o' c : close_from_tick o tk (Some q) ref = Ok (o', c) -> 0 <= q <= opened_quantities o ->
    opened_quantities o' = 0 \/ (opened_quantities o' = opened_quantities o - q /\ q <> 0).
  Proof.
    intros E Hq. apply close_tick_qty in E as [E1 E2]. rewrite E2, E1. unfold close_quantity. destruct (q =? 0) eqn:Eq.
    - left. rewrite Z.ltb_irrefl. lia.
    - apply Z.eqb_neq in Eq. destruct (Z.ltb_spec (opened_quantities o) q); lia.
  Qed.

  Lemma nloop_step s d pid tid ref w0 done w oid : oid <> tid -> nloop s d tid w0 done w ->
    let '(w', r) := net_step pid tid ref w oid in
    nloop s d tid w0 done w' /\ (r = Ok () -> nloop s d tid w0 (done ++ [oid]) w').
  Proof.
    intros Hne N. pose proof N as (Q & (t & Ht & Hcl & Es & Ed & Hd) & Hev).
    assert (forall o, w_trades w !! oid = Some o -> (tr_dir o = dir_opp d -> tr_strat o = s -> opened_quantities o = 0 \/ tr_oq t = 0) -> nloop s d tid w0 (done ++ [oid]) w) as Skip.
    { intros o Ho Hx. split; [auto|]. split; [|auto]. exists t. repeat (split; [assumption|]). intros i x Hi Hix. apply elem_of_app in Hi as [Hi|Hi]; [eauto|].
      apply elem_of_list_singleton in Hi as ->. rewrite Ho in Hix. injection Hix as <-. auto. }
    unfold net_step. rewrite Ht. destruct (w_trades w !! oid) as [o|] eqn:Eo; [|split; [exact N|discriminate]].
    destruct (dir_eqb _ _) eqn:Edir.
    2:{ split; [exact N|]. intros _. eapply Skip; eauto. intros E _. exfalso. rewrite Ed, E in Edir. revert Edir. unfold dir_eqb. destruct (dir_opp d); discriminate. }
    destruct (bool_decide _) eqn:Ebs.
    2:{ split; [exact N|]. intros _. eapply Skip; eauto. intros _ E. apply bool_decide_eq_false in Ebs. congruence. }
    apply bool_decide_eq_true in Ebs. cbv zeta.
    destruct (close_from_epic _ _ _ _) as [[w1 ci]|e] eqn:Ec; [|split; [exact N|discriminate]].
    apply close_from_epic_inv in Ec as (o1 & e & o2 & c & Q1 & Q2 & Q3 & -> & _). rewrite Eo in Q1. injection Q1 as <-. simpl.
    pose proof (Q _ _ Eo) as (_ & Hbo & _). pose proof (Q _ _ Ht) as (_ & Hbt & _).
    assert (0 <= opened_quantities o) as Ho0 by (rewrite opened_booked; lia).
    assert (0 <= tr_oq t) as Ht0 by lia.
    set (qc := Z.min (opened_quantities o) (tr_oq t)) in *.
    assert (0 <= qc) as Hqc by (unfold qc; lia).
    assert (rtc trade_call o o2) as Ro by (apply rtc_once; eapply (call_close_tick o _ (Some qc)); eauto).
    assert (oid < length (w_trades w))%nat as Hlo by (eapply lookup_lt_Some; eauto).
    set (wts := alter (fun x : trade F => set_oq x (tr_oq x - qc)) tid (<[oid:=o2]> (w_trades w))).
    assert (wts !! tid = Some (set_oq t (tr_oq t - qc))) as Wt.
    { unfold wts. rewrite list_lookup_alter, list_lookup_insert_ne, Ht by auto. reflexivity. }
    assert (wts !! oid = Some o2) as Wo.
    { unfold wts. rewrite list_lookup_alter_ne by auto. now apply list_lookup_insert. }
    assert (forall i, i <> tid -> i <> oid -> wts !! i = w_trades w !! i) as Wi.
    { intros i H1 H2. unfold wts. rewrite list_lookup_alter_ne, list_lookup_insert_ne; auto. }
    assert (opened_quantities o2 = 0 \/ tr_oq t - qc = 0) as Hfin.
    { destruct (close_all_or_some _ _ _ _ _ _ Q3 ltac:(unfold qc; lia)) as [E|[E E']]; [auto|]. unfold qc in *. lia. }
    assert (forall b, (b = true -> True) -> nloop s d tid w0 (if b then done ++ [oid] else done) (upd_trades (provider_close_trade (upd_trades w (<[oid:=o2]> (w_trades w))) pid oid ci) wts)) as G.
    { intros b _. split; [|split].
      - intros i x Hx. simpl in Hx. destruct (decide (i = tid)) as [->|H1].
        + rewrite Wt in Hx. injection Hx as <-. simpl. split; [reflexivity|]. simpl. rewrite Hcl. split; [unfold booked, qc; simpl; lia|]. intros k y Hy. discriminate.
        + destruct (decide (i = oid)) as [->|H2].
          * rewrite Wo in Hx. injection Hx as <-. exact (proj1 (qty_inv_rtc _ _ Ro (Q _ _ Eo))).
          * rewrite Wi in Hx by auto. exact (Q _ _ Hx).
      - exists (set_oq t (tr_oq t - qc)). split; [exact Wt|]. repeat (split; [assumption|]). intros i x Hi Hx Dx Sx. simpl in Hx. simpl (tr_oq (set_oq _ _)).
        destruct (decide (i = oid)) as [->|H2]; [rewrite Wo in Hx; injection Hx as <-; auto|].
        destruct (decide (i = tid)) as [->|H1].
        + rewrite Wt in Hx. injection Hx as <-. simpl in Dx. exfalso. rewrite Ed in Dx. now destruct d.
        + rewrite Wi in Hx by auto. assert (i ∈ done) as Hi'.
          { destruct b; [|auto]. apply elem_of_app in Hi as [Hi|Hi]; [auto|]. apply elem_of_list_singleton in Hi. congruence. }
          destruct (Hd _ _ Hi' Hx Dx Sx) as [E|E]; [auto|]. right. unfold qc. lia.
      - intros i x Hi Hx. destruct (Hev _ _ Hi Hx) as (x1 & Hx1 & R1). simpl. destruct (decide (i = oid)) as [->|H2].
        + rewrite Eo in Hx1. injection Hx1 as <-. exists o2. split; [exact Wo|]. etransitivity; eauto.
        + exists x1. split; [rewrite Wi; auto|auto]. }
    split; [exact (G false ltac:(auto))|]. intros _. exact (G true ltac:(auto)).
  Qed.
  Lemma nloop_forM s d pid tid ref w0 : forall l done w, (forall i, i ∈ l -> i <> tid) -> nloop s d tid w0 done w ->
    let '(w', r) := forM (net_step pid tid ref) w l in nloop s d tid w0 [] w' /\ (r = Ok () -> nloop s d tid w0 (done ++ l) w').
  Proof.
    induction l as [|x l IH]; intros done w Hl N; simpl.
    - split; [|intros _; now rewrite app_nil_r]. eapply nloop_mono; [|exact N]. intros i Hi. inversion Hi.
    - pose proof (nloop_step s d pid tid ref w0 done w x (Hl x ltac:(left)) N) as X.
      destruct (net_step pid tid ref w x) as [w1 [[]|e]]; simpl in *.
      + destruct X as [_ X]. specialize (IH (done ++ [x]) w1 ltac:(intros i Hi; apply Hl; now right) (X eq_refl)).
        destruct (forM _ w1 l) as [w2 r2]. now rewrite <- app_assoc in IH.
      + destruct X as [X _]. split; [|discriminate]. eapply nloop_mono; [|exact X]. intros i Hi. inversion Hi.
  Qed.

  Lemma waiting_keeps w w' tid : keeps w w' -> waiting w tid -> waiting w' tid.
  Proof. intros K Hw pid Hr. apply (Hw pid). eapply keeps_registered; [apply keeps_sym|]; eauto. Qed.

  (** Handing over a trade that is in no ledger. *)
  Lemma minv_register w pid tid t e : minv w -> waiting w tid -> w_trades w !! tid = Some t -> w_epics w !! tr_epic t = Some e -> ep_prov e = pid ->
    (forall p i u, w_provs w !! pid = Some p -> pv_kind p = PBacktests -> i ∈ pv_trades p -> w_trades w !! i = Some u -> tr_strat u = tr_strat t ->
       opened_quantities u <> 0 -> tr_dir u = tr_dir t) ->
    minv (base_open_trade w pid tid).
  Proof.
    intros (W & Q & D) Hw Ht He Ep Hd. destruct (register_rest w pid tid) as (R1 & R2 & _ & _). split; [|split].
    - eapply wfg_register; eauto. intros l Hl Hr. apply NoDup_app. split; [auto|]. split; [|apply NoDup_singleton].
      intros i Hi Hi'. apply elem_of_list_singleton in Hi' as ->. destruct (Hr _ Hi) as (p & Hp). exact (Hw _ Hp).
    - intros i x Hx. rewrite R1 in Hx. eauto.
    - intros p' p i j x y Hp Hk Hi Hj Hx Hy Es Hox Hoy. rewrite R1 in Hx, Hy. rewrite (register_provs _ _ _ _ _ Ht) in Hp.
      destruct (decide (p' = pid)) as [->|Hne]; [|exact (D p' p i j x y Hp Hk Hi Hj Hx Hy Es Hox Hoy)].
      destruct (w_provs w !! pid) as [p0|] eqn:Ep0; [|discriminate]. simpl in Hp. injection Hp as <-. simpl in *.
      apply elem_of_app in Hi, Hj. rewrite !elem_of_list_singleton in *. destruct Hi as [Hi| ->], Hj as [Hj| ->].
      + exact (D pid p0 i j x y Ep0 Hk Hi Hj Hx Hy Es Hox Hoy).
      + rewrite Ht in Hy. injection Hy as <-. exact (Hd p0 i x eq_refl Hk Hi Hx Es Hox).
      + rewrite Ht in Hx. injection Hx as <-. symmetry. exact (Hd p0 j y eq_refl Hk Hj Hy (eq_sym Es) Hoy).
      + rewrite Ht in Hx, Hy. congruence.
  Qed.
  Lemma minv_give w pid tid ref : minv w -> givable w pid tid -> minv (fst (provider_open_trade w pid tid ref)).
  Proof.
    intros M (Hw & t & e & Ht & Hcl & He & Ep). pose proof M as (W & Q & D). unfold provider_open_trade.
    destruct (w_provs w !! pid) as [p|] eqn:Hp; [|exact M].
    assert (pv_kind p <> PBacktests -> minv (base_open_trade w pid tid)) as Hplain.
    { intros Hk. eapply minv_register; eauto. intros p0 i u Hp0 Hk0. congruence. }
    destruct (pv_kind p) eqn:Hk; [|apply Hplain; discriminate|apply Hplain; discriminate]. clear Hplain.
    unfold backtest_open_trade. rewrite Hp.
    assert (forall i, i ∈ opened_trades w p -> i <> tid) as Hl.
    { intros i Hi ->. unfold opened_trades in Hi. apply elem_of_filter_b in Hi as [Hi _]. rewrite elem_of_reverse in Hi. apply (Hw pid). exists p. auto. }
    assert (nloop (tr_strat t) (tr_dir t) tid w [] w) as N0.
    { split; [auto|]. split.
      - exists t. repeat (split; [solve [auto]|]). intros i o Hi. inversion Hi.
      - intros i x _ Hx. exists x. split; [auto|constructor]. }
    pose proof (nloop_forM _ _ pid tid ref w _ [] w Hl N0) as X. pose proof (keeps_net pid tid ref w (opened_trades w p)) as K.
    destruct (forM _ _ _) as [w1 r]. simpl in K. destruct X as [N1 N2].
    assert (minv w1) as M1.
    { destruct N1 as (Q1 & _ & E1). split; [eapply wfw_keeps; eauto|]. split; [auto|]. eapply one_dir_keep; eauto.
      intros a i x Hr. apply E1. intros ->. exact (Hw _ Hr). }
    destruct r as [[]|x]; [|exact M1]. specialize (N2 eq_refl). destruct N2 as (Q1 & (t1 & Ht1 & Hcl1 & Es1 & Ed1 & Hfin) & Hev).
    rewrite Ht1. destruct (Z.leb_spec (tr_oq t1) 0) as [Hle|Hgt]; [exact M1|]. simpl.
    destruct (keeps_t _ _ _ _ K Ht) as (t1' & Ht1' & F1). rewrite Ht1 in Ht1'. injection Ht1' as <-. destruct F1 as (F1 & _).
    destruct (keeps_e _ _ _ _ K He) as (e1 & He1 & _ & E2 & _).
    eapply (minv_register _ _ _ t1 e1); eauto; [eapply waiting_keeps; eauto|now rewrite F1|congruence|].
    intros p1 i u Hp1 _ Hi Hu Es Hop. destruct (keeps_p _ _ _ _ K Hp) as (p1' & Hp1' & _ & E3). rewrite Hp1 in Hp1'. injection Hp1' as <-. rewrite E3 in Hi.
    assert (i <> tid) as Hne by (intros ->; apply (Hw pid); exists p; auto).
    destruct (keeps_t _ _ _ _ (keeps_sym _ _ K) Hu) as (u0 & Hu0 & _). destruct (Hev _ _ Hne Hu0) as (u' & Hu' & Ru). rewrite Hu in Hu'. injection Hu' as <-.
    assert (opened_quantities u0 <> 0) as Hop0 by (eapply rtc_opened; eauto).
    assert (i ∈ opened_trades w p) as Hio.
    { unfold opened_trades. apply elem_of_filter_b. split; [now rewrite elem_of_reverse|]. unfold trade_open_b. rewrite Hu0. unfold closed.
      apply negb_true_iff, Z.eqb_neq. auto. }
    destruct (tr_dir u) eqn:Edu, (tr_dir t1) eqn:Edt; auto; exfalso;
      (destruct (Hfin i u) as [E|E]; [exact Hio|exact Hu|rewrite Edu, <- Ed1; reflexivity|congruence|contradiction|lia]).
  Qed.

  Lemma minv_build w t : minv w -> (exists e, w_epics w !! tr_epic t = Some e) -> valid_id (w_strats w) (tr_strat t) = true ->
    0 < tr_oq t -> tr_closes t = [] -> minv (build w t).
  Proof.
    intros (W & Q & D) He Hs Hq Hc. split; [|split].
    - apply wfw_append; auto. intros sid E. rewrite E in Hs. simpl in Hs. apply bool_decide_eq_true in Hs. now apply lookup_lt_is_Some_2.
    - intros i x Hx. simpl in Hx. apply lookup_app_Some in Hx as [Hx|[_ Hx]]; [eauto|]. apply list_lookup_singleton_Some in Hx as [_ <-].
      split; [auto|]. rewrite Hc. split; [unfold booked; simpl; lia|]. intros k c E. discriminate.
    - intros pid p i j x y Hp Hk Hi Hj Hx Hy Es Hox Hoy. assert (forall k, k ∈ pv_trades p -> (k < length (w_trades w))%nat) as Hlt.
      { intros k Hk'. eapply (registered_lt w pid); eauto. exists p. auto. }
      simpl in Hx, Hy. rewrite lookup_app_l in Hx, Hy by auto. exact (D pid p i j x y Hp Hk Hi Hj Hx Hy Es Hox Hoy).
  Qed.
  Lemma waiting_new w t : wfg NoDup w -> waiting (build w t) (length (w_trades w)).
  Proof. intros W pid Hr. apply (registered_lt (Pl:=NoDup) w pid) in Hr; auto. lia. Qed.

  Lemma open_as_give w eid d q s ref : fst (epic_open_trade w eid d q s ref) = w \/
    exists e t, w_epics w !! eid = Some e /\ valid_id (w_strats w) s = true /\ open_from_tick (ep_last e) eid d q s ref = Ok t /\
      fst (epic_open_trade w eid d q s ref) = fst (provider_open_trade (build w t) (ep_prov e) (length (w_trades w)) ref).
  Proof.
    unfold epic_open_trade. destruct (w_epics w !! eid) as [e|] eqn:Ee; [|auto]. destruct (valid_id _ _) eqn:Ev; [|auto].
    destruct (open_from_tick _ _ _ _ _ _) as [t|x] eqn:Eo; [|auto]. right. exists e, t. repeat (split; [solve [auto]|]).
    cbv zeta. fold (build w t). now destruct (provider_open_trade _ _ _ _) as [w' [?|?]].
  Qed.
  Lemma minv_call w c : minv w -> careful w c -> minv (fst (run_mcmd w c)).
  Proof.
    intros M Hc. destruct c as [c|e d q ov dt cv st s ref|tk e d q s ref|e d q s ref|p t ref|p t ci]; simpl in *.
    - destruct (is_open_call c) eqn:Eo; [|eapply minv_keeps; [now apply keeps_cmd|now apply evo_cmd|auto]].
      destruct c as [e d q s ref| | | | | | | | | | ]; try discriminate. simpl in *.
      pose proof (open_as_give w e d q s ref) as X. destruct (epic_open_trade w e d q s ref) as [w' r]. simpl in *.
      destruct X as [->|(ep & t & He & Hs & Ho & ->)]; [auto|]. destruct (open_fields _ _ _ _ _ _ _ Ho) as (d' & _ & E1 & E2 & E3 & E4 & E5 & _).
      apply minv_give.
      + apply minv_build; auto; [rewrite E1; eauto|now rewrite E2|now rewrite E4].
      + split; [apply waiting_new; apply M|]. exists t, ep. rewrite E1. repeat (split; [first [assumption|simpl; now apply list_lookup_middle]|]). reflexivity.
    - destruct (w_epics w !! e) as [ep|] eqn:He; [|auto]. destruct (valid_id _ _) eqn:Hs; [|auto]. destruct (timed_set dt) as [a|x]; [|auto].
      apply minv_build; auto. simpl. eauto.
    - destruct (w_epics w !! e) as [ep|] eqn:He; [|auto]. destruct (valid_id _ _) eqn:Hs; [|auto]. destruct (open_from_tick _ _ _ _ _ _) as [t|x] eqn:Ho; [|auto].
      destruct (open_fields _ _ _ _ _ _ _ Ho) as (d' & _ & E1 & E2 & E3 & E4 & E5 & _). apply minv_build; auto; [rewrite E1; eauto|now rewrite E2|now rewrite E4].
    - destruct (w_epics w !! e) as [ep|] eqn:He; [|auto]. destruct (valid_id _ _) eqn:Hs; [|auto]. destruct (open_from_tick _ _ _ _ _ _) as [t|x] eqn:Ho; [|auto].
      destruct (open_fields _ _ _ _ _ _ _ Ho) as (d' & _ & E1 & E2 & E3 & E4 & E5 & _). apply minv_build; auto; [rewrite E1; eauto|now rewrite E2|now rewrite E4].
    - destruct (w_trades w !! t); [|auto]. now apply minv_give.
    - destruct (w_provs w !! p); [|auto]. destruct (_ ≫= _); [|auto]. eapply minv_keeps; [apply keeps_thread|now apply evo_same|auto].
  Qed.
  Lemma minv_setup pr w o : minv w -> setup o -> minv (fst (step pr w o)).
  Proof.
    intros (W & Q & D) Ho. split; [apply wfg_setup; auto; constructor|]. split.
    - intros i t Ht. rewrite setup_trades in Ht by auto. eauto.
    - intros pid p i j t u Hp Hk Hi Hj. rewrite setup_trades by auto. apply setup_provs in Hp as [Hp|E]; [|rewrite E in Hi; inversion Hi|auto]. exact (D pid p i j t u Hp Hk Hi Hj).
  Qed.
  Lemma mreach_minv w : mreach w -> minv w.
  Proof.
    intros Hr. induction Hr as [|w c Hr IH Hc|pr w o Hr IH Ho|w eid e tk Hr IH He Ha|w eid e x Hr IH He Hx|w eid e Hr IH He|w sid s d Hr IH Hs|w l Hr IH].
    - split; [constructor; intros ? ? E; simpl in E; rewrite lookup_nil in E; discriminate|]. split.
      + intros i t Ht. simpl in Ht. rewrite lookup_nil in Ht. discriminate.
      + intros pid p i j t u Hp. simpl in Hp. rewrite lookup_nil in Hp. discriminate.
    - now apply minv_call.
    - now apply minv_setup.
    - eapply minv_keeps; [now apply keeps_accept|now apply evo_same|auto].
    - eapply minv_keeps; [apply keeps_fset| |auto]. apply evo_same. unfold update_frame_set. destruct (w_fsets w !! x.2) as [fs|]; [|auto].
      destruct (fs_epic_state w fs); destruct (fs_on_new_tick _ _ _ _ _); auto.
    - eapply minv_keeps; [apply keeps_value|apply evo_value|auto].
    - eapply minv_keeps; [now apply keeps_active|now apply evo_same|auto].
    - eapply minv_keeps; [apply keeps_log|now apply evo_same|auto].
  Qed.
  Lemma minv_books w : minv w -> books w.
  Proof.
    intros (W & Q & D). constructor.
    - intros pid p Hp. exact (wf_prov _ W _ _ Hp).
    - intros sid s Hs. exact (wf_strat _ W _ _ Hs).
    - intros i t Ht. pose proof (Q _ _ Ht) as (_ & Hb & _). pose proof (opened_booked t) as E; unfold opened_quantities in E; lia.
    - intros pid s i j (p & Hp & Hk) (p1 & Hp1 & Hi) (p2 & Hp2 & Hj) [(t & Ht & Es & Ed & Hop) (u & Hu & Es' & Ed' & Hop')].
      rewrite Hp in Hp1, Hp2. injection Hp1 as <-. injection Hp2 as <-. assert (tr_dir t = tr_dir u) by (apply (D pid p i j); auto; congruence). congruence.
  Qed.

  (** ** Runs go through these states *)
  Lemma mscript_reach w s : careful_script w s -> mreach w -> mreach (fst (run_mscript w s)).
  Proof.
    revert w. induction s as [|e|c k IH]; intros w Hs Hw; simpl; auto. destruct Hs as [Hc Hk].
    pose proof (mreach_call w c Hw Hc) as H1. destruct (run_mcmd w c) as [w' r] eqn:E. simpl in *. apply IH; auto.
  Qed.
  Lemma mcallback_reach pr sid cb eid w : careful_programs pr -> mreach w -> mreach (fst (run_mcallback pr sid cb eid w)).
  Proof. intros Hp Hw. apply mscript_reach; [now apply Hp|]. now apply mreach_log. Qed.
  Lemma mexecute_reach pr eid mo w x : careful_programs pr -> mreach w -> mreach (fst (mexecute pr eid mo w x)).
  Proof.
    intros Hp Hw. unfold mexecute. destruct (w_strats w !! x.2) as [s|] eqn:Es; [|auto].
    destruct (w_epics w !! eid) as [e|] eqn:Ee; [|auto].
    pose proof (mreach_active w x.2 s (tk_dt (ep_last e)) Hw Es) as H1. destruct (is_active s (tk_dt (ep_last e))) as [s' act].
    simpl in H1. destruct act; [|exact H1].
    apply andthen_inv; [|intros w2 H2; apply andthen_inv; [|intros w3 H3; now apply mcallback_reach]].
    - destruct (eqb mo (ep_mopen e)); [exact H1|]. destruct mo; now apply mcallback_reach.
    - destruct (ep_mopen e); [now apply mcallback_reach|exact H2].
  Qed.
  Lemma mtick_reach pr w eid tk : careful_programs pr -> mreach w -> mreach (fst (mon_new_tick pr w eid tk)).
  Proof.
    intros Hp Hw. unfold mon_new_tick. destruct (w_epics w !! eid) as [e|] eqn:Ee; [|auto]. cbv zeta.
    destruct (arrow_ltb _ _) eqn:Ea; [auto|]. set (e' := ep_set_last e _ _). set (tk' := tick_to _ _).
    apply (andthen_inv' (fun w1 => mreach w1 /\ w_epics w1 !! eid = Some e')).
    - apply (forM_inv (fun w1 => mreach w1 /\ w_epics w1 !! eid = Some e')).
      + intros w1 x Hx [H1 H2]. rewrite update_fset_epics. split; [|auto]. now apply (mreach_fset w1 eid e' x).
      + split; [now apply mreach_accept|]. simpl. apply list_lookup_insert. eapply lookup_lt_Some; eauto.
    - intros w1 [H1 H2]. apply forM_inv; [|now apply (mreach_value w1 eid e')]. intros w2 x _ H3. now apply mexecute_reach.
    - now intros w1 [H1 _].
  Qed.
  Lemma mstep_reach pr w o : careful_programs pr -> careful_op w o -> mreach w -> mreach (fst (mstep pr w o)).
  Proof.
    intros Hp Ho Hw. destruct o as [o|c]; [|now apply mreach_call].
    destruct o; try (apply (mreach_setup (fun _ _ _ _ => SDone)); [auto|exact I]; fail).
    - now apply mtick_reach.
    - exact (mreach_call w (MApi c) Hw Ho).
  Qed.
  Lemma mrun_reach pr l w : careful_programs pr -> careful_ops pr w l -> mreach w -> mreach (mrun pr w l).
  Proof.
    intros Hp. revert w. induction l as [|o l IH]; intros w Hl Hw; simpl; [auto|]. destruct Hl as [Ho Hl]. apply IH; auto. now apply mstep_reach.
  Qed.
  Theorem mrun_books pr l : careful_programs pr -> careful_ops pr empty_world l -> books (mrun pr empty_world l).
  Proof. intros Hp Hl. apply minv_books, mreach_minv, mrun_reach; auto. constructor. Qed.
  Theorem mreach_books w : mreach w -> books w.
  Proof. intros Hr. now apply minv_books, mreach_minv. Qed.

  (** ** Building and handing over is opening *)
  Theorem build_give w eid d q s ref :
    match run_mcmd w (MBuildEpic eid d q s ref) with
    | (w1, Ok _) => exists e, w_epics w !! eid = Some e /\
        run_mcmd w1 (MGive (ep_prov e) (length (w_trades w)) ref) = run_cmd w (COpen eid d q s ref)
    | (w1, Err x) => run_cmd w (COpen eid d q s ref) = (w, Err x) /\ w1 = w
    end.
  Proof.
    simpl. unfold epic_open_trade. destruct (w_epics w !! eid) as [e|] eqn:Ee; [|auto]. destruct (valid_id _ _) eqn:Ev; [|auto].
    destruct (open_from_tick _ _ _ _ _ _) as [t|x] eqn:Eo; [|auto]. exists e. split; [auto|]. cbv zeta. fold (build w t).
    assert (w_trades (build w t) !! length (w_trades w) = Some t) as -> by (simpl; now apply list_lookup_middle).
    destruct (provider_open_trade _ _ _ _) as [w' [[]|x]]; reflexivity.
  Qed.
  Theorem close_hand w eid e tid t q ref : w_epics w !! eid = Some e -> w_trades w !! tid = Some t -> is_Some (w_provs w !! ep_prov e) ->
    match run_cmd w (CTradeCloseEpic tid q ref) with
    | (w1, Ok _) => run_mcmd w1 (MHand (ep_prov e) tid (length (tr_closes t))) = run_cmd w (CEpicClose eid tid q ref)
    | (w1, Err x) => run_cmd w (CEpicClose eid tid q ref) = (w, Err x) /\ w1 = w
    end.
  Proof.
    intros He Ht (p & Hp). simpl. unfold epic_close_trade. rewrite He. destruct (close_from_epic w tid q ref) as [[w1 ci]|x] eqn:E; [|auto].
    apply close_from_epic_inv in E as (t0 & e0 & t1 & c & Q1 & Q2 & Q3 & -> & Q4). rewrite Ht in Q1. injection Q1 as <-. simpl. rewrite Hp.
    rewrite list_lookup_insert by (eapply lookup_lt_Some; eauto). simpl. apply close_from_tick_inv in Q3. cbv zeta in Q3. destruct Q3 as (-> & _).
    simpl. assert (tr_closes (update_from_tick t (ep_last e0)) = tr_closes t) as -> by (destruct (update_from_tick_same t (ep_last e0)) as (_ & _ & _ & _ & X & _); exact X).
    rewrite list_lookup_middle by auto. subst ci. reflexivity.
  Qed.

  (** ** World.v is a restriction *)
  Lemma hand_script s : forall w, run_mscript w (by_hand s) = run_script w s.
  Proof. induction s as [|e|c k IH]; intros w; simpl; auto. destruct (run_cmd w c) as [w' r]. apply IH. Qed.
  Lemma hand_execute pr eid mo w x : mexecute (by_hands pr) eid mo w x = execute_strategy pr eid mo w x.
  Proof.
    assert (forall sid cb w, run_mcallback (by_hands pr) sid cb eid w = run_callback pr sid cb eid w) as E by (intros; apply hand_script).
    unfold mexecute, execute_strategy. destruct (w_strats w !! x.2) as [s|]; [|auto]. destruct (w_epics w !! eid) as [e|]; [|auto].
    destruct (is_active _ _) as [s' act]. destruct act; [|auto]. rewrite !E.
    assert (forall (y : world F * res unit) k k', (forall w, k w = k' w) -> andthen y k = andthen y k') as A by (intros [v [?|?]] k k' Hk; simpl; auto).
    apply A. intros w2. rewrite E. apply A. intros w3. apply E.
  Qed.
  Lemma forM_ext {A} (f g : world F -> A -> world F * res unit) l : (forall w x, f w x = g w x) -> forall w, forM f w l = forM g w l.
  Proof. intros E. induction l as [|x l IH]; intros w; simpl; [auto|]. rewrite E. destruct (g w x) as [w' [?|?]]; auto. Qed.
  Lemma hand_step pr w o : mstep (by_hands pr) w (MOp o) = step pr w o.
  Proof.
    destruct o; try reflexivity. simpl. unfold mon_new_tick, epic_on_new_tick. destruct (w_epics w !! epic) as [e|]; [|auto]. cbv zeta.
    destruct (arrow_ltb _ _); [auto|]. destruct (forM (update_frame_set _) _ _) as [w1 [?|?]]; simpl; [|auto]. apply forM_ext. intros; apply hand_execute.
  Qed.
  Theorem hand_run pr l w : mrun (by_hands pr) w (map MOp l) = run pr w l.
  Proof. revert w. induction l as [|o l IH]; intros w; [reflexivity|]. unfold mrun, run in *. cbn [map fold_left]. rewrite hand_step. apply IH. Qed.

  (** ** A trade waiting to be handed over *)
  Definition same_at (tid : nat) w w' : Prop :=
    forall t, w_trades w !! tid = Some t -> exists t', w_trades w' !! tid = Some t' /\ erase_trade t' = erase_trade t.
  Global Instance same_at_pre tid : PreOrder (same_at tid).
  Proof.
    split; [intros w t Ht; eauto|]. intros a b c H1 H2 t Ht. destruct (H1 _ Ht) as (t1 & Ht1 & E1). destruct (H2 _ Ht1) as (t2 & Ht2 & E2).
    exists t2. split; [auto|]. exact (eq_trans E2 E1).
  Qed.
  Lemma same_lookup tid w w' : w_trades w' !! tid = w_trades w !! tid -> same_at tid w w'.
  Proof. intros E t Ht. exists t. now rewrite E. Qed.
  Lemma same_close_from_epic tid w i q ref w' ci : i <> tid -> close_from_epic w i q ref = Ok (w', ci) -> same_at tid w w'.
  Proof. intros Hi E. apply close_from_epic_inv in E as (t & e & t' & c & _ & _ & _ & -> & _). apply same_lookup. simpl. now rewrite list_lookup_insert_ne. Qed.
  Lemma same_epic_close tid w eid i q ref : i <> tid -> same_at tid w (fst (epic_close_trade w eid i q ref)).
  Proof.
    intros Hi. unfold epic_close_trade. destruct (w_epics w !! eid); [|reflexivity]. destruct (close_from_epic _ _ _ _) as [[w1 ci]|x] eqn:E; [|reflexivity].
    eapply same_close_from_epic in E; eauto.
  Qed.
  Lemma same_strategy_close tid w i q ref : i <> tid -> same_at tid w (fst (strategy_close_trade w i q ref)).
  Proof. intros Hi. unfold strategy_close_trade. destruct (w_trades w !! i); [now apply same_epic_close|reflexivity]. Qed.
  Lemma same_net tid pid i ref w l : i <> tid -> tid ∉ l -> same_at tid w (fst (forM (net_step pid i ref) w l)).
  Proof.
    intros Hi Hl. apply (forM_inv (same_at tid w)); [|reflexivity]. intros w1 x Hx S. etransitivity; [exact S|].
    assert (x <> tid) as Hne by (intros ->; auto). unfold net_step. destruct (w_trades w1 !! i); [|reflexivity]. destruct (w_trades w1 !! x); [|reflexivity].
    destruct (dir_eqb _ _); [|reflexivity]. destruct (bool_decide _); [|reflexivity]. cbv zeta.
    destruct (close_from_epic _ _ _ _) as [[w2 ci]|y] eqn:E; [|reflexivity]. eapply same_close_from_epic in E; [|exact Hne]. etransitivity; [exact E|].
    apply same_lookup. simpl. now rewrite list_lookup_alter_ne.
  Qed.
  Lemma not_opened w p pid tid : w_provs w !! pid = Some p -> waiting w tid -> tid ∉ opened_trades w p.
  Proof. intros Hp Hw Hi. unfold opened_trades in Hi. apply elem_of_filter_b in Hi as [Hi _]. rewrite elem_of_reverse in Hi. apply (Hw pid). exists p. auto. Qed.
  Lemma same_give tid w pid i ref : i <> tid -> waiting w tid ->
    same_at tid w (fst (provider_open_trade w pid i ref)) /\ waiting (fst (provider_open_trade w pid i ref)) tid.
  Proof.
    intros Hi Hw. assert (forall w1, same_at tid w w1 -> waiting w1 tid -> is_Some (w_provs w1 !! pid) -> same_at tid w (base_open_trade w1 pid i) /\ waiting (base_open_trade w1 pid i) tid) as B.
    { intros w1 S Hw1 (p0 & Hp0). destruct (register_rest w1 pid i) as (R1 & _). split; [etransitivity; [exact S|]; apply same_lookup; now rewrite R1|].
      destruct (w_trades w1 !! i) as [x|] eqn:Ex; [|unfold base_open_trade; now rewrite Ex]. intros a Hr. eapply register_registered in Hr; eauto. destruct Hr as [Hr|[_ E]]; [exact (Hw1 _ Hr)|auto]. }
    unfold provider_open_trade. destruct (w_provs w !! pid) as [p|] eqn:Hp; [|now split].
    destruct (pv_kind p); [|apply B; eauto; reflexivity|apply B; eauto; reflexivity]. unfold backtest_open_trade. rewrite Hp.
    pose proof (same_net tid pid i ref w (opened_trades w p) Hi (not_opened _ _ _ _ Hp Hw)) as S. pose proof (keeps_net pid i ref w (opened_trades w p)) as K.
    destruct (forM _ _ _) as [w1 r]. simpl in S, K. pose proof (waiting_keeps _ _ _ K Hw) as Hw1.
    destruct r as [?|?]; [|now split]. destruct (w_trades w1 !! i) as [x|]; [|now split]. destruct (tr_oq x <=? 0); [now split|]. apply B; auto.
    destruct (keeps_p _ _ _ _ K Hp) as (p' & Hp' & _). eauto.
  Qed.
  Lemma same_run_thread tid w pid k : same_at tid w (run_thread w pid k).
  Proof.
    unfold run_thread. destruct (w_provs w !! pid) as [p|]; [|reflexivity]. destruct (pv_threads p !! k) as [th|]; [|reflexivity]. destruct (th_done th); [reflexivity|].
    intros t Ht. simpl. unfold job_effect. destruct (pv_kind p); [|eauto|]; (destruct (th_job th) as [i|i c]; (destruct (decide (i = tid)) as [->|Hne];
      [rewrite list_lookup_alter, Ht; eexists; split; [reflexivity|]|rewrite list_lookup_alter_ne by auto; eauto])).
    all: unfold erase_trade, set_status, set_closes; simpl; f_equal.
    all: apply list_eq; intros j; rewrite !list_lookup_fmap; destruct (decide (c = j)) as [->|Hj]; [rewrite list_lookup_alter|rewrite list_lookup_alter_ne by auto; auto].
    all: destruct (tr_closes t !! j); reflexivity.
  Qed.
  Lemma same_cmd tid w c : wfg NoDup w -> waiting w tid -> is_open_call c = false -> about_others tid (MApi c) -> same_at tid w (fst (run_cmd w c)).
  Proof.
    intros W Hw Hc Ha. destruct c as [e d q s ref|t q ref|e t q ref|s q ref|t v|t|t v d q ref|t q ref|s u|s b|p k]; try discriminate; simpl in *.
    - now apply same_strategy_close.
    - now apply same_epic_close.
    - unfold close_opened_trades. destruct (w_strats w !! s) as [x|] eqn:Es; [|reflexivity]. apply (forM_inv (same_at tid w)); [|reflexivity].
      intros w1 i Hi S. etransitivity; [exact S|]. unfold close_opened_step. destruct (trade_open_b w1 i); [|reflexivity]. apply same_strategy_close. intros ->.
      rewrite elem_of_reverse in Hi. apply (wf_strat _ W _ _ Es) in Hi as [_ (pid & Hr)]. exact (Hw _ Hr).
    - apply same_lookup. simpl. now rewrite list_lookup_alter_ne.
    - destruct (w_trades w !! t) as [x|] eqn:E; [|reflexivity]. destruct (w_epics w !! tr_epic x); [|reflexivity]. apply same_lookup. simpl. now rewrite list_lookup_insert_ne.
    - destruct (w_trades w !! t) as [x|] eqn:E; [|reflexivity]. destruct (close x v d q ref) as [[x' c]|] eqn:E2; [|reflexivity]. apply same_lookup. simpl. now rewrite list_lookup_insert_ne.
    - destruct (close_from_epic w t q ref) as [[w' ci]|] eqn:E; [|reflexivity]. eapply same_close_from_epic; eauto.
    - now apply same_lookup.
    - now apply same_lookup.
    - apply same_run_thread.
  Qed.
  Lemma same_build tid w t : is_Some (w_trades w !! tid) -> waiting w tid -> same_at tid w (build w t) /\ waiting (build w t) tid.
  Proof. intros (x & Hx) Hw. split; [|exact Hw]. apply same_lookup. simpl. rewrite lookup_app_l; auto. eapply lookup_lt_Some; eauto. Qed.
  Lemma same_mcmd tid w c : wfg NoDup w -> waiting w tid -> is_Some (w_trades w !! tid) -> about_others tid c ->
    same_at tid w (fst (run_mcmd w c)) /\ waiting (fst (run_mcmd w c)) tid.
  Proof.
    intros W Hw Hx Ha. destruct c as [c|e d q ov dt cv st s ref|tk e d q s ref|e d q s ref|p t ref|p t ci]; simpl in Ha |- *.
    - destruct (is_open_call c) eqn:Eo; [|split; [now apply same_cmd|eapply waiting_keeps; [now apply keeps_cmd|auto]]].
      destruct c as [e d q s ref| | | | | | | | | | ]; try discriminate. simpl in *.
      pose proof (open_as_give w e d q s ref) as X. destruct (epic_open_trade w e d q s ref) as [w' r]. simpl in *.
      destruct X as [->|(ep & t & He & Hs & Ho & ->)]; [now split|]. destruct (same_build tid w t Hx Hw) as [S0 W0].
      destruct (same_give tid (build w t) (ep_prov ep) (length (w_trades w)) ref) as [S1 W1]; [|auto|split; [etransitivity; eauto|auto]].
      destruct Hx as (x & Hx). apply lookup_lt_Some in Hx. lia.
    - destruct (w_epics w !! e) as [ep|] eqn:He; [|now split]. destruct (valid_id _ _) eqn:Hs; [|now split]. destruct (timed_set dt) as [a|x]; [|now split]. now apply same_build.
    - destruct (w_epics w !! e) as [ep|] eqn:He; [|now split]. destruct (valid_id _ _) eqn:Hs; [|now split]. destruct (open_from_tick _ _ _ _ _ _) as [t|x] eqn:Ho; [|now split]. now apply same_build.
    - destruct (w_epics w !! e) as [ep|] eqn:He; [|now split]. destruct (valid_id _ _) eqn:Hs; [|now split]. destruct (open_from_tick _ _ _ _ _ _) as [t|x] eqn:Ho; [|now split]. now apply same_build.
    - destruct (w_trades w !! t); [|now split]. now apply same_give.
    - destruct (w_provs w !! p); [|now split]. destruct (_ ≫= _); [|now split]. split; [now apply same_lookup|]. eapply waiting_keeps; [apply keeps_thread|auto].
  Qed.
  Lemma same_value tid w pid tk : waiting w tid -> same_at tid w (update_open_trades w pid tk).
  Proof.
    intros Hw. unfold update_open_trades. destruct (w_provs w !! pid) as [p|] eqn:Hp; [|reflexivity]. apply same_lookup. simpl.
    pose proof (not_opened _ _ _ _ Hp Hw) as Hn. generalize (w_trades w) as ts. revert Hn. generalize (opened_trades w p). intros l.
    induction l as [|i l IH]; intros Hn ts; simpl; [auto|]. apply not_elem_of_cons in Hn as [H1 H2]. rewrite IH by auto. apply list_lookup_alter_ne; congruence.
  Qed.

  Section run.
    Context (pr : mprograms F) (tid : nat) (w0 : world F).
    Hypothesis (Hp : careful_programs pr) (Ho : others_programs tid pr).
    Definition kept w : Prop := mreach w /\ waiting w tid /\ is_Some (w_trades w !! tid) /\ same_at tid w0 w.
    Lemma kept_step w w' : kept w -> mreach w' -> waiting w' tid -> same_at tid w w' -> kept w'.
    Proof.
      intros (R & W & (t & Ht) & S) R' W' S'. destruct (S' _ Ht) as (t' & Ht' & _). repeat (split; [first [assumption|eauto]|]). etransitivity; eauto.
    Qed.
    Lemma kept_call w c : careful w c -> about_others tid c -> kept w -> kept (fst (run_mcmd w c)).
    Proof.
      intros Hc Ha K. pose proof K as (R & W & X & S). destruct (mreach_minv _ R) as (WF & _). destruct (same_mcmd tid w c WF W X Ha).
      eapply kept_step; eauto. now apply mreach_call.
    Qed.
    Lemma kept_script s : forall w, careful_script w s -> others_script tid s -> kept w -> kept (fst (run_mscript w s)).
    Proof.
      induction s as [|e|c k IH]; intros w Hc Hs K; simpl; auto. destruct Hc as [Hc Hk], Hs as [Hs1 Hs2].
      pose proof (kept_call w c Hc Hs1 K) as K1. destruct (run_mcmd w c) as [w' r]. simpl in *. apply IH; auto.
    Qed.
    Lemma kept_keeps w w' : keeps w w' -> w_trades w' = w_trades w -> mreach w' -> kept w -> kept w'.
    Proof. intros K E R' Kw. eapply kept_step; eauto; [eapply waiting_keeps; eauto; apply Kw|]. apply same_lookup. now rewrite E. Qed.
    Lemma kept_callback sid cb eid w : kept w -> kept (fst (run_mcallback pr sid cb eid w)).
    Proof.
      intros K. apply kept_script; [apply Hp, K|apply Ho|]. apply (kept_keeps w); auto; [apply keeps_log|]. apply mreach_log, K.
    Qed.
    Lemma kept_execute eid mo w x : kept w -> kept (fst (mexecute pr eid mo w x)).
    Proof.
      intros K. unfold mexecute. destruct (w_strats w !! x.2) as [s|] eqn:Es; [|auto]. destruct (w_epics w !! eid) as [e|] eqn:Ee; [|auto].
      assert (kept (upd_strats w (<[x.2:=fst (is_active s (tk_dt (ep_last e)))]> (w_strats w)))) as H1.
      { apply (kept_keeps w); auto; [now apply keeps_active|]. apply mreach_active; auto. apply K. }
      destruct (is_active s (tk_dt (ep_last e))) as [s' act]. simpl in H1. destruct act; [|exact H1].
      apply andthen_inv; [|intros w2 H2; apply andthen_inv; [|intros w3 H3; now apply kept_callback]].
      - destruct (eqb mo (ep_mopen e)); [exact H1|]. destruct mo; now apply kept_callback.
      - destruct (ep_mopen e); [now apply kept_callback|exact H2].
    Qed.
    Lemma fset_trades tk w x : w_trades (fst (update_frame_set tk w x)) = w_trades w.
    Proof. unfold update_frame_set. destruct (w_fsets w !! x.2) as [fs|]; [|auto]. destruct (fs_epic_state w fs); destruct (fs_on_new_tick _ _ _ _ _); auto. Qed.
    Lemma kept_tick w eid tk : kept w -> kept (fst (mon_new_tick pr w eid tk)).
    Proof.
      intros K. unfold mon_new_tick. destruct (w_epics w !! eid) as [e|] eqn:Ee; [|auto]. cbv zeta.
      destruct (arrow_ltb _ _) eqn:Ea; [auto|]. set (e' := ep_set_last e _ _). set (tk' := tick_to _ _).
      apply (andthen_inv' (fun w1 => kept w1 /\ w_epics w1 !! eid = Some e')).
      - apply (forM_inv (fun w1 => kept w1 /\ w_epics w1 !! eid = Some e')).
        + intros w1 x Hx [H1 H2]. rewrite update_fset_epics. split; [|auto]. apply (kept_keeps w1); auto; [apply keeps_fset|apply fset_trades|].
          apply (mreach_fset w1 eid e' x); auto. apply H1.
        + split; [|simpl; apply list_lookup_insert; eapply lookup_lt_Some; eauto]. apply (kept_keeps w); auto; [now apply keeps_accept|]. apply mreach_accept; auto. apply K.
      - intros w1 [H1 H2]. apply forM_inv; [intros w2 x _ H3; now apply kept_execute|].
        apply (kept_step w1); auto; [apply (mreach_value w1 eid e'); auto; apply H1|eapply waiting_keeps; [apply keeps_value|apply H1]|apply same_value; apply H1].
      - now intros w1 [H1 _].
    Qed.
    Lemma kept_setup w o : setup o -> kept w -> kept (fst (step (fun _ _ _ _ => SDone) w o)).
    Proof.
      intros So K. apply (kept_step w); auto.
      - apply mreach_setup; auto. apply K.
      - intros pid (p & Hpp & Hi). apply setup_provs in Hpp as [Hpp|E]; [|rewrite E in Hi; inversion Hi|auto]. destruct K as (_ & W & _). apply (W pid). exists p. auto.
      - apply same_lookup. now rewrite setup_trades.
    Qed.
    Lemma kept_mstep w o : careful_op w o -> others_op tid o -> kept w -> kept (fst (mstep pr w o)).
    Proof.
      intros Hc Hs K. destruct o as [o|c]; [|now apply kept_call]. destruct o; try (apply kept_setup; [exact I|auto]; fail).
      - now apply kept_tick.
      - exact (kept_call w (MApi c) Hc Hs K).
    Qed.
    Lemma kept_run l : forall w, careful_ops pr w l -> Forall (others_op tid) l -> kept w -> kept (mrun pr w l).
    Proof.
      induction l as [|o l IH]; intros w Hc Hs K; [exact K|]. destruct Hc as [Hc1 Hc2]. apply Forall_cons in Hs as [Hs1 Hs2].
      unfold mrun in *. cbn [fold_left]. apply IH; auto. now apply kept_mstep.
    Qed.
  End run.
  Theorem waiting_run pr tid w l t : careful_programs pr -> others_programs tid pr -> mreach w -> waiting w tid -> w_trades w !! tid = Some t ->
    careful_ops pr w l -> Forall (others_op tid) l ->
    waiting (mrun pr w l) tid /\ exists t', w_trades (mrun pr w l) !! tid = Some t' /\ erase_trade t' = erase_trade t.
  Proof.
    intros Hp Ho R W Ht Hc Hs. assert (kept tid w w) as K by (repeat (split; [first [assumption|eauto]|]); reflexivity).
    destruct (kept_run pr tid w Hp Ho l w Hc Hs K) as (_ & W' & _ & S). split; [auto|]. exact (S _ Ht).
  Qed.
End proofs.

(** What the constructors set. *)
Section built.
  Context {F : Type} `{Num F}.
  Lemma manual_built (w : world F) e d q ov a cv st s ref : is_Some (w_epics w !! e) -> valid_id (w_strats w) s = true ->
    run_mcmd w (MBuild e d q ov DtNaive cv st s ref) = (w, Err TimeException) /\
    exists w1 t, run_mcmd w (MBuild e d q ov (DtAware a) cv st s ref) = (w1, Ok ()) /\
      w_trades w1 = w_trades w ++ [t] /\ w_provs w1 = w_provs w /\ w_strats w1 = w_strats w /\ w_epics w1 = w_epics w /\ w_fsets w1 = w_fsets w /\ w_log w1 = w_log w /\
      tr_epic t = e /\ tr_strat t = s /\ tr_dir t = d /\ tr_oq t = q /\ tr_closes t = [] /\ tr_ov t = ov /\ tr_dt t = a /\ tr_status t = st /\ tr_ref t = ref /\
      (forall v, cv = Some v -> ftruthy v = true -> tr_cv t = v) /\ (cv = None -> tr_cv t = ov) /\ (forall v, cv = Some v -> ftruthy v = false -> tr_cv t = ov) /\
      tr_max t = result t /\ tr_min t = result t.
  Proof.
    intros [ep He] Hs. cbn [run_mcmd]. rewrite He, Hs. cbn [timed_set]. split; [reflexivity|].
    eexists _, _. split; [reflexivity|]. split; [reflexivity|]. repeat (split; [reflexivity|]).
    split; [intros v -> E; cbn; now rewrite E|]. split; [intros ->; reflexivity|]. split; [intros v -> E; cbn; now rewrite E|]. split; reflexivity.
  Qed.
  Lemma manual_built_tick (w : world F) tk e q s ref : is_Some (w_epics w !! e) -> valid_id (w_strats w) s = true ->
    run_mcmd w (MBuildTick tk e BadDir q s ref) = (w, Err TradeException) /\
    run_mcmd w (MBuildTick tk e (Dir BUY) q s ref) = run_mcmd w (MBuild e BUY q (tk_ask tk) (DtAware (tk_dt tk)) (Some (tk_bid tk)) CREATED s ref) /\
    run_mcmd w (MBuildTick tk e (Dir SELL) q s ref) = run_mcmd w (MBuild e SELL q (tk_bid tk) (DtAware (tk_dt tk)) (Some (tk_ask tk)) CREATED s ref).
  Proof. intros [ep He] Hs. cbn [run_mcmd]. rewrite He, Hs. repeat split; reflexivity. Qed.
End built.
