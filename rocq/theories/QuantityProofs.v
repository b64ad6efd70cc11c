(** Quantities in reachable states, netting properties C11, C13, C14. *)
From Verif Require Export NettingProofs.
Open Scope Z_scope.

Section proofs.
  Context {F : Type} `{Num F}.
  Implicit Types (w : world F) (t : trade F).

  (** ** C14 *)
  Definition others_same (s : option nat) (tid : nat) w0 w1 : Prop :=
    (exists t, w_trades w1 !! tid = Some t /\ tr_strat t = s) /\
    (forall i t, i <> tid -> w_trades w0 !! i = Some t -> tr_strat t <> s -> w_trades w1 !! i = Some t) /\
    w_strats w1 = w_strats w0 /\ w_epics w1 = w_epics w0 /\ w_fsets w1 = w_fsets w0 /\ w_log w1 = w_log w0.
  Lemma net_step_others s pid tid ref w0 w1 oid : others_same s tid w0 w1 -> others_same s tid w0 (fst (net_step pid tid ref w1 oid)).
  Proof.
    intros Ho. pose proof Ho as ((t & Ht & Es) & H2 & H3 & H4 & H5 & H6). unfold net_step. rewrite Ht.
    destruct (w_trades w1 !! oid) as [o|] eqn:Eo; [|exact Ho]. destruct (dir_eqb _ _); [|exact Ho].
    destruct (bool_decide _) eqn:Eb; [|exact Ho]. apply bool_decide_eq_true in Eb. cbv zeta.
    destruct (close_from_epic _ _ _ _) as [[w2 ci]|e] eqn:Ec; [|exact Ho].
    apply close_from_epic_inv in Ec as (o' & e & o2 & c & Q1 & Q2 & Q3 & -> & _). rewrite Eo in Q1. injection Q1 as <-. simpl.
    apply close_tick_fixed in Q3 as (F1 & F2 & _). split; [|split; [|auto]].
    - simpl. rewrite list_lookup_alter. destruct (decide (oid = tid)) as [->|Hne].
      + rewrite list_lookup_insert by (eapply lookup_lt_Some; eauto). simpl. eexists. split; [reflexivity|]. simpl. congruence.
      + rewrite list_lookup_insert_ne, Ht by auto. simpl. eexists. split; [reflexivity|]. auto.
    - intros i x Hi Hx Hs. simpl. rewrite list_lookup_alter_ne by auto. destruct (decide (oid = i)) as [->|Hne].
      + exfalso. specialize (H2 _ _ Hi Hx Hs). congruence.
      + rewrite list_lookup_insert_ne by auto. eauto.
  Qed.
  Lemma open_others w eid d q s ref w' r : epic_open_trade w eid d q s ref = (w', r) ->
    (forall i t, w_trades w !! i = Some t -> tr_strat t <> s -> w_trades w' !! i = Some t) /\
    (forall sid, s <> Some sid -> w_strats w' !! sid = w_strats w !! sid) /\
    w_epics w' = w_epics w /\ w_fsets w' = w_fsets w /\ w_log w' = w_log w.
  Proof.
    unfold epic_open_trade. destruct (w_epics w !! eid) as [e|] eqn:Ee; [|intros E; injection E as <- <-; auto 10].
    destruct (valid_id (w_strats w) s); [|intros E; injection E as <- <-; auto 10].
    destruct (open_from_tick (ep_last e) eid d q s ref) as [t|x] eqn:Eo; [|intros E; injection E as <- <-; auto 10].
    cbv zeta. set (w0 := upd_trades w (w_trades w ++ [t])). set (tid := length (w_trades w)). intros E.
    destruct (open_fields _ _ _ _ _ _ _ Eo) as (d' & _ & _ & Es & _).
    assert (others_same s tid w0 w0) as O0.
    { split; [exists t; split; auto; simpl; now apply list_lookup_middle|]. auto 10. }
    assert (forall w1, others_same s tid w0 w1 -> (w' = w1 \/ w' = base_open_trade w1 (ep_prov e) tid) ->
      (forall i x, w_trades w !! i = Some x -> tr_strat x <> s -> w_trades w' !! i = Some x) /\
      (forall sid, s <> Some sid -> w_strats w' !! sid = w_strats w !! sid) /\
      w_epics w' = w_epics w /\ w_fsets w' = w_fsets w /\ w_log w' = w_log w) as Hfin.
    { intros w1 ((t1 & Ht1 & Es1) & H2 & H3 & H4 & H5 & H6) Hw'.
      assert (forall i x, w_trades w !! i = Some x -> tr_strat x <> s -> w_trades w1 !! i = Some x) as Hx.
      { intros i x Hi Hs. apply H2; auto; [|simpl; now apply lookup_app_l_Some]. intros ->. apply lookup_lt_Some in Hi. unfold tid in Hi. lia. }
      destruct Hw' as [->| ->].
      - split; [auto|]. split; [intros sid _; now rewrite H3|]. rewrite H4, H5, H6. auto.
      - destruct (register_rest w1 (ep_prov e) tid) as (R1 & R2 & R3 & R4). rewrite R1, R2, R3, R4, H4, H5, H6.
        split; [auto|]. split; [|auto]. intros sid Hsid. rewrite (register_strats _ _ _ _ _ Ht1), H3, Es1. now rewrite decide_False. }
    destruct (provider_open_trade w0 (ep_prov e) tid ref) as [w1 r1] eqn:Ep.
    assert (w1 = w') as -> by (destruct r1; injection E as <- <-; auto). clear E r.
    unfold provider_open_trade in Ep. destruct (w_provs w0 !! ep_prov e) as [p|] eqn:Epp; [|injection Ep as <- <-; apply (Hfin w0); auto].
    destruct (pv_kind p); [|injection Ep as <- <-; apply (Hfin w0); auto|injection Ep as <- <-; apply (Hfin w0); auto].
    unfold backtest_open_trade in Ep. rewrite Epp in Ep.
    pose proof (forM_inv (others_same s tid w0) (net_step (ep_prov e) tid ref) (opened_trades w0 p) w0) as Hinv.
    specialize (Hinv ltac:(intros w1 x _; apply net_step_others) O0). destruct (forM _ _ _) as [w1 [u|x]]; simpl in Hinv.
    - destruct (w_trades w1 !! tid) as [t1|]; [|injection Ep as <- <-; apply (Hfin w1); auto].
      destruct (tr_oq t1 <=? 0); injection Ep as <- <-; apply (Hfin w1); auto.
    - injection Ep as <- <-. apply (Hfin w1); auto.
  Qed.

  (** ** Quantities *)
  Definition qinv w : Prop := forall i t, w_trades w !! i = Some t -> qty_inv (tr_oq t) t.
  Definition evo w w' : Prop := forall i t, w_trades w !! i = Some t -> exists t', w_trades w' !! i = Some t' /\ rtc trade_call t t'.
  Global Instance evo_pre : PreOrder evo.
  Proof.
    split; [intros w i t Ht; exists t; split; [auto|constructor]|]. intros a b c H1 H2 i t Ht. destruct (H1 i t Ht) as (t1 & Ht1 & R1).
    destruct (H2 i t1 Ht1) as (t2 & Ht2 & R2). exists t2. split; auto. etransitivity; eauto.
  Qed.
  Lemma qty_inv_rtc t t' : rtc trade_call t t' -> qty_inv (tr_oq t) t -> qty_inv (tr_oq t') t' /\ tr_oq t' = tr_oq t.
  Proof.
    intros Hr. induction Hr as [t|t t1 t2 Hc Hr IH]; [auto|]. intros Hi. pose proof (qty_inv_call _ _ _ Hc Hi) as [Hi1 _].
    assert (tr_oq t1 = tr_oq t) as E by apply Hi1. rewrite <- E in *. now apply IH.
  Qed.
  Lemma evo_qinv w w' : evo w w' -> length (w_trades w') = length (w_trades w) -> qinv w -> qinv w'.
  Proof.
    intros He Hl Hq i t' Ht'. assert (is_Some (w_trades w !! i)) as (t & Ht).
    { apply lookup_lt_is_Some_2. rewrite <- Hl. eapply lookup_lt_Some; eauto. }
    destruct (He i t Ht) as (t1 & Ht1 & R1). rewrite Ht' in Ht1. injection Ht1 as <-. exact (proj1 (qty_inv_rtc t t' R1 (Hq i t Ht))).
  Qed.
  Lemma keeps_length w w' : keeps w w' -> length (w_trades w') = length (w_trades w).
  Proof. intros K. pose proof (k_trades _ _ K) as E. apply (f_equal length) in E. now rewrite !fmap_length in E. Qed.

  Lemma evo_trade w i t t' : w_trades w !! i = Some t -> rtc trade_call t t' -> evo w (upd_trades w (<[i:=t']> (w_trades w))).
  Proof.
    intros Hi Hr j x Hx. simpl. rewrite (insert_lookup_some _ _ _ _ _ Hi). destruct (decide (j = i)) as [->|Hne].
    - exists t'. split; auto. congruence.
    - exists x. split; [auto|constructor].
  Qed.
  Lemma evo_alter w i f : (forall t, rtc trade_call t (f t)) -> evo w (upd_trades w (alter f i (w_trades w))).
  Proof.
    intros Hf j x Hx. simpl. destruct (decide (i = j)) as [->|Hne].
    - rewrite list_lookup_alter, Hx. simpl. eauto.
    - rewrite list_lookup_alter_ne by auto. exists x. split; [auto|constructor].
  Qed.
  Lemma evo_same w w' : w_trades w' = w_trades w -> evo w w'.
  Proof. intros E i t Ht. exists t. rewrite E. split; [auto|constructor]. Qed.
  Lemma evo_close_from_epic w tid q ref w' ci : qty_ok q -> close_from_epic w tid q ref = Ok (w', ci) -> evo w w'.
  Proof.
    intros Hq E. apply close_from_epic_inv in E as (t & e & t' & c & Ht & _ & Hc & -> & _). eapply evo_trade; eauto.
    apply rtc_once. eapply call_close_tick; eauto.
  Qed.
  Lemma evo_epic_close w eid tid q ref : qty_ok q -> evo w (fst (epic_close_trade w eid tid q ref)).
  Proof.
    intros Hq. unfold epic_close_trade. destruct (w_epics w !! eid); [|reflexivity].
    destruct (close_from_epic _ _ _ _) as [[w1 ci]|e'] eqn:E; [|reflexivity]. pose proof (evo_close_from_epic _ _ _ _ _ _ Hq E) as E'.
    etransitivity; [exact E'|]. now apply evo_same.
  Qed.
  Lemma evo_strategy_close w tid q ref : qty_ok q -> evo w (fst (strategy_close_trade w tid q ref)).
  Proof. intros Hq. unfold strategy_close_trade. destruct (w_trades w !! tid); [now apply evo_epic_close|reflexivity]. Qed.
  Lemma evo_forM {A} (f : world F -> A -> world F * res unit) l w :
    (forall w x, evo w (fst (f w x))) -> evo w (fst (forM f w l)).
  Proof. intros Hf. apply (forM_inv (evo w)); [|reflexivity]. intros w1 x _ H1. etransitivity; eauto. Qed.
  Lemma evo_run_thread w pid k : evo w (run_thread w pid k).
  Proof.
    unfold run_thread. destruct (w_provs w !! pid) as [p|] eqn:Ep; [|reflexivity]. destruct (pv_threads p !! k) as [th|]; [|reflexivity].
    destruct (th_done th); [reflexivity|]. transitivity (upd_trades w (job_effect (pv_kind p) (th_job th) (w_trades w))); [|now apply evo_same].
    unfold job_effect. destruct (pv_kind p) as [| |s1 s2]; [|now apply evo_same|]; destruct (th_job th); apply evo_alter; intros t; apply rtc_once;
      first [apply call_status|apply call_close_status].
  Qed.
  Lemma evo_cmd w c : is_open_call c = false -> sane_call c -> evo w (fst (run_cmd w c)).
  Proof.
    intros Hc Hs. destruct c as [e d q s ref|t q ref|e t q ref|s q ref|t v|t|t v d q ref|t q ref|s u|s b|p k]; try discriminate; simpl in *.
    - now apply evo_strategy_close.
    - now apply evo_epic_close.
    - unfold close_opened_trades. destruct (w_strats w !! s); [|reflexivity]. apply evo_forM. intros w1 x.
      unfold close_opened_step. destruct (trade_open_b w1 x); [now apply evo_strategy_close|reflexivity].
    - apply evo_alter. intros x. apply rtc_once, call_update.
    - destruct (w_trades w !! t) as [x|] eqn:E; [|reflexivity]. destruct (w_epics w !! tr_epic x); [|reflexivity].
      eapply evo_trade; eauto. apply rtc_once, call_tick.
    - destruct (w_trades w !! t) as [x|] eqn:E; [|reflexivity]. destruct (close x v d q ref) as [[x' c]|] eqn:E2; [|reflexivity].
      eapply evo_trade; eauto. apply rtc_once. eapply call_close; eauto.
    - destruct (close_from_epic w t q ref) as [[w' ci]|] eqn:E; [|reflexivity]. eapply evo_close_from_epic; eauto.
    - now apply evo_same.
    - now apply evo_same.
    - apply evo_run_thread.
  Qed.
  Lemma evo_value w pid tk : evo w (update_open_trades w pid tk).
  Proof.
    unfold update_open_trades. destruct (w_provs w !! pid) as [p|]; [|reflexivity]. generalize (opened_trades w p). intros l.
    assert (forall ts : list (trade F), (forall i t, ts !! i = Some t -> exists t', fold_left (fun ts i => alter (fun t => update_from_tick t tk) i ts) l ts !! i = Some t' /\ rtc trade_call t t')) as Hf.
    { induction l as [|j l IH]; intros ts i t Ht; simpl; [exists t; split; [auto|constructor]|].
      destruct (decide (j = i)) as [->|Hne].
      - destruct (IH (alter (fun t => update_from_tick t tk) i ts) i (update_from_tick t tk)) as (t' & Ht' & R).
        + rewrite list_lookup_alter, Ht. reflexivity.
        + exists t'. split; auto. econstructor; [apply call_tick|eauto].
      - apply IH. now rewrite list_lookup_alter_ne. }
    intros i t Ht. now apply Hf.
  Qed.

  Lemma qinv_open_pos w p s d i : qinv w -> i ∈ open_trades_of w p s d -> 0 < open_qty w i.
  Proof.
    intros Hq Hi. apply open_trades_of_elem in Hi as [_ (t & Ht & _ & _ & Hne)]. unfold open_qty. rewrite Ht.
    destruct (Hq _ _ Ht) as (_ & Hb & _). rewrite opened_booked in *. lia.
  Qed.

  Lemma netted_bounds q b a : 0 < a -> 0 <= b -> 0 <= netted q b a <= a.
  Proof. intros Ha Hb. unfold netted. destruct (Z.leb_spec q b); lia. Qed.

  Lemma provider_simple w pid p tid ref : w_provs w !! pid = Some p -> pv_kind p <> PBacktests ->
    provider_open_trade w pid tid ref = (base_open_trade w pid tid, Ok ()).
  Proof. intros Hp Hk. unfold provider_open_trade. rewrite Hp. destruct (pv_kind p); [congruence|auto|auto]. Qed.
  (** Opening through a provider that does not net. *)
  Lemma open_simple w eid e p d q s ref : w_epics w !! eid = Some e -> w_provs w !! ep_prov e = Some p -> pv_kind p <> PBacktests ->
    valid_id (w_strats w) s = true ->
    exists t, open_from_tick (ep_last e) eid (Dir d) q s ref = Ok t /\
      epic_open_trade w eid (Dir d) q s ref = (base_open_trade (upd_trades w (w_trades w ++ [t])) (ep_prov e) (length (w_trades w)), Ok (length (w_trades w))).
  Proof.
    intros He Hp Hk Hs. assert (exists t, open_from_tick (ep_last e) eid (Dir d) q s ref = Ok t) as (t & Ho) by (destruct d; simpl; eauto).
    exists t. split; [auto|]. unfold epic_open_trade. rewrite He, Hs, Ho. cbv zeta. erewrite provider_simple; eauto.
  Qed.
  (** A failing opening changes nothing. *)
  Lemma open_cases w eid d q s ref : wfw w -> (exists e d' p, d = Dir d' /\ w_epics w !! eid = Some e /\ w_provs w !! ep_prov e = Some p /\ valid_id (w_strats w) s = true) \/
    (exists x, epic_open_trade w eid d q s ref = (w, Err x)).
  Proof.
    intros W. unfold epic_open_trade. destruct (w_epics w !! eid) as [e|] eqn:Ee; [|eauto]. destruct (valid_id (w_strats w) s); [|eauto].
    destruct d as [d'|]; [|simpl; eauto]. left. destruct (wf_epic _ W _ _ Ee) as ((p & Hp) & _). exists e, d', p. auto.
  Qed.

  Lemma open_qinv w eid d q s ref : wfw w -> qinv w -> 0 < q ->
    qinv (fst (epic_open_trade w eid d q s ref)) /\ evo w (fst (epic_open_trade w eid d q s ref)).
  Proof.
    intros W Q Hq. destruct (open_cases w eid d q s ref W) as [(e & d' & p & -> & He & Hp & Hs)|(x & ->)]; [|simpl; split; [auto|reflexivity]].
    assert (pv_kind p = PBacktests \/ pv_kind p <> PBacktests) as [Hk|Hk] by (destruct (pv_kind p); auto; right; discriminate).
    - destruct (open_backtest w eid e p d' q s ref W He Hp Hk Hs Hq) as (t & w' & Ho & -> & T1 & T2 & T3 & T4 & _).
      { intros i Hi. eapply qinv_open_pos; eauto. }
      simpl. set (l := open_trades_of w p s (other d')) in *. set (a := map (open_qty w) l) in *.
      assert (Forall (fun x => 0 < x) a) as Hapos.
      { apply Forall_forall. intros x Hx. apply elem_of_list_In, in_map_iff in Hx as (i & <- & Hi). apply elem_of_list_In in Hi. eapply qinv_open_pos; eauto. }
      assert (evo w w') as Hevo.
      { intros i x Hx. destruct (decide (i ∈ l)) as [Hi|Hi].
        - apply elem_of_list_lookup in Hi as (k & Hk'). destruct (T3 k i x Hk' Hx) as (eo & o' & c & _ & Hc & _ & Ho'). exists o'. split; [auto|].
          apply rtc_once. eapply call_close_tick; [|exact Hc]. simpl. apply netted_bounds.
          + pose proof (elem_of_list_lookup_2 _ _ _ Hk') as Hi. apply (qinv_open_pos w p s _ i Q) in Hi. unfold open_qty in Hi. now rewrite Hx in Hi.
          + apply total_pos. now apply Forall_take.
        - exists x. split; [|constructor]. rewrite T4; auto. eapply lookup_lt_Some; eauto. }
      split; [|auto]. intros i x Hx. destruct (decide (i = length (w_trades w))) as [->|Hne].
      + rewrite T1 in Hx. injection Hx as <-. destruct (open_fields _ _ _ _ _ _ _ Ho) as (_ & _ & _ & _ & _ & E4 & E5 & _).
        split; [auto|]. simpl. rewrite E5. unfold booked. simpl. split; [lia|]. intros k c Hc. rewrite lookup_nil in Hc. discriminate.
      + assert (is_Some (w_trades w !! i)) as (x0 & Hx0).
        { apply lookup_lt_is_Some_2. apply lookup_lt_Some in Hx. lia. }
        destruct (Hevo i x0 Hx0) as (x1 & Hx1 & R). rewrite Hx in Hx1. injection Hx1 as <-. exact (proj1 (qty_inv_rtc x0 x R (Q i x0 Hx0))).
    - destruct (open_simple w eid e p d' q s ref He Hp Hk Hs) as (t & Ho & ->). simpl.
      destruct (register_rest (upd_trades w (w_trades w ++ [t])) (ep_prov e) (length (w_trades w))) as (R1 & _).
      split.
      + intros i x. rewrite R1. simpl. intros Hx. apply lookup_app_Some in Hx as [Hx|[_ Hx]]; [now apply (Q i)|]. apply list_lookup_singleton_Some in Hx as [_ <-].
        destruct (open_fields _ _ _ _ _ _ _ Ho) as (_ & _ & _ & _ & _ & E4 & _ & Hc). rewrite E4. apply qty_inv_created; [lia|auto].
      + intros i x Hx. rewrite R1. simpl. exists x. split; [now apply lookup_app_l_Some|constructor].
  Qed.

  Lemma setup_trades pr w (o : op F) : setup o -> w_trades (fst (step pr w o)) = w_trades w.
  Proof.
    destruct o as [k|ref|u q ref m|ref tz op cl ds hs pv|eid fid|eid sid|fid i|e tk|c]; intros Ho; simpl in Ho; try contradiction; simpl; auto.
    - destruct (fset_init u q ref m); auto.
    - unfold new_epic. destruct tz; [|auto]. destruct (valid_id _ _); [|auto]. cbv zeta. destruct pv; auto.
    - unfold add_frame_set. destruct (w_epics w !! eid); [|auto]. destruct (w_fsets w !! fid); [|auto]. destruct (dict_get _ _); auto.
    - unfold add_strategy. destruct (w_epics w !! eid); [|auto]. destruct (w_strats w !! sid); [|auto]. destruct (dict_get _ _); auto.
    - destruct (w_fsets w !! fid); [|auto]. destruct (add_indicator _ _). auto.
  Qed.

  (** In every reachable state quantities are accounted for. *)
  Lemma reach_qinv w : reach sane_call w -> qinv w.
  Proof.
    intros Hr. induction Hr as [|w c Hr IH Hc|pr w o Hr IH Ho|w eid e tk Hr IH He Ha|w eid e x Hr IH He Hx|w eid e Hr IH He|w sid s d Hr IH Hs|w l Hr IH].
    - intros i t Ht. simpl in Ht. rewrite lookup_nil in Ht. discriminate.
    - destruct (is_open_call c) eqn:Eo.
      + destruct c as [e d q s ref| | | | | | | | | | ]; try discriminate. simpl in *. pose proof (open_qinv w e d q s ref (reach_wf _ _ Hr) IH Hc) as [Q _].
        now destruct (epic_open_trade w e d q s ref).
      + eapply evo_qinv; [now apply evo_cmd| |auto]. apply keeps_length. now apply keeps_cmd.
    - intros i t. rewrite setup_trades by auto. apply IH.
    - exact IH.
    - eapply evo_qinv; [apply evo_same| |exact IH]; unfold update_frame_set; destruct (w_fsets w !! x.2) as [fs|]; auto;
        destruct (fs_epic_state w fs); destruct (fs_on_new_tick _ _ _ _ _); auto.
    - eapply evo_qinv; [apply evo_value| |auto]. apply keeps_length, keeps_value.
    - exact IH.
    - exact IH.
  Qed.

  (** Existing trades only go through trade calls. *)
  Lemma evo_call w c : reach sane_call w -> sane_call c -> evo w (fst (run_cmd w c)).
  Proof.
    intros Hr Hc. destruct (is_open_call c) eqn:Eo; [|now apply evo_cmd].
    destruct c as [e d q s ref| | | | | | | | | | ]; try discriminate. simpl in *. pose proof (open_qinv w e d q s ref (reach_wf _ _ Hr) (reach_qinv _ Hr) Hc) as [_ Q].
    now destruct (epic_open_trade w e d q s ref).
  Qed.

  (** ** C11 *)
  Fixpoint netsum (q : Z) (a : list Z) : Z :=
    match a with [] => Z.max 0 q | x :: a' => (if q <=? 0 then x else Z.min x q) + netsum (q - x) a' end.
  Lemma netsum_neg q a : q <= 0 -> Forall (fun x => 0 < x) a -> netsum q a = total a.
  Proof.
    revert q. induction a as [|x a IH]; intros q Hq Ha; simpl; [lia|]. apply Forall_cons in Ha as [Hx Ha].
    rewrite IH by (auto; lia). destruct (Z.leb_spec q 0); lia.
  Qed.
  Lemma netsum_iff q a : 0 < q -> Forall (fun x => 0 < x) a -> (netsum q a = q <-> total (removelast a) < q).
  Proof.
    revert q. induction a as [|x a IH]; intros q Hq Ha; [simpl; lia|]. apply Forall_cons in Ha as [Hx Ha].
    cbn [netsum]. destruct (Z.leb_spec q 0); [lia|]. destruct (Z.le_gt_cases q x) as [Hle|Hgt].
    - rewrite netsum_neg by (auto; lia). rewrite Z.min_r by lia. destruct a as [|y a]; [simpl; lia|].
      change (removelast (x :: y :: a)) with (x :: removelast (y :: a)). cbn [total].
      apply Forall_cons in Ha as [Hy Ha]. pose proof (total_pos _ Ha).
      assert (0 <= total (removelast (y :: a))).
      { apply total_pos. apply Forall_forall. intros z Hz. rewrite removelast_firstn_len in Hz. apply elem_of_list_In in Hz.
        apply (In_nth_error) in Hz as (n & Hn). assert (Forall (fun x => 0 < x) (y :: a)) as Hf by (constructor; auto).
        rewrite Forall_forall in Hf. apply Hf. apply elem_of_list_In. apply nth_error_In in Hn. rewrite <- firstn_skipn with (n := Nat.pred (length (y :: a))). apply in_or_app. auto. }
      cbn [total]. lia.
    - rewrite Z.min_l by lia. destruct a as [|y a]; [simpl; lia|].
      change (removelast (x :: y :: a)) with (x :: removelast (y :: a)). cbn [total]. specialize (IH (q - x) ltac:(lia) Ha). lia.
  Qed.
  (** The sum of what netting takes. *)
  Fixpoint taken (q b : Z) (a : list Z) : Z := match a with [] => 0 | x :: a' => netted q b x + taken q (b + x) a' end.
  Lemma taken_netsum q a b : taken q b a + Z.max 0 (q - b - total a) = netsum (q - b) a.
  Proof.
    revert b. induction a as [|x a IH]; intros b; simpl; [f_equal; lia|]. specialize (IH (b + x)).
    replace (q - b - x) with (q - (b + x)) by lia. rewrite <- IH. replace (q - b - (x + total a)) with (q - (b + x) - total a) by lia.
    unfold netted. destruct (Z.leb_spec q b), (Z.leb_spec (q - b) 0); lia.
  Qed.
  Lemma total_map_diff {A} (f g : A -> Z) l : total (map f l) = total (map g l) + total (map (fun x => f x - g x) l).
  Proof. induction l as [|x l IH]; simpl; lia. Qed.
  Lemma total_map_filter {A} (f : A -> Z) b l : (forall x, x ∈ l -> b x = false -> f x = 0) -> total (map f l) = total (map f (List.filter b l)).
  Proof.
    induction l as [|x l IH]; intros Hf; simpl; [auto|]. rewrite IH by (intros y Hy; apply Hf; now right).
    destruct (b x) eqn:E; simpl; [auto|]. rewrite (Hf x) by (auto; left). lia.
  Qed.
  Lemma total_perm l k : Permutation l k -> total l = total k.
  Proof. induction 1; simpl; lia. Qed.

  (** Change of exposure by an opening. *)
  Lemma exposure_change w eid e p d q s ref w' r : wfw w -> w_epics w !! eid = Some e -> w_provs w !! ep_prov e = Some p -> pv_kind p = PBacktests ->
    valid_id (w_strats w) s = true -> 0 < q -> (forall i, i ∈ open_trades_of w p s (other d) -> 0 < open_qty w i) ->
    epic_open_trade w eid (Dir d) q s ref = (w', r) ->
    exposure w' s (ep_prov e) = exposure w s (ep_prov e) + dsign d * netsum q (map (open_qty w) (open_trades_of w p s (other d))).
  Proof.
    intros W He Hp Hk Hs Hq Hpos E. destruct (open_backtest w eid e p d q s ref W He Hp Hk Hs Hq Hpos) as (t & w1 & Ho & E' & T1 & T2 & T3 & T4 & T5 & _).
    rewrite E in E'. injection E' as <- _. set (l := open_trades_of w p s (other d)) in *. set (a := map (open_qty w) l) in *. set (tid := length (w_trades w)) in *.
    destruct (open_fields _ _ _ _ _ _ _ Ho) as (d' & Ed & E1 & E2 & E3 & E4 & E5 & _). injection Ed as <-.
    destruct (wf_prov _ W _ _ Hp) as [Hinc Hreg].
    assert (forall i, i ∈ pv_trades p -> (i < tid)%nat) as Hlt.
    { intros i Hi. destruct (Hreg i Hi) as (x & _ & Hx & _). eapply lookup_lt_Some; eauto. }
    unfold exposure. rewrite T5, Hp, list_lookup_insert by (eapply lookup_lt_Some; eauto). cbn [pv_trades].
    rewrite map_app. rewrite total_app.
    assert (total (map (exposure_of w' s) (reg_list (total a <? q) tid)) = dsign d * Z.max 0 (q - total a)) as ->.
    { unfold reg_list. destruct (Z.ltb_spec (total a) q) as [Hlt'|Hge]; simpl.
      - unfold exposure_of. rewrite T1. cbn [tr_strat set_oq]. rewrite decide_True by auto. rewrite opened_booked. simpl. rewrite E3, E5. unfold booked. simpl. lia.
      - replace (Z.max 0 (q - total a)) with 0 by lia. lia. }
    rewrite (total_map_diff (exposure_of w' s) (exposure_of w s)).
    assert (total (map (fun x => exposure_of w' s x - exposure_of w s x) (pv_trades p)) = dsign d * taken q 0 a) as ->.
    { rewrite (total_perm _ (map (fun x => exposure_of w' s x - exposure_of w s x) (reverse (pv_trades p)))) by (apply Permutation_map; symmetry; apply reverse_Permutation).
      rewrite (total_map_filter _ (open_in w s (other d))).
      - fold (open_trades_of w p s (other d)). fold l.
        assert (forall k b, total (take k a) = b -> total (map (fun x => exposure_of w' s x - exposure_of w s x) (drop k l)) = dsign d * taken q b (drop k a)) as Hgen.
        { intros k. remember (length l - k)%nat as n. revert k Heqn. induction n as [|n IHn]; intros k Hn b Hb.
          - rewrite !drop_ge; [simpl; lia| |lia]. unfold a. rewrite map_length. lia.
          - destruct (lookup_lt_is_Some_2 l k) as (i & Hi); [lia|].
            assert (a !! k = Some (open_qty w i)) as Ha by (unfold a; change (map (open_qty w) l) with (open_qty w <$> l); now rewrite list_lookup_fmap, Hi).
            rewrite (drop_S l i k Hi), (drop_S a _ k Ha). cbn [map total taken].
            rewrite (IHn (S k) ltac:(lia) (b + open_qty w i)).
            + pose proof (elem_of_list_lookup_2 _ _ _ Hi) as Hil. apply open_trades_of_elem in Hil as [_ (o & Ho' & Es & Edo & Hne)].
              destruct (T3 k i o Hi Ho') as (eo & o' & c & _ & Hc & Hcq & Ho2). pose proof (close_tick_fixed _ _ _ _ _ _ Hc) as (F1 & F2 & F3 & _).
              apply close_tick_qty in Hc as [_ Hq']. unfold exposure_of. rewrite Ho2, Ho', F2, decide_True by auto. rewrite F3, Edo, Hq', Hcq, Hb.
              unfold open_qty. rewrite Ho'. rewrite decide_True by auto. unfold netted. destruct d; simpl dsign; destruct (q <=? b); lia.
            + rewrite (take_S_r _ _ _ Ha), total_app. simpl. lia. }
        specialize (Hgen O 0 eq_refl). now rewrite !drop_0 in Hgen.
      - intros i Hi Hf. rewrite elem_of_reverse in Hi.
        assert (i ∉ l) as Hil.
        { intros E0. unfold l, open_trades_of in E0. apply elem_of_filter_b in E0 as [_ E0]. congruence. }
        unfold exposure_of. rewrite T4 by auto. lia. }
    pose proof (taken_netsum q a 0) as Hs'. rewrite Z.sub_0_r in Hs'. rewrite <- Hs'. lia.
  Qed.

  Lemma open_list_pos w p s d : (forall i, i ∈ open_trades_of w p s d -> 0 < open_qty w i) -> Forall (fun x => 0 < x) (map (open_qty w) (open_trades_of w p s d)).
  Proof. intros Hp. apply Forall_forall. intros x Hx. apply elem_of_list_In, in_map_iff in Hx as (i & <- & Hi). apply Hp. now apply elem_of_list_In. Qed.

  Lemma exposure_conserved_iff w eid e p d q s ref w' r : reach sane_call w -> w_epics w !! eid = Some e -> w_provs w !! ep_prov e = Some p -> pv_kind p = PBacktests ->
    valid_id (w_strats w) s = true -> 0 < q ->
    epic_open_trade w eid (Dir d) q s ref = (w', r) ->
    (exposure w' s (ep_prov e) = exposure w s (ep_prov e) + dsign d * q <-> total (removelast (map (open_qty w) (open_trades_of w p s (other d)))) < q).
  Proof.
    intros Hr He Hp Hk Hs Hq E. assert (forall i, i ∈ open_trades_of w p s (other d) -> 0 < open_qty w i) as Hpos.
    { intros i Hi. eapply qinv_open_pos; eauto. now apply reach_qinv. }
    rewrite (exposure_change w eid e p d q s ref w' r (reach_wf _ _ Hr) He Hp Hk Hs Hq Hpos E).
    rewrite <- (netsum_iff q); [|auto|now apply open_list_pos]. destruct d; simpl; lia.
  Qed.

  (** ** C13 *)
  Definition one_dir w : Prop := forall pid p i j t u, w_provs w !! pid = Some p -> pv_kind p = PBacktests -> i ∈ pv_trades p -> j ∈ pv_trades p ->
    w_trades w !! i = Some t -> w_trades w !! j = Some u -> tr_strat t = tr_strat u -> opened_quantities t <> 0 -> opened_quantities u <> 0 -> tr_dir t = tr_dir u.

  Lemma rtc_fixed t t' : rtc trade_call t t' -> fixed t t'.
  Proof.
    intros Hr. induction Hr as [|t t1 t2 Hc Hr IH]; [reflexivity|]. etransitivity; [|exact IH]. clear -Hc.
    destruct Hc as [t0 v|t0 tk|t0 v d q ref t1 c Hq E|t0 tk q ref t1 c Hq E|t0 s|t0 i s].
    - apply same_fixed, update_same.
    - apply same_fixed, update_from_tick_same.
    - eapply close_fixed; eauto.
    - eapply close_tick_fixed; eauto.
    - now repeat split.
    - now repeat split.
  Qed.
  Lemma rtc_opened t t' : qty_inv (tr_oq t) t -> rtc trade_call t t' -> opened_quantities t' <> 0 -> opened_quantities t <> 0.
  Proof.
    intros Hq Hr Hne E. assert (closed t = true) as Hc by now apply closed_spec. destruct (closed_frozen t t' Hc Hr) as (Hc' & _).
    apply closed_spec in Hc'. auto.
  Qed.
  (** Nothing new is registered and trades only go through trade calls. *)
  Lemma one_dir_evo w w' : keeps w w' -> evo w w' -> qinv w -> one_dir w -> one_dir w'.
  Proof.
    intros K He Q Ho pid p' i j t' u' Hp' Hk Hi Hj Ht' Hu' Es Hot Hou. pose proof (keeps_sym _ _ K) as K'.
    destruct (keeps_p _ _ _ _ K' Hp') as (p & Hp & E1 & E2). rewrite <- E2 in Hi, Hj.
    destruct (keeps_t _ _ _ _ K' Ht') as (t & Ht & Ft). destruct (keeps_t _ _ _ _ K' Hu') as (u & Hu & Fu).
    destruct (He _ _ Ht) as (t1 & Ht1 & Rt). rewrite Ht' in Ht1. injection Ht1 as <-.
    destruct (He _ _ Hu) as (u1 & Hu1 & Ru). rewrite Hu' in Hu1. injection Hu1 as <-.
    destruct Ft as (_ & F1 & F2 & _). destruct Fu as (_ & G1 & G2 & _). rewrite <- F2, <- G2.
    apply (Ho pid p i j t u); auto; try congruence; eapply rtc_opened; eauto.
  Qed.
  Lemma one_dir_open w eid d q s ref : wfw w -> qinv w -> 0 < q -> one_dir w -> one_dir (fst (epic_open_trade w eid d q s ref)).
  Proof.
    intros W Q Hq Ho. destruct (open_cases w eid d q s ref W) as [(e & d' & p & -> & He & Hp & Hs)|(x & ->)]; [|auto].
    pose proof (open_qinv w eid (Dir d') q s ref W Q Hq) as [_ Hevo].
    assert (pv_kind p = PBacktests \/ pv_kind p <> PBacktests) as [Hk|Hk] by (destruct (pv_kind p); auto; right; discriminate).
    - destruct (open_backtest w eid e p d' q s ref W He Hp Hk Hs Hq) as (t & w' & Hot & Ew & T1 & T2 & T3 & T4 & T5 & _).
      { intros i Hi. eapply qinv_open_pos; eauto. }
      rewrite Ew in *. cbn [fst] in *. set (l := open_trades_of w p s (other d')) in *. set (a := map (open_qty w) l) in *. set (tid := length (w_trades w)) in *.
      destruct (open_fields _ _ _ _ _ _ _ Hot) as (dd & Ed & E1 & E2 & E3 & E4 & E5 & _). injection Ed as <-.
      assert (Forall (fun x => 0 < x) a) as Hapos by (apply open_list_pos; intros i Hi; eapply qinv_open_pos; eauto).
      destruct (wf_prov _ W _ _ Hp) as [_ Hreg].
      assert (forall i, i ∈ pv_trades p -> (i < tid)%nat) as Hlt.
      { intros i Hi. destruct (Hreg i Hi) as (x & _ & Hx & _). eapply lookup_lt_Some; eauto. }
      (* trades registered before *)
      assert (forall i x', (i < tid)%nat -> w_trades w' !! i = Some x' -> opened_quantities x' <> 0 -> exists x, w_trades w !! i = Some x /\
        tr_strat x = tr_strat x' /\ tr_dir x = tr_dir x' /\ opened_quantities x <> 0) as Hold.
      { intros i x' Hi Hx' Hne. destruct (lookup_lt_is_Some_2 (w_trades w) i Hi) as (x & Hx). destruct (Hevo i x Hx) as (x1 & Hx1 & R).
        rewrite Hx' in Hx1. injection Hx1 as <-. exists x. pose proof (rtc_fixed _ _ R) as (_ & F1 & F2 & _).
        split; [auto|]. split; [auto|]. split; [auto|]. eapply rtc_opened; eauto. }
      (* when the new trade is registered every opposite trade is fully closed *)
      assert (total a < q -> forall i x', i ∈ pv_trades p -> w_trades w' !! i = Some x' -> tr_strat x' = s -> opened_quantities x' <> 0 -> tr_dir x' = d') as Hnew.
      { intros Hta i x' Hi Hx' Es Hne. destruct (Hold i x') as (x & Hx & Es' & Ed' & Hne'); auto.
        destruct (decide (tr_dir x' = d')) as [|Hd]; [auto|]. exfalso.
        assert (i ∈ l) as Hil.
        { apply open_trades_of_elem. split; [auto|]. exists x. split; [auto|]. split; [congruence|]. split; [|auto].
          rewrite Ed'. destruct (tr_dir x'), d'; simpl; congruence. }
        apply elem_of_list_lookup in Hil as (k & Hk'). destruct (T3 k i x Hk' Hx) as (eo & o' & c & _ & Hc & Hcq & Hx2).
        rewrite Hx' in Hx2. injection Hx2 as <-. apply close_tick_qty in Hc as [_ Hop]. apply Hne. rewrite Hop, Hcq.
        assert (total (take k a) + opened_quantities x <= total a) as Hsum.
        { assert (a !! k = Some (opened_quantities x)) as Ha by (unfold a; change (map (open_qty w) l) with (open_qty w <$> l); rewrite list_lookup_fmap, Hk'; simpl; unfold open_qty; now rewrite Hx).
          rewrite <- (take_drop_middle a k _ Ha) at 2. rewrite total_app. simpl.
          assert (0 <= total (drop (S k) a)) by (apply total_pos; now apply Forall_drop). lia. }
        unfold netted. destruct (Z.leb_spec q (total (take k a))); lia. }
      intros pid p' i j x y Hp' Hk' Hi Hj Hx Hy Es Hox Hoy. rewrite T5 in Hp'. rewrite (insert_lookup_some _ _ _ _ _ Hp) in Hp'.
      destruct (decide (pid = ep_prov e)) as [->|Hne].
      + injection Hp' as <-. simpl in Hi, Hj. apply elem_of_app in Hi. apply elem_of_app in Hj.
        unfold reg_list in Hi, Hj. destruct (Z.ltb_spec (total a) q) as [Hta|Hta].
        * rewrite elem_of_list_singleton in Hi, Hj. destruct Hi as [Hi|Hi], Hj as [Hj|Hj]; [| | |congruence].
          -- destruct (Hold i x) as (x0 & Hx0 & F1 & F2 & F3); auto. destruct (Hold j y) as (y0 & Hy0 & G1 & G2 & G3); auto.
             rewrite <- F2, <- G2. apply (Ho (ep_prov e) p i j x0 y0); auto. congruence.
          -- subst j. rewrite T1 in Hy. injection Hy as <-. simpl in *. rewrite E3. apply (Hnew Hta i x); auto. congruence.
          -- subst i. rewrite T1 in Hx. injection Hx as <-. simpl in *. rewrite E3. symmetry. apply (Hnew Hta j y); auto. congruence.
        * rewrite !elem_of_nil in Hi, Hj. destruct Hi as [Hi|[]], Hj as [Hj|[]].
          destruct (Hold i x) as (x0 & Hx0 & F1 & F2 & F3); auto. destruct (Hold j y) as (y0 & Hy0 & G1 & G2 & G3); auto.
          rewrite <- F2, <- G2. apply (Ho (ep_prov e) p i j x0 y0); auto. congruence.
      + destruct (wf_prov _ W _ _ Hp') as [_ Hreg'].
        assert (forall k, k ∈ pv_trades p' -> (k < tid)%nat) as Hlt'.
        { intros k Hk2. destruct (Hreg' k Hk2) as (z & _ & Hz & _). eapply lookup_lt_Some; eauto. }
        destruct (Hold i x) as (x0 & Hx0 & F1 & F2 & F3); auto. destruct (Hold j y) as (y0 & Hy0 & G1 & G2 & G3); auto.
        rewrite <- F2, <- G2. apply (Ho pid p' i j x0 y0); auto. congruence.
    - destruct (open_simple w eid e p d' q s ref He Hp Hk Hs) as (t & Hot & ->). simpl.
      destruct (register_rest (upd_trades w (w_trades w ++ [t])) (ep_prov e) (length (w_trades w))) as (R1 & _).
      intros pid p' i j x y. rewrite (register_provs _ _ _ t) by (simpl; now apply list_lookup_middle). rewrite R1. simpl. intros Hp' Hk' Hi Hj Hx Hy.
      destruct (decide (pid = ep_prov e)) as [->|Hne].
      + rewrite Hp in Hp'. simpl in Hp'. injection Hp' as <-. simpl in Hk'. contradiction.
      + destruct (wf_prov _ W _ _ Hp') as [_ Hreg'].
        assert (forall k, k ∈ pv_trades p' -> (k < length (w_trades w))%nat) as Hlt'.
        { intros k Hk2. destruct (Hreg' k Hk2) as (z & _ & Hz & _). eapply lookup_lt_Some; eauto. }
        rewrite lookup_app_l in Hx, Hy by auto. now apply (Ho pid p' i j).
  Qed.
  Lemma setup_provs pr w (o : op F) pid p : setup o -> w_provs (fst (step pr w o)) !! pid = Some p -> w_provs w !! pid = Some p \/ pv_trades p = [].
  Proof.
    destruct o as [k|ref|u q ref m|ref tz op cl ds hs pv|eid fid|eid sid|fid i|e tk|c]; intros Ho; simpl in Ho; try contradiction; simpl; auto.
    - intros Hp. apply lookup_app_Some in Hp as [Hp|[_ Hp]]; [auto|]. apply list_lookup_singleton_Some in Hp as [_ <-]. auto.
    - destruct (fset_init u q ref m); auto.
    - unfold new_epic. destruct tz; [|auto]. destruct (valid_id _ _); [|auto]. cbv zeta. destruct pv; simpl; auto.
      intros Hp. apply lookup_app_Some in Hp as [Hp|[_ Hp]]; [auto|]. apply list_lookup_singleton_Some in Hp as [_ <-]. auto.
    - unfold add_frame_set. destruct (w_epics w !! eid); [|auto]. destruct (w_fsets w !! fid); [|auto]. destruct (dict_get _ _); auto.
    - unfold add_strategy. destruct (w_epics w !! eid); [|auto]. destruct (w_strats w !! sid); [|auto]. destruct (dict_get _ _); auto.
    - destruct (w_fsets w !! fid); [|auto]. destruct (add_indicator _ _). auto.
  Qed.

  Lemma reach_one_dir w : reach sane_call w -> one_dir w.
  Proof.
    intros Hr. induction Hr as [|w c Hr IH Hc|pr w o Hr IH Ho|w eid e tk Hr IH He Ha|w eid e x Hr IH He Hx|w eid e Hr IH He|w sid s d Hr IH Hs|w l Hr IH].
    - intros pid p i j t u Hp. simpl in Hp. rewrite lookup_nil in Hp. discriminate.
    - destruct (is_open_call c) eqn:Eo.
      + destruct c as [e d q s ref| | | | | | | | | | ]; try discriminate. simpl in *.
        pose proof (one_dir_open w e d q s ref (reach_wf _ _ Hr) (reach_qinv _ Hr) Hc IH) as Q. now destruct (epic_open_trade w e d q s ref).
      + eapply one_dir_evo; [now apply keeps_cmd|now apply evo_cmd|now apply reach_qinv|auto].
    - intros pid p i j t u Hp Hk Hi Hj. rewrite setup_trades by auto. apply setup_provs in Hp as [Hp|E]; [|rewrite E in Hi; inversion Hi|auto]. eapply IH; eauto.
    - exact IH.
    - eapply one_dir_evo; [apply keeps_fset| |now apply reach_qinv|auto]. apply evo_same. unfold update_frame_set. destruct (w_fsets w !! x.2) as [fs|]; [|auto].
      destruct (fs_epic_state w fs); destruct (fs_on_new_tick _ _ _ _ _); auto.
    - eapply one_dir_evo; [apply keeps_value|apply evo_value|now apply reach_qinv|auto].
    - exact IH.
    - exact IH.
  Qed.
End proofs.
