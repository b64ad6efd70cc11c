(** Request threads: who is confirmed (C16). *)
From Verif Require Export ScheduleProofs.
Open Scope Z_scope.

Section proofs.
  Context {F : Type} `{Num F}.
  Implicit Types (w : world F) (t : trade F).

  (** ** What running a thread changes *)
  Lemma job_lookup k j (ts : list (trade F)) i t : ts !! i = Some t -> exists t', job_effect k j ts !! i = Some t' /\
    (t' = t \/ (j = JOpen i /\ exists s, t' = set_status t s) \/ (exists c s, j = JClose i c /\ t' = set_closes t (alter (fun x => set_cstatus x s) c (tr_closes t)))).
  Proof.
    intros Hi. unfold job_effect. destruct k; [|eauto|]; destruct j as [n|n c]; (destruct (decide (n = i)) as [->|Hn];
      [rewrite list_lookup_alter, Hi; simpl; eexists; split; [reflexivity|]; eauto 10|rewrite list_lookup_alter_ne by auto; eauto]).
  Qed.
  Lemma run_thread_only w pid k p th : w_provs w !! pid = Some p -> pv_threads p !! k = Some th ->
    let w' := run_thread w pid k in
    (forall i t, w_trades w !! i = Some t -> exists t', w_trades w' !! i = Some t' /\
       (t' = t \/ (th_job th = JOpen i /\ exists s, t' = set_status t s) \/
        (exists c s, th_job th = JClose i c /\ t' = set_closes t (alter (fun x => set_cstatus x s) c (tr_closes t))))) /\
    length (w_trades w') = length (w_trades w) /\
    w_provs w' = <[pid := pv_set_threads p (<[k := {| th_job := th_job th; th_done := true |}]> (pv_threads p))]> (w_provs w) /\
    w_strats w' = w_strats w /\ w_epics w' = w_epics w /\ w_fsets w' = w_fsets w /\ w_log w' = w_log w.
  Proof.
    intros Hp Ht. cbv zeta. unfold run_thread. rewrite Hp, Ht. destruct (th_done th) eqn:Ed.
    - split; [intros i t Hi; eauto|]. split; [auto|]. split; [|auto]. symmetry. apply list_insert_id. rewrite Hp. f_equal.
      destruct p as [pk pt ths]. unfold pv_set_threads. simpl in *. f_equal. symmetry. apply list_insert_id. rewrite Ht. destruct th; simpl in *. now subst.
    - split; [intros i t Hi; simpl; now apply job_lookup|]. split; [|auto]. simpl. unfold job_effect. destruct (pv_kind p); [|auto|]; destruct (th_job th); apply alter_length.
  Qed.

  (** ** Jobs *)
  Lemma has_job_add w pid j0 a k j d : has_job (add_thread w pid j0) a k j d <->
    has_job w a k j d \/ (a = pid /\ j = j0 /\ d = false /\ exists p, w_provs w !! pid = Some p /\ k = length (pv_threads p)).
  Proof.
    unfold has_job, add_thread. simpl. destruct (decide (a = pid)) as [->|Hn].
    - rewrite list_lookup_alter. destruct (w_provs w !! pid) as [p|]; simpl.
      + split.
        * intros (p' & E & Hk). injection E as <-. simpl in Hk. apply lookup_app_Some in Hk as [Hk|[Hl Hk]]; [left; eauto|]. right.
          apply list_lookup_singleton_Some in Hk as [Hz E]. injection E as -> ->. split; [auto|]. split; [auto|]. split; [auto|]. exists p. split; [auto|]. lia.
        * intros [(p' & E & Hk)|(_ & -> & -> & p' & E & ->)]; injection E as <-; (eexists; split; [reflexivity|]); simpl.
          -- now apply lookup_app_l_Some.
          -- now apply list_lookup_middle.
      + split; [intros (p' & E & _); discriminate|]. intros [(p' & E & _)|(_ & _ & _ & p' & E & _)]; discriminate.
    - rewrite list_lookup_alter_ne by auto. split; [auto|]. intros [?|[-> _]]; [auto|congruence].
  Qed.

  Record jinv w : Prop := {
    j_uniq : forall a k j d b l d', has_job w a k j d -> has_job w b l j d' -> a = b /\ k = l;
    j_open : forall a k i d, has_job w a k (JOpen i) d -> registered w a i;
    j_reg : forall a i, registered w a i -> handed w a (JOpen i);
    j_close : forall a k i c d, has_job w a k (JClose i c) d -> exists t, w_trades w !! i = Some t /\ (c < length (tr_closes t))%nat;
    j_done : forall a k j, has_job w a k j true -> is_backtest w a -> confirmed w j }.

  (** Statuses kept, closes only appended. *)
  Definition skeep t t' : Prop := tr_status t' = tr_status t /\ exists l, tr_closes t' = tr_closes t ++ l.
  Global Instance skeep_pre : PreOrder skeep.
  Proof.
    split; [intros t; split; [auto|exists []; now rewrite app_nil_r]|]. intros a b c [E1 [l1 L1]] [E2 [l2 L2]]. split; [congruence|].
    exists (l1 ++ l2). now rewrite L2, L1, app_assoc.
  Qed.
  Definition wskeep w w' : Prop := forall i t, w_trades w !! i = Some t -> exists t', w_trades w' !! i = Some t' /\ skeep t t'.
  Lemma wskeep_confirmed w w' j : wskeep w w' -> confirmed w j -> confirmed w' j.
  Proof.
    intros Hs. destruct j as [i|i c]; simpl.
    - intros (t & Ht & E). destruct (Hs i t Ht) as (t' & Ht' & E' & _). exists t'. split; [auto|congruence].
    - intros (t & x & Ht & Hx & E). destruct (Hs i t Ht) as (t' & Ht' & _ & l & El). exists t', x. split; [auto|]. split; [|auto]. rewrite El. now apply lookup_app_l_Some.
  Qed.
  Lemma has_job_eq w w' a k j d : w_provs w' = w_provs w -> has_job w' a k j d <-> has_job w a k j d.
  Proof. intros E. unfold has_job. now rewrite E. Qed.
  Lemma registered_eq w w' a i : w_provs w' = w_provs w -> registered w' a i <-> registered w a i.
  Proof. intros E. unfold registered. now rewrite E. Qed.

  (** Trades evolve, providers do not. *)
  Lemma jinv_trades w w' : jinv w -> wskeep w w' -> w_provs w' = w_provs w -> jinv w'.
  Proof.
    intros J Hs E. constructor.
    - intros a k j d b l d'. rewrite !(has_job_eq w w') by auto. apply J.
    - intros a k i d. rewrite has_job_eq by eauto. rewrite registered_eq by eauto. apply J.
    - intros a i. rewrite registered_eq by eauto. intros Hr. destruct (j_reg _ J _ _ Hr) as (k & d & Hj). exists k, d. now rewrite has_job_eq by eauto.
    - intros a k i c d. rewrite has_job_eq by eauto. intros Hj. destruct (j_close _ J _ _ _ _ _ Hj) as (t & Ht & Hc). destruct (Hs i t Ht) as (t' & Ht' & _ & l & El).
      exists t'. split; [auto|]. rewrite El, app_length. lia.
    - intros a k j. rewrite has_job_eq by eauto. intros Hj Hb. eapply wskeep_confirmed; eauto. eapply j_done; eauto. destruct Hb as (p & Hp & Hk). rewrite E in Hp. now exists p.
  Qed.
  (** A close is appended and handed over. *)
  Lemma registered_add w pid j a i : registered (add_thread w pid j) a i <-> registered w a i.
  Proof.
    unfold registered, add_thread. simpl. destruct (decide (a = pid)) as [->|Hn]; [|now rewrite list_lookup_alter_ne by auto].
    rewrite list_lookup_alter. destruct (w_provs w !! pid) as [p|]; simpl; split; intros (p' & E & Hi); try discriminate; injection E as <-; eauto.
  Qed.
  Lemma backtest_add w pid j a : is_backtest (add_thread w pid j) a <-> is_backtest w a.
  Proof.
    unfold is_backtest, add_thread. simpl. destruct (decide (a = pid)) as [->|Hn]; [|now rewrite list_lookup_alter_ne by auto].
    rewrite list_lookup_alter. destruct (w_provs w !! pid) as [p|]; simpl; split; intros (p' & E & Hi); try discriminate; injection E as <-; eauto.
  Qed.
  Lemma jinv_add w pid j : jinv w -> (forall a k d, ~ has_job w a k j d) -> (forall i, j <> JOpen i) ->
    (forall i c, j = JClose i c -> exists t, w_trades w !! i = Some t /\ (c < length (tr_closes t))%nat) -> jinv (add_thread w pid j).
  Proof.
    intros J Hf Ho Hc. constructor.
    - intros a k j1 d b l d' H1 H2. rewrite has_job_add in H1, H2. destruct H1 as [H1|(-> & -> & _ & p1 & E1 & ->)], H2 as [H2|(-> & E & _ & p2 & E2 & ->)].
      + eapply j_uniq; eauto.
      + subst j1. exfalso. eapply Hf; eauto.
      + exfalso. eapply Hf; eauto.
      + rewrite E1 in E2. injection E2 as <-. auto.
    - intros a k i d H1. rewrite has_job_add in H1; destruct H1 as [H1|(_ & E & _)]; [|exfalso; eapply Ho; eauto]. rewrite registered_add. eapply j_open; eauto.
    - intros a i Hr. rewrite registered_add in Hr. destruct (j_reg _ J _ _ Hr) as (k & d & H1). exists k, d. apply has_job_add. auto.
    - intros a k i c d H1. rewrite has_job_add in H1; destruct H1 as [H1|(_ & E & _)]; simpl; [eapply j_close; eauto|eauto].
    - intros a k j1 H1 Hb. rewrite has_job_add in H1; destruct H1 as [H1|(_ & _ & E & _)]; [|discriminate]. rewrite backtest_add in Hb.
      pose proof (j_done _ J _ _ _ H1 Hb) as Hd. destruct j1; exact Hd.
  Qed.
  Lemma close_tick_skeep t tk q ref t' c : close_from_tick t tk q ref = Ok (t', c) -> tr_status t' = tr_status t /\ tr_closes t' = tr_closes t ++ [c].
  Proof.
    unfold close_from_tick. cbv zeta. intros E. apply close_inv in E as (-> & _). simpl. pose proof (update_from_tick_same t tk) as S0.
    unfold same_but_prices in S0. destruct S0 as (? & ? & ? & ? & E1 & ? & ? & E2 & ?). split; [congruence|]. now rewrite E1.
  Qed.
  Lemma wskeep_insert w i t t' : w_trades w !! i = Some t -> skeep t t' -> wskeep w (upd_trades w (<[i:=t']> (w_trades w))).
  Proof.
    intros Hi Hs j x Hx. simpl. rewrite (insert_lookup_some _ _ _ _ _ Hi). destruct (decide (j = i)) as [->|Hn]; [|exists x; now split].
    exists t'. split; [auto|]. rewrite Hi in Hx. now injection Hx as <-.
  Qed.
  Lemma wskeep_alter w i f : (forall t, skeep t (f t)) -> wskeep w (upd_trades w (alter f i (w_trades w))).
  Proof.
    intros Hf j x Hx. simpl. destruct (decide (i = j)) as [->|Hn].
    - rewrite list_lookup_alter, Hx. simpl. eauto.
    - rewrite list_lookup_alter_ne by auto. exists x. now split.
  Qed.
  Lemma update_skeep t v : skeep t (update t v).
  Proof. pose proof (update_same t v) as S0. unfold same_but_prices in S0. destruct S0 as (? & ? & ? & ? & E1 & ? & ? & E2 & ?). split; [congruence|]. exists []. now rewrite app_nil_r. Qed.
  Lemma jinv_close w tid q ref w1 ci pid : jinv w -> close_from_epic w tid q ref = Ok (w1, ci) -> jinv (provider_close_trade w1 pid tid ci).
  Proof.
    intros J E. apply close_from_epic_inv in E as (t & e & t' & c & Ht & _ & Hc & -> & ->). apply close_tick_skeep in Hc as [E1 E2].
    assert (jinv (upd_trades w (<[tid:=t']> (w_trades w)))) as J1.
    { eapply jinv_trades; [exact J| |auto]. eapply wskeep_insert; eauto. split; eauto. }
    apply jinv_add; [exact J1| |intros; discriminate|].
    - intros a k d Hj. assert (has_job w a k (JClose tid (length (tr_closes t))) d) as Hj' by exact Hj. apply (j_close _ J) in Hj' as (t0 & Ht0 & Hl). rewrite Ht in Ht0. injection Ht0 as <-. lia.
    - intros i c0 Ej. injection Ej as <- <-. exists t'. simpl. rewrite list_lookup_insert by (eapply lookup_lt_Some; eauto). split; [auto|]. rewrite E2, app_length. simpl. lia.
  Qed.
  Lemma jinv_epic_close w eid tid q ref : jinv w -> jinv (fst (epic_close_trade w eid tid q ref)).
  Proof.
    intros J. unfold epic_close_trade. destruct (w_epics w !! eid) as [e|]; [|auto]. destruct (close_from_epic w tid q ref) as [[w1 ci]|x] eqn:E; [|auto].
    eapply jinv_close; eauto.
  Qed.
  Lemma jinv_strategy_close w tid q ref : jinv w -> jinv (fst (strategy_close_trade w tid q ref)).
  Proof. intros J. unfold strategy_close_trade. destruct (w_trades w !! tid); [now apply jinv_epic_close|auto]. Qed.
  Lemma jinv_net_step pid tid ref w oid : jinv w -> jinv (fst (net_step pid tid ref w oid)).
  Proof.
    intros J. unfold net_step. destruct (w_trades w !! tid) as [t|]; [|auto]. destruct (w_trades w !! oid) as [o|]; [|auto]. destruct (dir_eqb _ _); [|auto].
    destruct (bool_decide _); [|auto]. cbv zeta. destruct (close_from_epic w oid _ ref) as [[w1 ci]|x] eqn:E; [|auto]. cbn [fst].
    pose proof (jinv_close _ _ _ _ _ _ pid J E) as J1. eapply jinv_trades; [exact J1| |auto]. apply wskeep_alter. intros x. split; [auto|exists []]. now rewrite app_nil_r.
  Qed.
  (** A fresh trade is registered. *)
  Lemma jinv_register w pid tid t : jinv w -> w_trades w !! tid = Some t -> (exists p, w_provs w !! pid = Some p) -> (forall a, ~ registered w a tid) -> jinv (base_open_trade w pid tid).
  Proof.
    intros J Ht (p0 & Hp0) Hn. destruct (register_rest w pid tid) as (R1 & _).
    assert (forall a k j d, has_job (base_open_trade w pid tid) a k j d <->
      has_job w a k j d \/ (a = pid /\ j = JOpen tid /\ d = false /\ exists p, w_provs w !! pid = Some p /\ k = length (pv_threads p))) as HJ.
    { intros a k j d. rewrite (base_open_some _ _ _ t) by auto. set (w1 := upd_strats _ _ ).
      rewrite has_job_add. unfold has_job, w1. simpl. destruct (decide (a = pid)) as [->|Hne].
      - rewrite !list_lookup_alter, Hp0. simpl. split.
        + intros [(p & E & Hk)|(_ & -> & -> & p & E & ->)]; injection E as <-; [left; eauto|right; eauto 10].
        + intros [(p & E & Hk)|(_ & -> & -> & p & E & ->)]; injection E as <-; [left; eauto|right; eauto 10].
      - rewrite !list_lookup_alter_ne by auto. split; (intros [?|(? & _)]; [auto|congruence]). }
    assert (forall a i, registered (base_open_trade w pid tid) a i <-> registered w a i \/ (a = pid /\ i = tid)) as HR by (intros; eapply register_registered; eauto).
    constructor.
    - intros a k j d b l d' H1 H2. rewrite HJ in H1, H2. destruct H1 as [H1|(-> & -> & _ & p1 & E1 & ->)], H2 as [H2|(-> & E & _ & p2 & E2 & ->)].
      + eapply j_uniq; eauto.
      + subst j. exfalso. eapply Hn. eapply j_open; eauto.
      + exfalso. eapply Hn. eapply j_open; eauto.
      + rewrite E1 in E2. injection E2 as <-. auto.
    - intros a k i d H1. rewrite HR. rewrite HJ in H1; destruct H1 as [H1|(-> & E & _)]; [left; eapply j_open; eauto|right]. injection E as ->. auto.
    - intros a i H1. rewrite HR in H1; destruct H1 as [H1|[-> ->]].
      + destruct (j_reg _ J _ _ H1) as (k & d & Hj). exists k, d. apply HJ. auto.
      + exists (length (pv_threads p0)), false. apply HJ. right. eauto 10.
    - intros a k i c d H1. rewrite R1. rewrite HJ in H1; destruct H1 as [H1|(_ & E & _)]; [eapply j_close; eauto|discriminate].
    - intros a k j H1 Hb. rewrite HJ in H1; destruct H1 as [H1|(_ & _ & E & _)]; [|discriminate].
      assert (is_backtest w a) as Hb'.
      { destruct Hb as (p & Hp & Hk). rewrite (register_provs _ _ _ t) in Hp by auto. destruct (decide (a = pid)) as [->|]; [|now exists p].
        rewrite Hp0 in Hp. simpl in Hp. injection Hp as <-. now exists p0. }
      pose proof (j_done _ J _ _ _ H1 Hb') as Hd. destruct j; simpl in *; now rewrite R1.
  Qed.
  Definition keeps_prov w w' : Prop := forall a p, w_provs w !! a = Some p -> exists p', w_provs w' !! a = Some p'.
  (** Induction over an opening. *)
  Lemma open_scheme (I : world F -> Prop) w eid d q s ref : I w ->
    (forall e t, w_epics w !! eid = Some e -> open_from_tick (ep_last e) eid d q s ref = Ok t -> valid_id (w_strats w) s = true -> I (upd_trades w (w_trades w ++ [t]))) ->
    (forall e w1 oid, w_epics w !! eid = Some e -> keeps_prov w w1 -> I w1 -> I (fst (net_step (ep_prov e) (length (w_trades w)) ref w1 oid))) ->
    (forall e t w1, w_epics w !! eid = Some e -> open_from_tick (ep_last e) eid d q s ref = Ok t -> keeps (upd_trades w (w_trades w ++ [t])) w1 -> I w1 ->
       I (base_open_trade w1 (ep_prov e) (length (w_trades w)))) ->
    I (fst (epic_open_trade w eid d q s ref)).
  Proof.
    intros I0 I1 I2 I3. unfold epic_open_trade. destruct (w_epics w !! eid) as [e|] eqn:He; [|auto]. destruct (valid_id (w_strats w) s) eqn:Hv; [|auto].
    destruct (open_from_tick (ep_last e) eid d q s ref) as [t|x] eqn:Ho; [|auto]. cbv zeta. set (w0 := upd_trades w (w_trades w ++ [t])). set (tid := length (w_trades w)) in *.
    assert (I w0) as Iw0 by now apply (I1 e t).
    assert (I (fst (provider_open_trade w0 (ep_prov e) tid ref))) as Hg; [|now destruct (provider_open_trade w0 (ep_prov e) tid ref) as [w' [u|x]]].
    unfold provider_open_trade. destruct (w_provs w0 !! ep_prov e) as [p|] eqn:Ep; [|auto].
    destruct (pv_kind p); [|apply (I3 e t); auto; reflexivity|apply (I3 e t); auto; reflexivity].
    unfold backtest_open_trade. rewrite Ep.
    assert (I (fst (forM (net_step (ep_prov e) tid ref) w0 (opened_trades w0 p))) /\ keeps w0 (fst (forM (net_step (ep_prov e) tid ref) w0 (opened_trades w0 p)))) as [In Kn].
    { apply (forM_inv (fun w1 => I w1 /\ keeps w0 w1)); [|split; [auto|reflexivity]]. intros w1 oid _ [J1 K1]. split.
      - apply I2; auto. intros a p0 Hp0. destruct (keeps_p w0 w1 a p0 K1 Hp0) as (p1 & Hp1 & _). eauto.
      - etransitivity; [exact K1|]. apply keeps_net_step. }
    destruct (forM _ _ _) as [w1 [u|x]]; [|auto]. cbn [fst] in *. destruct (w_trades w1 !! tid) as [t1|]; [|auto]. destruct (tr_oq t1 <=? 0); [auto|].
    now apply (I3 e t).
  Qed.
  Lemma jinv_open w eid d q s ref : wfw w -> jinv w -> jinv (fst (epic_open_trade w eid d q s ref)).
  Proof.
    intros W J. apply (open_scheme jinv); [auto| | |].
    - intros e t He Ho Hv. eapply jinv_trades; [exact J| |auto]. intros i x Hx. exists x. split; [|reflexivity]. simpl. now apply lookup_app_l_Some.
    - intros e w1 oid _ _ J1. now apply jinv_net_step.
    - intros e t w1 He Ho K J1.
      assert (w_trades (upd_trades w (w_trades w ++ [t])) !! length (w_trades w) = Some t) as Ht by (simpl; now apply list_lookup_middle).
      destruct (keeps_t _ _ _ _ K Ht) as (t' & Ht' & _). destruct (wf_epic _ W _ _ He) as ((p & Hp) & _).
      destruct (keeps_p _ _ _ p K Hp) as (p' & Hp' & _). eapply jinv_register; eauto.
      intros a Hr. apply (keeps_registered _ _ _ _ (keeps_sym _ _ K)) in Hr. apply (registered_lt (Pl:=increasing) w) in Hr; auto. lia.
  Qed.
  Lemma jinv_forM {A} (f : world F -> A -> world F * res unit) l w : (forall w x, jinv w -> jinv (fst (f w x))) -> jinv w -> jinv (fst (forM f w l)).
  Proof. intros Hf. apply forM_inv. intros w1 x _. apply Hf. Qed.

  Lemma has_job_run w pid k p th a n j d : w_provs w !! pid = Some p -> pv_threads p !! k = Some th -> th_done th = false ->
    has_job (run_thread w pid k) a n j d -> has_job w a n j d \/ (a = pid /\ n = k /\ j = th_job th /\ d = true).
  Proof.
    intros Hp Ht Hd (p' & Hp' & Hn). unfold run_thread in Hp'. rewrite Hp, Ht, Hd in Hp'. simpl in Hp'. rewrite (insert_lookup_some _ _ _ _ _ Hp) in Hp'.
    destruct (decide (a = pid)) as [->|Hne]; [|left; now exists p']. injection Hp' as <-. simpl in Hn. rewrite (insert_lookup_some _ _ _ _ _ Ht) in Hn.
    destruct (decide (n = k)) as [->|Hne]; [|left; now exists p]. injection Hn as <- <-. auto.
  Qed.
  Lemma has_job_run_back w pid k a n j d : has_job w a n j d -> exists d', has_job (run_thread w pid k) a n j d'.
  Proof.
    intros (p' & Hp' & Hn). unfold has_job, run_thread. destruct (w_provs w !! pid) as [p|] eqn:Hp; [|eauto]. destruct (pv_threads p !! k) as [th|] eqn:Ht; [|eauto].
    destruct (th_done th) eqn:Hd; [eauto|]. simpl. rewrite (insert_lookup_some _ _ _ _ _ Hp). destruct (decide (a = pid)) as [->|Hne]; [|eauto].
    rewrite Hp in Hp'. injection Hp' as <-. exists (if decide (n = k) then true else d). eexists. split; [reflexivity|]. simpl. rewrite (insert_lookup_some _ _ _ _ _ Ht).
    destruct (decide (n = k)) as [->|Hne2]; [|auto]. rewrite Ht in Hn. injection Hn as ->. reflexivity.
  Qed.
  Lemma run_thread_prov w pid k a p' : w_provs (run_thread w pid k) !! a = Some p' -> exists p, w_provs w !! a = Some p /\ pv_kind p' = pv_kind p /\ pv_trades p' = pv_trades p.
  Proof.
    intros Hp. destruct (keeps_p _ _ a p' (keeps_sym _ _ (keeps_run_thread w pid k)) Hp) as (p & Hp' & E1 & E2). exists p. auto.
  Qed.
  Lemma jinv_run_thread w pid k : wfw w -> jinv w -> jinv (run_thread w pid k).
  Proof.
    intros W J. destruct (w_provs w !! pid) as [p|] eqn:Hp; [|unfold run_thread; now rewrite Hp]. destruct (pv_threads p !! k) as [th|] eqn:Ht; [|unfold run_thread; now rewrite Hp, Ht].
    destruct (th_done th) eqn:Hd; [unfold run_thread; now rewrite Hp, Ht, Hd|].
    pose proof (fun a n j d => has_job_run w pid k p th a n j d Hp Ht Hd) as HJ. assert (has_job w pid k (th_job th) false) as H0.
    { exists p. split; [auto|]. rewrite Ht. destruct th; simpl in *. now subst. }
    destruct (run_thread_only w pid k p th Hp Ht) as (T1 & _). set (w' := run_thread w pid k) in *.
    assert (forall a n j d, has_job w' a n j d -> exists d', has_job w a n j d') as HJ'.
    { intros a n j d Hj. apply HJ in Hj as [Hj|(-> & -> & -> & _)]; eauto. }
    assert (forall a i, registered w' a i <-> registered w a i) as HR.
    { intros a i. pose proof (keeps_run_thread w pid k) as K. split; [apply (keeps_registered _ _ _ _ (keeps_sym _ _ K))|apply (keeps_registered _ _ _ _ K)]. }
    constructor.
    - intros a n j d b l d' H1 H2. apply HJ' in H1 as (d1 & H1). apply HJ' in H2 as (d2 & H2). eapply j_uniq; eauto.
    - intros a n i d H1. rewrite HR. apply HJ' in H1 as (d1 & H1). eapply j_open; eauto.
    - intros a i Hr. rewrite HR in Hr. destruct (j_reg _ J _ _ Hr) as (n & d & Hj). destruct (has_job_run_back w pid k _ _ _ _ Hj) as (d' & Hj'). exists n, d'. auto.
    - intros a n i c d H1. apply HJ' in H1 as (d1 & H1). destruct (j_close _ J _ _ _ _ _ H1) as (t & Hi & Hc). destruct (T1 i t Hi) as (t' & Ht' & E). exists t'. split; [auto|].
      destruct E as [->|[(_ & s & ->)|(c' & s & _ & ->)]]; simpl; rewrite ?alter_length; auto.
    - intros a n j H1 Hb. assert (is_backtest w a) as Hb'.
      { destruct Hb as (p' & Hp' & Hk). apply run_thread_prov in Hp' as (p0 & Hp0 & E & _). exists p0. split; congruence. }
      apply HJ in H1 as [H1|(-> & -> & -> & _)].
      + assert (th_job th <> j) as Hne.
        { intros <-. destruct (j_uniq _ J _ _ _ _ _ _ _ H0 H1) as [<- <-]. destruct H0 as (p1 & Hp1 & Hn1), H1 as (p2 & Hp2 & Hn2). rewrite Hp1 in Hp2. injection Hp2 as <-. congruence. }
        pose proof (j_done _ J _ _ _ H1 Hb') as Hc. destruct j as [i|i c]; simpl in *.
        * destruct Hc as (t & Hi & Es). destruct (T1 i t Hi) as (t' & Ht' & E). exists t'. split; [auto|]. destruct E as [->|[(E & _)|(c & s & _ & ->)]]; [auto|congruence|auto].
        * destruct Hc as (t & x & Hi & Hx & Es). destruct (T1 i t Hi) as (t' & Ht' & E). exists t'.
          destruct E as [->|[(E & s & ->)|(c' & s & E & ->)]]; [eauto|simpl; eauto|]. simpl. exists x. split; [auto|]. split; [|auto]. rewrite list_lookup_alter_ne; [auto|congruence].
      + destruct Hb' as (p1 & Hp1 & Hk). rewrite Hp in Hp1. injection Hp1 as <-. unfold w', run_thread. rewrite Hp, Ht, Hd, Hk. simpl.
        destruct (th_job th) as [i|i c]; simpl.
        * assert (exists t, w_trades w !! i = Some t) as (t & Hi).
          { apply lookup_lt_is_Some_2. eapply registered_lt; eauto. eapply j_open; eauto. }
          rewrite list_lookup_alter, Hi. simpl. eauto.
        * destruct (j_close _ J _ _ _ _ _ H0) as (t & Hi & Hc). destruct (lookup_lt_is_Some_2 _ _ Hc) as (x & Hx).
          rewrite list_lookup_alter, Hi. simpl. eexists _, _. split; [reflexivity|]. simpl. rewrite list_lookup_alter, Hx. simpl. eauto.
  Qed.
  Lemma jinv_cmd w c : wfw w -> jinv w -> jinv (fst (run_cmd w c)).
  Proof.
    intros W J. destruct c as [e d q s ref|t q ref|e t q ref|s q ref|t v|t|t v d q ref|t q ref|s u|s b|p k]; simpl.
    - pose proof (jinv_open w e d q s ref W J) as J1. now destruct (epic_open_trade w e d q s ref).
    - now apply jinv_strategy_close.
    - now apply jinv_epic_close.
    - unfold close_opened_trades. destruct (w_strats w !! s); [|auto]. apply jinv_forM; [|auto]. intros w1 x J1. unfold close_opened_step.
      destruct (trade_open_b w1 x); [now apply jinv_strategy_close|auto].
    - eapply jinv_trades; [exact J| |auto]. apply wskeep_alter. intros x. apply update_skeep.
    - destruct (w_trades w !! t) as [x|] eqn:E; [|auto]. destruct (w_epics w !! tr_epic x) as [e|]; [|auto]. eapply jinv_trades; [exact J| |auto].
      eapply wskeep_insert; eauto. apply update_skeep.
    - destruct (w_trades w !! t) as [x|] eqn:E; [|auto]. destruct (close x v d q ref) as [[x' c]|] eqn:Ec; [|auto]. eapply jinv_trades; [exact J| |auto].
      eapply wskeep_insert; eauto. apply close_inv in Ec as (-> & _). split; [auto|]. simpl. eauto.
    - destruct (close_from_epic w t q ref) as [[w' ci]|] eqn:E; [|auto]. apply close_from_epic_inv in E as (x & e & x' & c & Hx & _ & Hc & -> & _).
      eapply jinv_trades; [exact J| |auto]. eapply wskeep_insert; eauto. apply close_tick_skeep in Hc as [E1 E2]. split; eauto.
    - eapply jinv_trades; [exact J| |auto]. intros i x Hx. exists x. now split.
    - eapply jinv_trades; [exact J| |auto]. intros i x Hx. exists x. now split.
    - now apply jinv_run_thread.
  Qed.
  Lemma wskeep_value w pid tk : wskeep w (update_open_trades w pid tk).
  Proof.
    unfold update_open_trades. destruct (w_provs w !! pid) as [p|]; [|intros i t Ht; exists t; now split]. generalize (opened_trades w p). intros l.
    assert (forall ts : list (trade F), (forall i t, ts !! i = Some t -> exists t', fold_left (fun ts i => alter (fun t => update_from_tick t tk) i ts) l ts !! i = Some t' /\ skeep t t')) as Hf.
    { induction l as [|j l IH]; intros ts i t Ht; simpl; [exists t; now split|].
      destruct (decide (j = i)) as [->|Hne].
      - destruct (IH (alter (fun t => update_from_tick t tk) i ts) i (update_from_tick t tk)) as (t' & Ht' & R).
        + rewrite list_lookup_alter, Ht. reflexivity.
        + exists t'. split; auto. etransitivity; [|exact R]. apply update_skeep.
      - apply IH. now rewrite list_lookup_alter_ne. }
    intros i t Ht. now apply Hf.
  Qed.
  (** The empty providers of a new set-up step. *)
  Lemma setup_jobs pr w (o : op F) : setup o -> (forall a p, w_provs (fst (step pr w o)) !! a = Some p -> w_provs w !! a = Some p \/ (w_provs w !! a = None /\ pv_threads p = [] /\ pv_trades p = [])) /\
    (forall a p, w_provs w !! a = Some p -> w_provs (fst (step pr w o)) !! a = Some p).
  Proof.
    assert (forall p0 : provider, pv_threads p0 = [] -> pv_trades p0 = [] ->
      (forall a p, (w_provs w ++ [p0]) !! a = Some p -> w_provs w !! a = Some p \/ (w_provs w !! a = None /\ pv_threads p = [] /\ pv_trades p = [])) /\
      (forall a p, w_provs w !! a = Some p -> (w_provs w ++ [p0]) !! a = Some p)) as Hadd.
    { intros p0 E1 E2. split; [|intros a p Hp; now apply lookup_app_l_Some]. intros a p Hp. apply lookup_app_Some in Hp as [Hp|[Hl Hp]]; [auto|].
      apply list_lookup_singleton_Some in Hp as [_ <-]. right. split; [|auto]. now apply lookup_ge_None_2. }
    destruct o as [k|ref|u q ref m|ref tz op cl ds hs pv|eid fid|eid sid|fid i|e tk|c]; intros Ho; simpl in Ho; try contradiction; simpl; auto.
    - destruct (fset_init u q ref m); auto.
    - unfold new_epic. destruct tz; [|auto]. destruct (valid_id _ _); [|auto]. cbv zeta. destruct pv; simpl; auto.
    - unfold add_frame_set. destruct (w_epics w !! eid); [|auto]. destruct (w_fsets w !! fid); [|auto]. destruct (dict_get _ _); auto.
    - unfold add_strategy. destruct (w_epics w !! eid); [|auto]. destruct (w_strats w !! sid); [|auto]. destruct (dict_get _ _); auto.
    - destruct (w_fsets w !! fid); [|auto]. destruct (add_indicator _ _). auto.
  Qed.
  Lemma setup_has_job pr w o a k j d : setup o -> has_job (fst (step pr w o)) a k j d <-> has_job w a k j d.
  Proof.
    intros Ho. destruct (setup_jobs pr w o Ho) as [S1 S2]. unfold has_job. split; intros (p & Hp & Hk).
    - apply S1 in Hp as [Hp|(_ & E & _)]; [eauto|]. rewrite E in Hk. rewrite lookup_nil in Hk. discriminate.
    - eauto.
  Qed.
  Lemma setup_registered pr w o a i : setup o -> registered (fst (step pr w o)) a i <-> registered w a i.
  Proof.
    intros Ho. destruct (setup_jobs pr w o Ho) as [S1 S2]. unfold registered. split; intros (p & Hp & Hk).
    - apply S1 in Hp as [Hp|(_ & _ & E)]; [eauto|]. rewrite E in Hk. inversion Hk.
    - eauto.
  Qed.
  Lemma reach_jinv P w : reach P w -> jinv w.
  Proof.
    intros Hr. induction Hr as [|w c Hr IH Hc|pr w o Hr IH Ho|w eid e tk Hr IH He Ha|w eid e x Hr IH He Hx|w eid e Hr IH He|w sid s d Hr IH Hs|w l Hr IH].
    - assert (forall a k j d, ~ has_job (empty_world (F:=F)) a k j d) as Hn by (intros a k j d (p & Hp & _); simpl in Hp; rewrite lookup_nil in Hp; discriminate).
      constructor; try (intros; exfalso; eapply Hn; eauto; fail). intros a i (p & Hp & _). simpl in Hp. rewrite lookup_nil in Hp. discriminate.
    - apply jinv_cmd; [eapply reach_wf; eauto|auto].
    - pose proof (setup_trades pr w o Ho) as Et. constructor.
      + intros a k j d b l d' H1 H2. rewrite setup_has_job in H1, H2 by auto. eapply j_uniq; eauto.
      + intros a k i d H1. rewrite setup_has_job in H1 by auto. rewrite setup_registered by auto. eapply j_open; eauto.
      + intros a i H1. rewrite setup_registered in H1 by auto. destruct (j_reg _ IH _ _ H1) as (k & d & Hj). exists k, d. now rewrite setup_has_job.
      + intros a k i c d H1. rewrite setup_has_job in H1 by auto. rewrite Et. eapply j_close; eauto.
      + intros a k j H1 Hb. rewrite setup_has_job in H1 by auto. assert (is_backtest w a) as Hb'.
        { destruct Hb as (p & Hp & Hk). destruct (setup_jobs pr w o Ho) as [S1 _]. apply S1 in Hp as [Hp|(E & _)]; [now exists p|]. destruct H1 as (p1 & Hp1 & _). congruence. }
        pose proof (j_done _ IH _ _ _ H1 Hb') as Hd. destruct j; simpl in *; now rewrite Et.
    - eapply jinv_trades; [exact IH| |auto]. intros i t Ht. exists t. now split.
    - eapply jinv_trades; [exact IH| |]; unfold update_frame_set; destruct (w_fsets w !! x.2) as [fs|];
        [destruct (fs_epic_state w fs); destruct (fs_on_new_tick _ _ _ _ _)| |destruct (fs_epic_state w fs); destruct (fs_on_new_tick _ _ _ _ _)|]; auto; intros i t Ht; exists t; now split.
    - eapply jinv_trades; [exact IH|apply wskeep_value|]. unfold update_open_trades. now destruct (w_provs w !! ep_prov e).
    - eapply jinv_trades; [exact IH| |auto]. intros i t Ht. exists t. now split.
    - eapply jinv_trades; [exact IH| |auto]. intros i t Ht. exists t. now split.
  Qed.

  (** ** Everything handed to a backtest provider whose threads are over is confirmed *)
  Lemma not_alive_done w a p k j d : w_provs w !! a = Some p -> is_alive p = false -> has_job w a k j d -> d = true.
  Proof.
    intros Hp Ha (p' & Hp' & Hk). rewrite Hp in Hp'. injection Hp' as <-. destruct d; [auto|]. exfalso. unfold is_alive in Ha.
    assert (existsb (fun th => negb (th_done th)) (pv_threads p) = true) as E; [|congruence]. apply existsb_exists. exists {| th_job := j; th_done := false |}.
    split; [|reflexivity]. apply elem_of_list_In. now apply elem_of_list_lookup_2 in Hk.
  Qed.
  Lemma all_confirmed P w a p : reach P w -> w_provs w !! a = Some p -> pv_kind p = PBacktests -> is_alive p = false ->
    (forall i, i ∈ pv_trades p -> confirmed w (JOpen i)) /\ (forall j, handed w a j -> confirmed w j).
  Proof.
    intros Hr Hp Hk Ha. pose proof (reach_jinv _ _ Hr) as J.
    assert (forall j, handed w a j -> confirmed w j) as Hh.
    { intros j (k & d & Hj). rewrite (not_alive_done _ _ _ _ _ _ Hp Ha Hj) in Hj. eapply j_done; eauto. now exists p. }
    split; [|auto]. intros i Hi. apply Hh. apply (j_reg _ J). now exists p.
  Qed.

  (** ** Closes made through an epic or a strategy are handed over *)
  Definition hinv w : Prop := forall i t c, w_trades w !! i = Some t -> (c < length (tr_closes t))%nat -> exists a, handed w a (JClose i c).
  Definition hmono w w' : Prop := forall a j, handed w a j -> handed w' a j.
  Lemma hinv_step w w' : hinv w -> hmono w w' -> (forall i t', w_trades w' !! i = Some t' -> exists t, w_trades w !! i = Some t /\ length (tr_closes t') = length (tr_closes t)) -> hinv w'.
  Proof.
    intros Hh Hm Ht i t' c Hi Hc. destruct (Ht i t' Hi) as (t & Ht' & E). rewrite E in Hc. destruct (Hh i t c Ht' Hc) as (a & Ha). exists a. auto.
  Qed.
  Lemma hmono_provs w w' : w_provs w' = w_provs w -> hmono w w'.
  Proof. intros E a j (k & d & Hj). exists k, d. now apply (has_job_eq w w'). Qed.
  Lemma hmono_add w pid j : hmono w (add_thread w pid j).
  Proof. intros a j' (k & d & Hj). exists k, d. rewrite has_job_add. auto. Qed.
  Lemma hinv_close w tid q ref w1 ci pid : hinv w -> (exists p, w_provs w !! pid = Some p) -> close_from_epic w tid q ref = Ok (w1, ci) -> hinv (provider_close_trade w1 pid tid ci).
  Proof.
    intros Hh (p & Hp) E. apply close_from_epic_inv in E as (t & e & t' & c & Ht & _ & Hc & -> & ->). apply close_tick_skeep in Hc as [E1 E2].
    intros i x n Hx Hn. unfold provider_close_trade, add_thread in Hx. simpl in Hx. rewrite (insert_lookup_some _ _ _ _ _ Ht) in Hx.
    assert (hmono w (add_thread (upd_trades w (<[tid:=t']> (w_trades w))) pid (JClose tid (length (tr_closes t))))) as Hm.
    { intros a j Hj. apply hmono_add. exact Hj. }
    destruct (decide (i = tid)) as [->|Hne].
    - injection Hx as <-. rewrite E2, app_length in Hn. simpl in Hn. destruct (decide (n = length (tr_closes t))) as [->|Hnn].
      + exists pid, (length (pv_threads p)), false. apply has_job_add. right. simpl. eauto 10.
      + destruct (Hh tid t n Ht ltac:(lia)) as (a & Ha). exists a. apply Hm. auto.
    - destruct (Hh i x n Hx Hn) as (a & Ha). exists a. apply Hm. auto.
  Qed.
  Lemma hinv_epic_close w eid tid q ref : wfw w -> hinv w -> hinv (fst (epic_close_trade w eid tid q ref)).
  Proof.
    intros W J. unfold epic_close_trade. destruct (w_epics w !! eid) as [e|] eqn:He; [|auto]. destruct (close_from_epic w tid q ref) as [[w1 ci]|x] eqn:E; [|auto].
    eapply hinv_close; eauto. now destruct (wf_epic _ W _ _ He) as (Hp & _).
  Qed.
  Lemma hinv_strategy_close w tid q ref : wfw w -> hinv w -> hinv (fst (strategy_close_trade w tid q ref)).
  Proof. intros W J. unfold strategy_close_trade. destruct (w_trades w !! tid); [now apply hinv_epic_close|auto]. Qed.
  Lemma hinv_net_step pid tid ref w oid : hinv w -> (exists p, w_provs w !! pid = Some p) -> hinv (fst (net_step pid tid ref w oid)).
  Proof.
    intros J Hp. unfold net_step. destruct (w_trades w !! tid) as [t|]; [|auto]. destruct (w_trades w !! oid) as [o|]; [|auto]. destruct (dir_eqb _ _); [|auto].
    destruct (bool_decide _); [|auto]. cbv zeta. destruct (close_from_epic w oid _ ref) as [[w1 ci]|x] eqn:E; [|auto]. cbn [fst].
    pose proof (hinv_close _ _ _ _ _ _ pid J Hp E) as J1. eapply hinv_step; [exact J1|now apply hmono_provs|]. intros i x. simpl.
    destruct (decide (tid = i)) as [->|Hne]; [|rewrite list_lookup_alter_ne by auto; eauto]. rewrite list_lookup_alter.
    destruct (w_trades w1 !! i) as [y|] eqn:Ey; [|discriminate]. simpl. intros Ex. injection Ex as <-. eauto.
  Qed.
  Lemma hmono_register w pid tid : hmono w (base_open_trade w pid tid).
  Proof.
    destruct (w_trades w !! tid) as [t|] eqn:Ht; [|unfold base_open_trade; rewrite Ht; now intros a j]. rewrite (base_open_some _ _ _ _ Ht).
    intros a j (k & d & p & Hp & Hk). apply hmono_add. exists k, d. unfold has_job. simpl. destruct (decide (pid = a)) as [->|Hne].
    - rewrite list_lookup_alter, Hp. simpl. eauto.
    - rewrite list_lookup_alter_ne by auto. eauto.
  Qed.
  Lemma hinv_open w eid d q s ref : wfw w -> hinv w -> hinv (fst (epic_open_trade w eid d q s ref)).
  Proof.
    intros W J. apply (open_scheme hinv); [auto| | |].
    - intros e t He Ho Hv i x c Hx Hc. simpl in Hx. apply lookup_app_Some in Hx as [Hx|[_ Hx]].
      + destruct (J i x c Hx Hc) as (a & Ha). exists a. exact Ha.
      + apply list_lookup_singleton_Some in Hx as [_ <-]. destruct (open_fields _ _ _ _ _ _ _ Ho) as (_ & _ & _ & _ & _ & _ & E & _). rewrite E in Hc. simpl in Hc. lia.
    - intros e w1 oid He Kp J1. apply hinv_net_step; [auto|]. destruct (wf_epic _ W _ _ He) as ((p & Hp) & _). now apply (Kp _ p).
    - intros e t w1 He Ho K J1. eapply hinv_step; [exact J1|apply hmono_register|]. intros i x Hx. destruct (register_rest w1 (ep_prov e) (length (w_trades w))) as (R1 & _). rewrite R1 in Hx. eauto.
  Qed.
  Lemma wfw_forM_both {A} (I : world F -> Prop) (f : world F -> A -> world F * res unit) l w :
    (forall w x, keeps w (fst (f w x))) -> (forall w x, wfw w -> I w -> I (fst (f w x))) -> wfw w -> I w -> I (fst (forM f w l)).
  Proof.
    intros Hk Hf W Hi. assert (wfw (fst (forM f w l)) /\ I (fst (forM f w l))) as [_ ?]; [|auto].
    apply (forM_inv (fun w => wfw w /\ I w)); [|auto]. intros w1 x _ [W1 I1]. split; [eapply wfw_keeps; [apply Hk|auto]|auto].
  Qed.
  Lemma hinv_cmd w c : wfw w -> hinv w -> via_provider c -> hinv (fst (run_cmd w c)).
  Proof.
    intros W J Hc. destruct c as [e d q s ref|t q ref|e t q ref|s q ref|t v|t|t v d q ref|t q ref|s u|s b|p k]; simpl in *; try contradiction.
    - pose proof (hinv_open w e d q s ref W J) as J1. now destruct (epic_open_trade w e d q s ref).
    - now apply hinv_strategy_close.
    - now apply hinv_epic_close.
    - unfold close_opened_trades. destruct (w_strats w !! s); [|auto]. apply wfw_forM_both; [| |auto|auto].
      + intros w1 x. unfold close_opened_step. destruct (trade_open_b w1 x); [apply keeps_strategy_close|reflexivity].
      + intros w1 x W1 J1. unfold close_opened_step. destruct (trade_open_b w1 x); [now apply hinv_strategy_close|auto].
    - eapply hinv_step; [exact J|now apply hmono_provs|]. intros i x. simpl. destruct (decide (t = i)) as [->|Hne]; [|rewrite list_lookup_alter_ne by auto; eauto].
      rewrite list_lookup_alter. destruct (w_trades w !! i) as [y|]; [|discriminate]. simpl. intros E. injection E as <-. exists y. split; [auto|].
      destruct (update_same y v) as (_ & _ & _ & _ & -> & _). auto.
    - destruct (w_trades w !! t) as [x|] eqn:E; [|auto]. destruct (w_epics w !! tr_epic x) as [e|]; [|auto]. eapply hinv_step; [exact J|now apply hmono_provs|].
      intros i y. simpl. rewrite (insert_lookup_some _ _ _ _ _ E). destruct (decide (i = t)) as [->|Hne]; [|eauto]. intros Ey. injection Ey as <-. exists x. split; [auto|].
      destruct (update_from_tick_same x (ep_last e)) as (_ & _ & _ & _ & -> & _). auto.
    - eapply hinv_step; [exact J|now apply hmono_provs|]. eauto.
    - eapply hinv_step; [exact J|now apply hmono_provs|]. eauto.
    - eapply hinv_step; [exact J| |].
      + intros a j (n & d & Hj). destruct (has_job_run_back w p k _ _ _ _ Hj) as (d' & Hj'). exists n, d'. auto.
      + intros i t' Ht'. destruct (keeps_t _ _ _ _ (keeps_sym _ _ (keeps_run_thread w p k)) Ht') as (t & Ht & _). exists t. split; [auto|].
        unfold run_thread in Ht'. destruct (w_provs w !! p) as [pv|] eqn:Hp; [|congruence]. destruct (pv_threads pv !! k) as [th|] eqn:Hth; [|congruence].
        destruct (th_done th); [congruence|]. simpl in Ht'. destruct (job_lookup (pv_kind pv) (th_job th) _ _ _ Ht) as (t1 & Ht1 & E). rewrite Ht' in Ht1. injection Ht1 as <-.
        destruct E as [->|[(_ & s & ->)|(c' & s & _ & ->)]]; simpl; rewrite ?alter_length; auto.
  Qed.
  Lemma reach_hinv w : reach via_provider w -> hinv w.
  Proof.
    intros Hr. induction Hr as [|w c Hr IH Hc|pr w o Hr IH Ho|w eid e tk Hr IH He Ha|w eid e x Hr IH He Hx|w eid e Hr IH He|w sid s d Hr IH Hs|w l Hr IH].
    - intros i t c Hi. simpl in Hi. rewrite lookup_nil in Hi. discriminate.
    - apply hinv_cmd; [eapply reach_wf; eauto|auto|auto].
    - eapply hinv_step; [exact IH| |].
      + intros a j (k & d & Hj). exists k, d. now rewrite setup_has_job.
      + rewrite setup_trades by auto. eauto.
    - eapply hinv_step; [exact IH|now apply hmono_provs|]. eauto.
    - eapply hinv_step; [exact IH|apply hmono_provs|]; unfold update_frame_set; destruct (w_fsets w !! x.2) as [fs|];
        [destruct (fs_epic_state w fs); destruct (fs_on_new_tick _ _ _ _ _)| |destruct (fs_epic_state w fs); destruct (fs_on_new_tick _ _ _ _ _)|]; eauto.
    - eapply hinv_step; [exact IH|apply hmono_provs; unfold update_open_trades; now destruct (w_provs w !! ep_prov e)|].
      intros i t' Ht'. destruct (keeps_t _ _ _ _ (keeps_sym _ _ (keeps_value w (ep_prov e) (ep_last e))) Ht') as (t & Ht & _). exists t. split; [auto|].
      unfold update_open_trades in Ht'. destruct (w_provs w !! ep_prov e) as [p|]; [|congruence]. simpl in Ht'. revert Ht Ht'. clear. generalize (ep_last e) as tk. intros tk. generalize (opened_trades w p) as l, (w_trades w) as ts. intros l.
      revert t. induction l as [|j l IHl]; intros t ts Ht Ht'; simpl in Ht'; [congruence|]. destruct (decide (j = i)) as [->|Hne].
      + assert (alter (fun t => update_from_tick t tk) i ts !! i = Some (update_from_tick t tk)) as E by (rewrite list_lookup_alter, Ht; reflexivity). rewrite (IHl _ _ E Ht'). destruct (update_from_tick_same t tk) as (_ & _ & _ & _ & -> & _). auto.
      + assert (alter (fun t => update_from_tick t tk) j ts !! i = Some t) as E by (now rewrite list_lookup_alter_ne). apply (IHl _ _ E Ht').
    - eapply hinv_step; [exact IH|now apply hmono_provs|]. eauto.
    - eapply hinv_step; [exact IH|now apply hmono_provs|]. eauto.
  Qed.
  Lemma every_close_confirmed w : reach via_provider w -> (forall a p, w_provs w !! a = Some p -> pv_kind p = PBacktests /\ is_alive p = false) ->
    (forall a i, registered w a i -> exists t, w_trades w !! i = Some t /\ tr_status t = CONFIRMED) /\
    (forall i t c, w_trades w !! i = Some t -> c ∈ tr_closes t -> tc_status c = CONFIRMED).
  Proof.
    intros Hr Ha. split.
    - intros a i (p & Hp & Hi). destruct (Ha a p Hp) as [Hk Hl]. exact (proj1 (all_confirmed _ w a p Hr Hp Hk Hl) i Hi).
    - intros i t c Hi Hc. apply elem_of_list_lookup in Hc as (n & Hn). destruct (reach_hinv w Hr i t n Hi ltac:(eapply lookup_lt_Some; eauto)) as (a & Hh).
      pose proof Hh as (k & d & p & Hp & _). destruct (Ha a p Hp) as [Hk Hl].
      destruct (proj2 (all_confirmed _ w a p Hr Hp Hk Hl) _ Hh) as (t' & x & Ht' & Hx & E). rewrite Hi in Ht'. injection Ht' as <-. congruence.
  Qed.
End proofs.
