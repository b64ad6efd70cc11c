(** Ledgers of providers and strategies (C14, C15). *)
From Verif Require Export WorldProofs.
Open Scope Z_scope.

Lemma fmap_insert_same {A B} (f : A -> B) (l : list A) i x y : l !! i = Some y -> f x = f y -> f <$> <[i:=x]> l = f <$> l.
Proof.
  intros Hi Hf. rewrite list_fmap_insert, Hf. apply list_insert_id. now rewrite list_lookup_fmap, Hi.
Qed.
Lemma fmap_alter_same {A B} (f : A -> B) g (l : list A) i : (forall x, f (g x) = f x) -> f <$> alter g i l = f <$> l.
Proof.
  intros Hf. apply list_eq. intros j. rewrite !list_lookup_fmap. destruct (decide (i = j)) as [->|Hne].
  - rewrite list_lookup_alter. destruct (l !! j); simpl; [now rewrite Hf|auto].
  - now rewrite list_lookup_alter_ne.
Qed.
Lemma fmap_lookup_back {A B} (f : A -> B) (l l' : list A) i x : f <$> l' = f <$> l -> l !! i = Some x -> exists x', l' !! i = Some x' /\ f x' = f x.
Proof.
  intros E Hi. assert ((f <$> l') !! i = Some (f x)) as Hx by now rewrite E, list_lookup_fmap, Hi.
  rewrite list_lookup_fmap in Hx. destruct (l' !! i) as [x'|]; [|discriminate]. simpl in Hx. exists x'. split; congruence.
Qed.

Section proofs.
  Context {F : Type} `{Num F}.
  Implicit Types (w : world F) (t : trade F).

  Definition tfix t := (tr_epic t, tr_strat t, tr_dir t, tr_ov t, tr_dt t, tr_ref t).
  Lemma fixed_tfix t t' : fixed t t' -> tfix t' = tfix t.
  Proof. intros (?&?&?&?&?&?). unfold tfix. congruence. Qed.
  Definition pfix (p : provider) := (pv_kind p, pv_trades p).
  Definition efix (e : epic F) := (ep_ref e, ep_prov e, ep_fsets e, ep_strats e).
  Definition sfix (s : strategy) := (st_ref s, st_trades s, st_epics s).

  (** The ledgers are untouched. *)
  Record keeps w w' : Prop := {
    k_trades : tfix <$> w_trades w' = tfix <$> w_trades w;
    k_provs : pfix <$> w_provs w' = pfix <$> w_provs w;
    k_strats : sfix <$> w_strats w' = sfix <$> w_strats w;
    k_epics : efix <$> w_epics w' = efix <$> w_epics w;
    k_fsets : length (w_fsets w') = length (w_fsets w) }.
  Global Instance keeps_pre : PreOrder keeps.
  Proof. split; [now intros w; constructor|]. intros a b c [] []. constructor; congruence. Qed.

  Lemma keeps_trade w i t t' : w_trades w !! i = Some t -> fixed t t' -> keeps w (upd_trades w (<[i:=t']> (w_trades w))).
  Proof. intros Hi Hf. constructor; auto. simpl. eapply fmap_insert_same; eauto. now apply fixed_tfix. Qed.
  Lemma keeps_alter w i f : (forall t, fixed t (f t)) -> keeps w (upd_trades w (alter f i (w_trades w))).
  Proof. intros Hf. constructor; auto. simpl. apply fmap_alter_same. intros t. now apply fixed_tfix. Qed.
  Lemma keeps_thread w pid j : keeps w (add_thread w pid j).
  Proof. constructor; auto. simpl. now apply fmap_alter_same. Qed.
  Lemma keeps_fsets w l : length l = length (w_fsets w) -> keeps w (upd_fsets w l).
  Proof. intros E. now constructor. Qed.
  Lemma keeps_log w l : keeps w (upd_log w l).
  Proof. now constructor. Qed.

  Lemma keeps_close_from_epic w tid q ref w' ci : close_from_epic w tid q ref = Ok (w', ci) -> keeps w w'.
  Proof. intros E. apply close_from_epic_inv in E as (t & e & t' & c & Ht & _ & Hc & -> & _). eapply keeps_trade; eauto. eapply close_tick_fixed; eauto. Qed.
  Lemma keeps_net_step pid tid ref w oid : keeps w (fst (net_step pid tid ref w oid)).
  Proof.
    unfold net_step. destruct (w_trades w !! tid) as [t|]; [|reflexivity]. destruct (w_trades w !! oid) as [o|]; [|reflexivity].
    destruct (dir_eqb _ _); [|reflexivity]. destruct (bool_decide _); [|reflexivity]. cbv zeta.
    destruct (close_from_epic _ _ _ _) as [[w1 ci]|e] eqn:E; [|reflexivity]. apply keeps_close_from_epic in E. cbn [fst].
    etransitivity; [exact E|]. transitivity (provider_close_trade w1 pid oid ci); [apply keeps_thread|]. apply keeps_alter. intros x. now repeat split.
  Qed.
  Lemma keeps_forM {A} (f : world F -> A -> world F * res unit) l w :
    (forall w x, keeps w (fst (f w x))) -> keeps w (fst (forM f w l)).
  Proof. intros Hf. apply (forM_inv (keeps w)); [|reflexivity]. intros w1 x _ H1. etransitivity; eauto. Qed.
  Lemma keeps_net pid tid ref w l : keeps w (fst (forM (net_step pid tid ref) w l)).
  Proof. apply keeps_forM. intros. apply keeps_net_step. Qed.
  Lemma keeps_epic_close w eid tid q ref : keeps w (fst (epic_close_trade w eid tid q ref)).
  Proof.
    unfold epic_close_trade. destruct (w_epics w !! eid); [|reflexivity].
    destruct (close_from_epic _ _ _ _) as [[w1 ci]|e'] eqn:E; [|reflexivity]. apply keeps_close_from_epic in E.
    etransitivity; [exact E|apply keeps_thread].
  Qed.
  Lemma keeps_strategy_close w tid q ref : keeps w (fst (strategy_close_trade w tid q ref)).
  Proof. unfold strategy_close_trade. destruct (w_trades w !! tid); [apply keeps_epic_close|reflexivity]. Qed.
  Lemma keeps_run_thread w pid k : keeps w (run_thread w pid k).
  Proof.
    unfold run_thread. destruct (w_provs w !! pid) as [p|] eqn:Ep; [|reflexivity]. destruct (pv_threads p !! k) as [th|]; [|reflexivity].
    destruct (th_done th); [reflexivity|]. constructor; auto; simpl.
    - unfold job_effect. destruct (pv_kind p); [|reflexivity|]; destruct (th_job th); apply fmap_alter_same; reflexivity.
    - eapply fmap_insert_same; eauto.
  Qed.

  Definition is_open_call (c : cmd F) : bool := match c with COpen _ _ _ _ _ => true | _ => false end.
  Lemma keeps_cmd w c : is_open_call c = false -> keeps w (fst (run_cmd w c)).
  Proof.
    intros Hc. destruct c as [e d q s ref|t q ref|e t q ref|s q ref|t v|t|t v d q ref|t q ref|s u|s b|p k]; try discriminate; simpl.
    - apply keeps_strategy_close.
    - apply keeps_epic_close.
    - unfold close_opened_trades. destruct (w_strats w !! s); [|reflexivity]. apply keeps_forM. intros w1 x.
      unfold close_opened_step. destruct (trade_open_b w1 x); [apply keeps_strategy_close|reflexivity].
    - apply keeps_alter. intros x. apply same_fixed, update_same.
    - destruct (w_trades w !! t) as [x|] eqn:E; [|reflexivity]. destruct (w_epics w !! tr_epic x); [|reflexivity].
      eapply keeps_trade; eauto. apply same_fixed, update_from_tick_same.
    - destruct (w_trades w !! t) as [x|] eqn:E; [|reflexivity]. destruct (close x v d q ref) as [[x' c]|] eqn:E2; [|reflexivity].
      eapply keeps_trade; eauto. eapply close_fixed; eauto.
    - destruct (close_from_epic w t q ref) as [[w' ci]|] eqn:E; [|reflexivity]. eapply keeps_close_from_epic; eauto.
    - constructor; auto. simpl. now apply fmap_alter_same.
    - constructor; auto. simpl. now apply fmap_alter_same.
    - apply keeps_run_thread.
  Qed.
  Lemma keeps_value w pid tk : keeps w (update_open_trades w pid tk).
  Proof.
    unfold update_open_trades. destruct (w_provs w !! pid) as [p|]; [|reflexivity]. constructor; auto. simpl.
    generalize (opened_trades w p). intros l. generalize (w_trades w) as ts. induction l as [|i l IH]; intros ts; simpl; [auto|].
    rewrite IH. apply fmap_alter_same. intros t. apply fixed_tfix, same_fixed, update_from_tick_same.
  Qed.

  (** ** Well-formed states; [Pl] is what is known of the order of the ledgers. *)
  Record wfg (Pl : list nat -> Prop) w : Prop := {
    wf_prov : forall pid p, w_provs w !! pid = Some p -> Pl (pv_trades p) /\
      forall i, i ∈ pv_trades p -> exists t e, w_trades w !! i = Some t /\ w_epics w !! tr_epic t = Some e /\ ep_prov e = pid;
    wf_strat : forall sid s, w_strats w !! sid = Some s -> Pl (st_trades s) /\
      forall i, i ∈ st_trades s <-> (exists t, w_trades w !! i = Some t /\ tr_strat t = Some sid) /\ exists pid, registered w pid i;
    wf_trade : forall i t, w_trades w !! i = Some t -> (exists e, w_epics w !! tr_epic t = Some e) /\
      forall sid, tr_strat t = Some sid -> exists s, w_strats w !! sid = Some s;
    wf_epic : forall eid e, w_epics w !! eid = Some e -> (exists p, w_provs w !! ep_prov e = Some p) /\
      (forall x, x ∈ ep_fsets e -> exists fs, w_fsets w !! x.2 = Some fs) /\
      (forall x, x ∈ ep_strats e -> exists s, w_strats w !! x.2 = Some s) }.
  Global Arguments wf_prov {Pl} w _.
  Global Arguments wf_strat {Pl} w _.
  Global Arguments wf_trade {Pl} w _.
  Global Arguments wf_epic {Pl} w _.
  Notation wfw := (wfg increasing).

  Lemma keeps_sym w w' : keeps w w' -> keeps w' w.
  Proof. intros []. constructor; congruence. Qed.
  Lemma keeps_t w w' i t : keeps w w' -> w_trades w !! i = Some t -> exists t', w_trades w' !! i = Some t' /\ fixed t t'.
  Proof.
    intros K Hi. destruct (fmap_lookup_back _ _ _ _ _ (k_trades _ _ K) Hi) as (t' & Ht & E). exists t'. split; auto.
    unfold tfix in E. injection E as ? ? ? ? ? ?. now repeat split.
  Qed.
  Lemma keeps_p w w' i p : keeps w w' -> w_provs w !! i = Some p -> exists p', w_provs w' !! i = Some p' /\ pv_kind p' = pv_kind p /\ pv_trades p' = pv_trades p.
  Proof.
    intros K Hi. destruct (fmap_lookup_back _ _ _ _ _ (k_provs _ _ K) Hi) as (t' & Ht & E). exists t'. split; auto.
    unfold pfix in E. injection E as ? ?. auto.
  Qed.
  Lemma keeps_s w w' i s : keeps w w' -> w_strats w !! i = Some s ->
    exists s', w_strats w' !! i = Some s' /\ st_ref s' = st_ref s /\ st_trades s' = st_trades s /\ st_epics s' = st_epics s.
  Proof.
    intros K Hi. destruct (fmap_lookup_back _ _ _ _ _ (k_strats _ _ K) Hi) as (t' & Ht & E). exists t'. split; auto.
    unfold sfix in E. injection E as ? ? ?. auto.
  Qed.
  Lemma keeps_e w w' i e : keeps w w' -> w_epics w !! i = Some e ->
    exists e', w_epics w' !! i = Some e' /\ ep_ref e' = ep_ref e /\ ep_prov e' = ep_prov e /\ ep_fsets e' = ep_fsets e /\ ep_strats e' = ep_strats e.
  Proof.
    intros K Hi. destruct (fmap_lookup_back _ _ _ _ _ (k_epics _ _ K) Hi) as (t' & Ht & E). exists t'. split; auto.
    unfold efix in E. injection E as ? ? ? ?. auto.
  Qed.
  Lemma keeps_f w w' i x : keeps w w' -> w_fsets w !! i = Some x -> exists x', w_fsets w' !! i = Some x'.
  Proof. intros K Hi. apply lookup_lt_is_Some_2. rewrite (k_fsets _ _ K). eapply lookup_lt_Some; eauto. Qed.
  Lemma keeps_registered w w' pid i : keeps w w' -> registered w pid i -> registered w' pid i.
  Proof. intros K (p & Hp & Hi). destruct (keeps_p _ _ _ _ K Hp) as (p' & Hp' & _ & E). exists p'. now rewrite E. Qed.

  Lemma wfw_keeps {Pl} w w' : keeps w w' -> wfg Pl w -> wfg Pl w'.
  Proof.
    intros K [W1 W2 W3 W4]. pose proof (keeps_sym _ _ K) as K'. constructor.
    - intros pid p Hp. destruct (keeps_p _ _ _ _ K' Hp) as (p0 & Hp0 & _ & E). destruct (W1 _ _ Hp0) as [S1 S2]. rewrite <- E.
      split; [auto|]. intros i Hi. destruct (S2 i Hi) as (t & e & Ht & He & Ee). destruct (keeps_t _ _ _ _ K Ht) as (t' & Ht' & Hf).
      destruct (keeps_e _ _ _ _ K He) as (e' & He' & _ & E1 & _). exists t', e'. destruct Hf as (-> & _). now rewrite E1.
    - intros sid s Hs. destruct (keeps_s _ _ _ _ K' Hs) as (s0 & Hs0 & _ & E & _). destruct (W2 _ _ Hs0) as [S1 S2]. rewrite <- E.
      split; [auto|]. intros i. rewrite S2. split; intros [(t & Ht & Es) (pid & Hr)]; (split; [|exists pid]).
      + destruct (keeps_t _ _ _ _ K Ht) as (t' & Ht' & _ & E1 & _). exists t'. now rewrite E1.
      + eapply keeps_registered; eauto.
      + destruct (keeps_t _ _ _ _ K' Ht) as (t' & Ht' & _ & E1 & _). exists t'. now rewrite E1.
      + eapply keeps_registered; eauto.
    - intros i t Ht. destruct (keeps_t _ _ _ _ K' Ht) as (t0 & Ht0 & E1 & E2 & _). destruct (W3 _ _ Ht0) as [(e & He) S2]. split.
      + destruct (keeps_e _ _ _ _ K He) as (e' & He' & _). exists e'. now rewrite <- E1.
      + intros sid Es. destruct (S2 sid) as (s & Hs); [congruence|]. destruct (keeps_s _ _ _ _ K Hs) as (s' & Hs' & _). eauto.
    - intros eid e He. destruct (keeps_e _ _ _ _ K' He) as (e0 & He0 & _ & E1 & E2 & E3). destruct (W4 _ _ He0) as ((p & Hp) & S2 & S3). split; [|split].
      + destruct (keeps_p _ _ _ _ K Hp) as (p' & Hp' & _). exists p'. now rewrite <- E1.
      + rewrite <- E2. intros x Hx. destruct (S2 x Hx) as (f & Hf). eapply keeps_f; eauto.
      + rewrite <- E3. intros x Hx. destruct (S3 x Hx) as (f & Hf). destruct (keeps_s _ _ _ _ K Hf) as (s' & Hs' & _). eauto.
  Qed.

  Lemma increasing_snoc l x : increasing l -> (forall i, i ∈ l -> (i < x)%nat) -> increasing (l ++ [x]).
  Proof.
    unfold increasing. induction l as [|y l IH]; intros Hs Hx; simpl; [repeat constructor|]. apply StronglySorted_inv in Hs as [H1 H2].
    constructor.
    - apply IH; auto. intros i Hi. apply Hx. now right.
    - apply Forall_app. split; [auto|]. constructor; [|constructor]. apply Hx. left.
  Qed.

  Lemma registered_lt {Pl} w pid i : wfg Pl w -> registered w pid i -> (i < length (w_trades w))%nat.
  Proof. intros W (p & Hp & Hi). destruct (wf_prov _ W _ _ Hp) as [_ S2]. destruct (S2 i Hi) as (t & _ & Ht & _). eapply lookup_lt_Some; eauto. Qed.

  Lemma wfw_append {Pl} w t : wfg Pl w -> (exists e, w_epics w !! tr_epic t = Some e) ->
    (forall sid, tr_strat t = Some sid -> exists s, w_strats w !! sid = Some s) -> wfg Pl (upd_trades w (w_trades w ++ [t])).
  Proof.
    intros W He Hst. pose proof W as [W1 W2 W3 W4]. constructor; simpl; auto.
    - intros pid p Hp. destruct (W1 _ _ Hp) as [S1 S2]. split; auto. intros i Hi. destruct (S2 i Hi) as (t0 & e & Ht & ?).
      exists t0, e. split; auto. now apply lookup_app_l_Some.
    - intros sid s Hs. destruct (W2 _ _ Hs) as [S1 S2]. split; auto. intros i. rewrite S2. split; intros [(t0 & Ht & Es) (pid & Hr)].
      + split; [exists t0; split; auto; now apply lookup_app_l_Some|]. exists pid. exact Hr.
      + pose proof (registered_lt _ _ _ W Hr). split; [|exists pid; exact Hr]. exists t0. split; auto. now rewrite lookup_app_l in Ht.
    - intros i t0 Ht. apply lookup_app_Some in Ht as [Ht|[_ Ht]]; [eauto|]. apply list_lookup_singleton_Some in Ht as [_ <-]. auto.
  Qed.

  Lemma base_open_some w pid tid t : w_trades w !! tid = Some t -> base_open_trade w pid tid =
    add_thread (upd_strats (upd_provs w (alter (fun p => pv_set_trades p (pv_trades p ++ [tid])) pid (w_provs w)))
      (match tr_strat t with Some s => alter (fun x => st_set_trades x (st_trades x ++ [tid])) s (w_strats w) | None => w_strats w end)) pid (JOpen tid).
  Proof. intros Ht. unfold base_open_trade. rewrite Ht. destruct (tr_strat t); [|]; destruct w; reflexivity. Qed.

  Lemma register_provs w pid tid t i : w_trades w !! tid = Some t -> w_provs (base_open_trade w pid tid) !! i =
    (if decide (i = pid) then (fun p => {| pv_kind := pv_kind p; pv_trades := pv_trades p ++ [tid];
       pv_threads := pv_threads p ++ [{| th_job := JOpen tid; th_done := false |}] |}) <$> w_provs w !! i else w_provs w !! i).
  Proof.
    intros Ht. rewrite (base_open_some _ _ _ _ Ht). simpl. destruct (decide (i = pid)) as [->|Hne].
    - rewrite !list_lookup_alter. destruct (w_provs w !! pid); reflexivity.
    - rewrite !list_lookup_alter_ne by congruence. reflexivity.
  Qed.
  Lemma register_strats w pid tid t i : w_trades w !! tid = Some t -> w_strats (base_open_trade w pid tid) !! i =
    (if decide (tr_strat t = Some i) then (fun x => st_set_trades x (st_trades x ++ [tid])) <$> w_strats w !! i else w_strats w !! i).
  Proof.
    intros Ht. rewrite (base_open_some _ _ _ _ Ht). simpl. destruct (tr_strat t) as [s|]; simpl.
    - destruct (decide (Some s = Some i)) as [E|E]; [injection E as ->; now rewrite list_lookup_alter|].
      rewrite list_lookup_alter_ne; congruence.
    - reflexivity.
  Qed.
  Lemma register_rest w pid tid : w_trades (base_open_trade w pid tid) = w_trades w /\ w_epics (base_open_trade w pid tid) = w_epics w /\
    w_fsets (base_open_trade w pid tid) = w_fsets w /\ w_log (base_open_trade w pid tid) = w_log w.
  Proof. unfold base_open_trade. destruct (w_trades w !! tid) as [t|]; [|auto]. destruct (tr_strat t); simpl; auto. Qed.
  Lemma register_registered w pid tid t p0 pid' i : w_trades w !! tid = Some t -> w_provs w !! pid = Some p0 ->
    registered (base_open_trade w pid tid) pid' i <-> registered w pid' i \/ (pid' = pid /\ i = tid).
  Proof.
    intros Ht Hp0. unfold registered. setoid_rewrite (register_provs _ _ _ _ _ Ht). destruct (decide (pid' = pid)) as [->|Hne].
    - rewrite Hp0. simpl. split.
      + intros (p & E & Hi). injection E as <-. simpl in Hi. apply elem_of_app in Hi as [Hi|Hi]; [left; eauto|].
        apply elem_of_list_singleton in Hi. auto.
      + intros [(p & E & Hi)|[_ ->]]; (eexists; split; [reflexivity|]; simpl).
        * injection E as ->. apply elem_of_app; auto.
        * apply elem_of_app. right. left.
    - split; [intros (p & E & Hi); left; eauto|]. intros [?|[? _]]; [auto|congruence].
  Qed.

  Lemma wfg_register {Pl : list nat -> Prop} w pid tid t e : wfg Pl w -> w_trades w !! tid = Some t -> w_epics w !! tr_epic t = Some e -> ep_prov e = pid ->
    (forall l, Pl l -> (forall i, i ∈ l -> exists pid', registered w pid' i) -> Pl (l ++ [tid])) -> wfg Pl (base_open_trade w pid tid).
  Proof.
    intros W Ht He Epid Hlt. pose proof W as [W1 W2 W3 W4].
    destruct (W4 _ _ He) as ((p0 & Hp0) & _). rewrite Epid in Hp0.
    destruct (register_rest w pid tid) as (R1 & R2 & R3 & _). constructor.
    - intros i p. rewrite (register_provs _ _ _ _ _ Ht). rewrite R1, R2. destruct (decide (i = pid)) as [->|Hne]; [|now apply W1].
      rewrite Hp0. simpl. intros E. injection E as <-. simpl. destruct (W1 _ _ Hp0) as [S1 S2]. split.
      + apply Hlt; auto. intros i Hi. exists pid, p0. auto.
      + intros i Hi. apply elem_of_app in Hi as [Hi|Hi]; [auto|]. apply elem_of_list_singleton in Hi as ->. exists t, e. auto.
    - intros sid s. rewrite (register_strats _ _ _ _ _ Ht), R1. destruct (decide (tr_strat t = Some sid)) as [Es|Es].
      + destruct (w_strats w !! sid) as [s0|] eqn:Es0; [|discriminate]. simpl. intros E. injection E as <-. simpl.
        destruct (W2 _ _ Es0) as [S1 S2]. split.
        * apply Hlt; auto. intros i Hi. now apply S2 in Hi as [_ Hr].
        * intros i. rewrite elem_of_app, elem_of_list_singleton, S2. split.
          -- intros [[(x & Hx & Hxs) (pid' & Hr)]| ->].
             ++ split; [eauto|]. exists pid'. eapply register_registered; eauto.
             ++ split; [eauto|]. exists pid. eapply register_registered; eauto.
          -- intros [Hx (pid' & Hr)]. eapply register_registered in Hr; eauto. destruct Hr as [Hr|[_ ->]]; [left; eauto|now right].
      + intros Hs. destruct (W2 _ _ Hs) as [S1 S2]. split; auto. intros i. rewrite S2. split.
        * intros [Hx (pid' & Hr)]. split; auto. exists pid'. eapply register_registered; eauto.
        * intros [(x & Hx & Hxs) (pid' & Hr)]. split; [eauto|]. eapply register_registered in Hr; eauto.
          destruct Hr as [Hr|[_ ->]]; [eauto|]. congruence.
    - rewrite R1, R2. intros i x Hx. destruct (W3 _ _ Hx) as [S1 S2]. split; auto. intros sid Es. destruct (S2 _ Es) as (s & Hs).
      rewrite (register_strats _ _ _ _ _ Ht), Hs. destruct (decide _); simpl; eauto.
    - rewrite R2, R3. intros eid e0 He0. destruct (W4 _ _ He0) as ((p & Hp) & S2 & S3). split; [|split]; auto.
      + rewrite (register_provs _ _ _ _ _ Ht), Hp. destruct (decide _); simpl; eauto.
      + intros x Hx. destruct (S3 x Hx) as (s & Hs). rewrite (register_strats _ _ _ _ _ Ht), Hs. destruct (decide _); simpl; eauto.
  Qed.
  Lemma wfw_register w pid tid t e : wfw w -> w_trades w !! tid = Some t -> w_epics w !! tr_epic t = Some e -> ep_prov e = pid ->
    (forall pid' i, registered w pid' i -> (i < tid)%nat) -> wfw (base_open_trade w pid tid).
  Proof.
    intros W Ht He Ep Hlt. eapply wfg_register; eauto. intros l Hl Hr. apply increasing_snoc; auto. intros i Hi. destruct (Hr i Hi) as (pid' & Hp). eauto.
  Qed.

  Lemma open_fields tk e d q s ref t : open_from_tick tk e d q s ref = Ok t ->
    exists d', d = Dir d' /\ tr_epic t = e /\ tr_strat t = s /\ tr_dir t = d' /\ tr_oq t = q /\ tr_closes t = [] /\ created q t.
  Proof.
    destruct d as [[|]|]; simpl; intros E; [| |discriminate]; injection E as <-; eexists; (split; [reflexivity|]); repeat split.
  Qed.

  (** What an opening does to the ledgers. *)
  Lemma open_inv w eid d q s ref w' r : epic_open_trade w eid d q s ref = (w', r) ->
    (w' = w /\ exists x, r = Err x) \/
    exists e t wn, w_epics w !! eid = Some e /\ open_from_tick (ep_last e) eid d q s ref = Ok t /\
      (forall sid, s = Some sid -> exists x, w_strats w !! sid = Some x) /\
      keeps (upd_trades w (w_trades w ++ [t])) wn /\
      (w' = wn \/ w' = base_open_trade wn (ep_prov e) (length (w_trades w))).
  Proof.
    unfold epic_open_trade. destruct (w_epics w !! eid) as [e|] eqn:Ee; [|intros E; injection E as <- <-; left; eauto].
    destruct (valid_id (w_strats w) s) eqn:Ev; [|intros E; injection E as <- <-; left; eauto].
    destruct (open_from_tick (ep_last e) eid d q s ref) as [t|x] eqn:Eo; [|intros E; injection E as <- <-; left; eauto].
    cbv zeta. intros E. right. exists e, t.
    assert (forall sid, s = Some sid -> exists x, w_strats w !! sid = Some x) as Hv.
    { intros sid ->. simpl in Ev. apply bool_decide_eq_true in Ev. now apply lookup_lt_is_Some_2. }
    set (w0 := upd_trades w (w_trades w ++ [t])) in *. set (tid := length (w_trades w)) in *.
    assert (exists wn r', provider_open_trade w0 (ep_prov e) tid ref = (w', r') /\ keeps w0 wn /\ (w' = wn \/ w' = base_open_trade wn (ep_prov e) tid)) as (wn & r' & _ & K & C).
    { destruct (provider_open_trade w0 (ep_prov e) tid ref) as [w1 r1] eqn:Ep.
      assert (w1 = w') as -> by (destruct r1; injection E as <- <-; auto).
      unfold provider_open_trade in Ep. destruct (w_provs w0 !! ep_prov e) as [p|] eqn:Epp; [|injection Ep as <- <-; exists w0, (Err Dangling); split; [auto|]; split; [reflexivity|auto]].
      assert (w' = base_open_trade w0 (ep_prov e) tid -> exists wn r', (w', r1) = (w', r') /\ keeps w0 wn /\ (w' = wn \/ w' = base_open_trade wn (ep_prov e) tid)) as Hb.
      { intros ->. exists w0, r1. split; [auto|]. split; [reflexivity|auto]. }
      destruct (pv_kind p); [|apply Hb; congruence|apply Hb; congruence].
      unfold backtest_open_trade in Ep. rewrite Epp in Ep.
      pose proof (keeps_net (ep_prov e) tid ref w0 (opened_trades w0 p)) as K. destruct (forM _ _ _) as [w1 [u|x]]; simpl in K.
      - destruct (w_trades w1 !! tid) as [t1|]; [|injection Ep as <- <-; exists w1, (Err Dangling); auto].
        destruct (tr_oq t1 <=? 0); injection Ep as <- <-; exists w1, (Ok ()); auto.
      - injection Ep as <- <-. exists w1, (Err x); auto. }
    exists wn. auto.
  Qed.

  Lemma wfw_open w eid d q s ref : wfw w -> wfw (fst (epic_open_trade w eid d q s ref)).
  Proof.
    intros W. destruct (epic_open_trade w eid d q s ref) as [w' r] eqn:E. simpl. apply open_inv in E as [[-> _]|(e & t & wn & He & Ho & Hs & K & C)]; [auto|].
    destruct (open_fields _ _ _ _ _ _ _ Ho) as (d' & _ & E1 & E2 & _).
    assert (wfw (upd_trades w (w_trades w ++ [t]))) as W0 by (apply wfw_append; auto; rewrite ?E1, ?E2; eauto).
    pose proof (wfw_keeps _ _ K W0) as Wn. destruct C as [->| ->]; [auto|].
    assert (w_trades (upd_trades w (w_trades w ++ [t])) !! length (w_trades w) = Some t) as Ht by (simpl; now apply list_lookup_middle).
    destruct (keeps_t _ _ _ _ K Ht) as (t' & Ht' & F1 & _).
    destruct (keeps_e _ _ eid e K He) as (e' & He' & _ & E3 & _).
    eapply wfw_register; eauto.
    - rewrite F1, E1. exact He'.
    - intros pid i Hr. apply (keeps_registered _ _ _ _ (keeps_sym _ _ K)) in Hr. eapply (registered_lt w); eauto.
  Qed.

  (** ** Reachable states are well formed *)
  Lemma wfw_empty : wfw empty_world.
  Proof. constructor; intros ? ? E; simpl in E; rewrite lookup_nil in E; discriminate. Qed.
  Lemma dict_set_elem {V} (d : dict V) k v x : x ∈ dict_set d k v -> x ∈ d \/ x = (k, v).
  Proof.
    induction d as [|[k' v'] d IH]; simpl; [intros Hx; apply elem_of_list_singleton in Hx; auto|].
    destruct (String.eqb_spec k' k) as [->|Hne]; intros Hx; apply elem_of_cons in Hx as [->|Hx].
    - now right.
    - left. now right.
    - left. left.
    - destruct (IH Hx) as [?| ->]; [left; now right|now right].
  Qed.
  Lemma insert_lookup_some {A} (l : list A) i x y j : l !! i = Some x ->
    <[i:=y]> l !! j = (if decide (j = i) then Some y else l !! j).
  Proof.
    intros Hi. destruct (decide (j = i)) as [->|Hne]; [apply list_lookup_insert; eapply lookup_lt_Some; eauto|apply list_lookup_insert_ne; congruence].
  Qed.

  Lemma wfg_setup {Pl : list nat -> Prop} pr w o : Pl [] -> wfg Pl w -> setup o -> wfg Pl (fst (step pr w o)).
  Proof.
    intros Hnil W Ho. pose proof W as [W1 W2 W3 W4].
    destruct o as [k|ref|u q ref m|ref tz op cl ds hs pv|eid fid|eid sid|fid i|e tk|c]; simpl in Ho; try contradiction; simpl.
    - constructor; simpl; auto.
      + intros pid p Hp. apply lookup_app_Some in Hp as [Hp|[_ Hp]]; [auto|]. apply list_lookup_singleton_Some in Hp as [_ <-].
        simpl. split; [exact Hnil|]. intros i Hi. inversion Hi.
      + intros sid s Hs. destruct (W2 _ _ Hs) as [S1 S2]. split; auto. intros i. rewrite S2. split; intros [Hx (pid & p & Hp & Hi)]; (split; [auto|]; exists pid, p; split; auto).
        * now apply lookup_app_l_Some.
        * simpl in Hp. apply lookup_app_Some in Hp as [Hp|[_ Hp]]; [auto|]. apply list_lookup_singleton_Some in Hp as [_ <-]. inversion Hi.
      + intros eid e He. destruct (W4 _ _ He) as ((p & Hp) & S2 & S3). split; auto. exists p. now apply lookup_app_l_Some.
    - constructor; simpl; auto.
      + intros sid s Hs. apply lookup_app_Some in Hs as [Hs|[Hle Hs]]; [now apply W2|]. apply list_lookup_singleton_Some in Hs as [Es <-]. simpl.
        split; [exact Hnil|]. intros i. split; [intros Hi; inversion Hi|]. intros [(t & Ht & Et) _]. destruct (W3 _ _ Ht) as [_ S2].
        destruct (S2 _ Et) as (s0 & Hs0). apply lookup_lt_Some in Hs0. lia.
      + intros i t Ht. destruct (W3 _ _ Ht) as [S1 S2]. split; auto. intros sid Es. destruct (S2 _ Es) as (s & Hs). exists s. now apply lookup_app_l_Some.
      + intros eid e He. destruct (W4 _ _ He) as (S1 & S2 & S3). split; [|split]; auto. intros x Hx. destruct (S3 x Hx) as (s & Hs). exists s. now apply lookup_app_l_Some.
    - destruct (fset_init u q ref m) as [fs|x]; [|auto]. constructor; simpl; auto.
      intros eid e He. destruct (W4 _ _ He) as (S1 & S2 & S3). split; [|split]; auto. intros x Hx. destruct (S2 x Hx) as (s & Hs). exists s. now apply lookup_app_l_Some.
    - unfold new_epic. destruct tz as [z|]; [|auto]. destruct (valid_id (w_provs w) pv) eqn:Ev; [|auto]. cbv zeta.
      set (pp := match pv with Some p => (w_provs w, p) | None => _ end).
      assert (exists extra, fst pp = w_provs w ++ extra /\ Forall (fun p => pv_trades p = []) extra /\ (snd pp < length (fst pp))%nat) as (extra & Ex & Hex & Hlt).
      { destruct pv as [p|]; simpl in *.
        - exists []. rewrite app_nil_r. split; [auto|]. split; [first [exact Hnil|constructor]|]. now apply bool_decide_eq_true in Ev.
        - eexists. split; [reflexivity|]. split; [repeat constructor|]. rewrite app_length. simpl. lia. }
      destruct pp as [provs pid]. simpl in *. subst provs.
      constructor; simpl; auto.
      + intros pid' p Hp. apply lookup_app_Some in Hp as [Hp|[_ Hp]].
        * destruct (W1 _ _ Hp) as [S1 S2]. split; auto. intros i Hi. destruct (S2 i Hi) as (t & e & Ht & He & Ee). exists t, e. split; [auto|]. split; [now apply lookup_app_l_Some|auto].
        * assert (pv_trades p = []) as -> by (eapply (proj1 (Forall_lookup _ _)) in Hex; eauto). split; [first [exact Hnil|constructor]|]. intros i Hi. inversion Hi.
      + intros sid s Hs. destruct (W2 _ _ Hs) as [S1 S2]. split; auto. intros i. rewrite S2. split; intros [Hx (pid' & p & Hp & Hi)]; (split; [auto|]; exists pid', p; split; auto).
        * now apply lookup_app_l_Some.
        * simpl in Hp. apply lookup_app_Some in Hp as [Hp|[_ Hp]]; [auto|].
          assert (pv_trades p = []) as E by (eapply (proj1 (Forall_lookup _ _)) in Hex; eauto). rewrite E in Hi. inversion Hi.
      + intros i t Ht. destruct (W3 _ _ Ht) as [(e & He) S2]. split; auto. exists e. now apply lookup_app_l_Some.
      + intros eid e He. apply lookup_app_Some in He as [He|[_ He]].
        * destruct (W4 _ _ He) as ((p & Hp) & S2 & S3). split; auto. exists p. now apply lookup_app_l_Some.
        * apply list_lookup_singleton_Some in He as [_ <-]. simpl. split; [now apply lookup_lt_is_Some_2|]. split; intros x Hx; inversion Hx.
    - unfold add_frame_set. destruct (w_epics w !! eid) as [e|] eqn:Ee; [|auto]. destruct (w_fsets w !! fid) as [fs|] eqn:Ef; [|auto].
      destruct (dict_get _ _); [auto|]. simpl.
      assert (forall k e', <[eid:=ep_set_fsets e (dict_set (ep_fsets e) (fs_ref fs) fid)]> (w_epics w) !! k = Some e' ->
        exists e0, w_epics w !! k = Some e0 /\ ep_prov e' = ep_prov e0 /\ ep_strats e' = ep_strats e0 /\
          forall x, x ∈ ep_fsets e' -> x ∈ ep_fsets e0 \/ x.2 = fid) as Hback.
      { intros k e'. rewrite (insert_lookup_some _ _ _ _ _ Ee). destruct (decide (k = eid)) as [->|Hne].
        - intros E. injection E as <-. exists e. split; [auto|]. split; [auto|]. split; [auto|]. intros x Hx. apply dict_set_elem in Hx as [?| ->]; auto.
        - intros E. exists e'. auto. }
      assert (forall k e0, w_epics w !! k = Some e0 -> exists e', <[eid:=ep_set_fsets e (dict_set (ep_fsets e) (fs_ref fs) fid)]> (w_epics w) !! k = Some e' /\ ep_prov e' = ep_prov e0) as Hfwd.
      { intros k e0 E0. rewrite (insert_lookup_some _ _ _ _ _ Ee). destruct (decide (k = eid)) as [->|Hne]; [|eauto].
        eexists. split; [reflexivity|]. simpl. congruence. }
      constructor; simpl; auto.
      + intros pid p Hp. destruct (W1 _ _ Hp) as [S1 S2]. split; auto. intros i Hi. destruct (S2 i Hi) as (t & e0 & Ht & He0 & E0).
        destruct (Hfwd _ _ He0) as (e' & He' & E'). exists t, e'. split; [auto|]. split; [auto|congruence].
      + intros i t Ht. destruct (W3 _ _ Ht) as [(e0 & He0) S2]. split; auto. destruct (Hfwd _ _ He0) as (e' & He' & _). eauto.
      + intros k e' He'. destruct (Hback _ _ He') as (e0 & He0 & E1 & E2 & E3). destruct (W4 _ _ He0) as (S1 & S2 & S3). rewrite E1, E2.
        split; [auto|]. split; [|auto]. intros x Hx. apply lookup_lt_is_Some_2. rewrite insert_length. destruct (E3 x Hx) as [Hx'| ->].
        * destruct (S2 x Hx') as (f & Hf). eapply lookup_lt_Some; eauto.
        * eapply lookup_lt_Some; eauto.
    - unfold add_strategy. destruct (w_epics w !! eid) as [e|] eqn:Ee; [|auto]. destruct (w_strats w !! sid) as [s|] eqn:Es; [|auto].
      destruct (dict_get _ _); [auto|]. simpl.
      assert (forall k e', <[eid:=ep_set_strats e (dict_set (ep_strats e) (st_ref s) sid)]> (w_epics w) !! k = Some e' ->
        exists e0, w_epics w !! k = Some e0 /\ ep_prov e' = ep_prov e0 /\ ep_fsets e' = ep_fsets e0 /\
          forall x, x ∈ ep_strats e' -> x ∈ ep_strats e0 \/ x.2 = sid) as Hback.
      { intros k e'. rewrite (insert_lookup_some _ _ _ _ _ Ee). destruct (decide (k = eid)) as [->|Hne].
        - intros E. injection E as <-. exists e. split; [auto|]. split; [auto|]. split; [auto|]. intros x Hx. apply dict_set_elem in Hx as [?| ->]; auto.
        - intros E. exists e'. auto. }
      assert (forall k e0, w_epics w !! k = Some e0 -> exists e', <[eid:=ep_set_strats e (dict_set (ep_strats e) (st_ref s) sid)]> (w_epics w) !! k = Some e' /\ ep_prov e' = ep_prov e0) as Hfwd.
      { intros k e0 E0. rewrite (insert_lookup_some _ _ _ _ _ Ee). destruct (decide (k = eid)) as [->|Hne]; [|eauto].
        eexists. split; [reflexivity|]. simpl. congruence. }
      assert (forall k, is_Some (w_strats w !! k) -> is_Some (<[sid:=st_set_epics s (dict_set (st_epics s) (ep_ref e) eid)]> (w_strats w) !! k)) as Hsf.
      { intros k Hk. apply lookup_lt_is_Some. rewrite insert_length. now apply lookup_lt_is_Some. }
      constructor; simpl; auto.
      + intros pid p Hp. destruct (W1 _ _ Hp) as [S1 S2]. split; auto. intros i Hi. destruct (S2 i Hi) as (t & e0 & Ht & He0 & E0).
        destruct (Hfwd _ _ He0) as (e' & He' & E'). exists t, e'. split; [auto|]. split; [auto|congruence].
      + intros k s'. rewrite (insert_lookup_some _ _ _ _ _ Es). destruct (decide (k = sid)) as [->|Hne].
        * intros E. injection E as <-. simpl. now apply W2.
        * apply W2.
      + intros i t Ht. destruct (W3 _ _ Ht) as [(e0 & He0) S2]. split.
        * destruct (Hfwd _ _ He0) as (e' & He' & _). eauto.
        * intros k Ek. destruct (S2 k Ek) as (x & Hx). apply Hsf. eauto.
      + intros k e' He'. destruct (Hback _ _ He') as (e0 & He0 & E1 & E2 & E3). destruct (W4 _ _ He0) as (S1 & S2 & S3). rewrite E1, E2.
        split; [auto|]. split; [auto|]. intros x Hx. apply Hsf. destruct (E3 x Hx) as [Hx'| ->]; [apply S3; exact Hx'|eauto].
    - destruct (w_fsets w !! fid) as [fs|] eqn:Ef; [|auto]. destruct (add_indicator fs i) as [fs' r]. simpl.
      eapply wfw_keeps; [|exact W]. apply keeps_fsets. apply insert_length.
  Qed.

  Lemma wfw_setup pr w o : wfw w -> setup o -> wfw (fst (step pr w o)).
  Proof. apply wfg_setup. constructor. Qed.

  Lemma keeps_accept w eid e tk b : w_epics w !! eid = Some e -> keeps w (upd_epics w (<[eid := ep_set_last e tk b]> (w_epics w))).
  Proof. intros He. constructor; auto. simpl. eapply fmap_insert_same; eauto. Qed.
  Lemma keeps_fset w tk x : keeps w (fst (update_frame_set tk w x)).
  Proof.
    unfold update_frame_set. destruct (w_fsets w !! x.2) as [fs|]; [|reflexivity]. destruct (fs_epic_state w fs) as [mo lst].
    destruct (fs_on_new_tick _ _ _ _ _) as [fs' r]. simpl. apply keeps_fsets, insert_length.
  Qed.
  Lemma keeps_active w sid s d : w_strats w !! sid = Some s -> keeps w (upd_strats w (<[sid := fst (is_active s d)]> (w_strats w))).
  Proof.
    intros Hs. constructor; auto. simpl. eapply fmap_insert_same; eauto. unfold is_active. destruct (st_stopped s); [auto|].
    destruct (st_paused s); [|auto]. destruct (arrow_ltb _ _); auto.
  Qed.

  Lemma reach_wf P w : reach P w -> wfw w.
  Proof.
    intros Hr. induction Hr as [|w c Hr IH Hc|pr w o Hr IH Ho|w eid e tk Hr IH He Ha|w eid e x Hr IH He Hx|w eid e Hr IH He|w sid s d Hr IH Hs|w l Hr IH].
    - apply wfw_empty.
    - destruct (is_open_call c) eqn:Eo; [|eapply wfw_keeps; [now apply keeps_cmd|auto]].
      destruct c as [e d q s ref| | | | | | | | | | ]; try discriminate. simpl. pose proof (wfw_open w e d q s ref IH) as W. now destruct (epic_open_trade w e d q s ref).
    - now apply wfw_setup.
    - eapply wfw_keeps; [now apply keeps_accept|auto].
    - eapply wfw_keeps; [apply keeps_fset|auto].
    - eapply wfw_keeps; [apply keeps_value|auto].
    - eapply wfw_keeps; [now apply keeps_active|auto].
    - eapply wfw_keeps; [apply keeps_log|auto].
  Qed.
End proofs.
Notation wfw := (wfg increasing).
