(** Two runs side by side (C69, C70). *)
From Verif Require Export SpecBlind EpicProofs.
Open Scope Z_scope.

Section sim.
  Context {F : Type} `{Num F}.
  Implicit Types (w : world F).

  (** A correspondence of prices, ticks and trades that the functions of trade.py preserve. *)
  Record sim := {
    Rv : F -> F -> Prop; Rk : tick F -> tick F -> Prop; Rt : trade F -> trade F -> Prop; Sg : dir -> dir; Sn : Z; Sq : tick F -> Prop;
    s_g : forall a b, dir_eqb (Sg a) (dir_opp (Sg b)) = dir_eqb a (dir_opp b);
    s_n : 0 < Sn;
    k_dt : forall a b, Rk a b -> tk_dt b = tk_dt a;
    k_to : forall a b z, Rk a b -> Rk (tick_to z a) (tick_to z b);
    k_q : forall a b, Rk a b -> Sq a;
    q_fake : Sq fake_tick -> Rk fake_tick fake_tick;
    t_epic : forall t t', Rt t t' -> tr_epic t' = tr_epic t;
    t_strat : forall t t', Rt t t' -> tr_strat t' = tr_strat t;
    t_dir : forall t t', Rt t t' -> tr_dir t' = Sg (tr_dir t);
    t_oq : forall t t', Rt t t' -> tr_oq t' = Sn * tr_oq t;
    t_opened : forall t t', Rt t t' -> opened_quantities t' = Sn * opened_quantities t;
    t_len : forall t t', Rt t t' -> length (tr_closes t') = length (tr_closes t);
    t_open : forall tk tk' d e q s ref t, Rk tk tk' -> open_from_tick tk e (Dir d) q s ref = Ok t ->
      exists t', open_from_tick tk' e (Dir (Sg d)) (Sn * q) s ref = Ok t' /\ Rt t t';
    t_upd : forall t t' (v v' : F), Rt t t' -> Rv v v' -> Rt (update t v) (update t' v');
    t_updk : forall t t' tk tk', Rt t t' -> Rk tk tk' -> Rt (update_from_tick t tk) (update_from_tick t' tk');
    t_close : forall t t' (v v' : F) d q ref, Rt t t' -> Rv v v' ->
      match close t v d q ref, close t' v' d (Z.mul Sn <$> q) ref with Ok (a, _), Ok (b, _) => Rt a b | Err x, Err y => x = y | _, _ => False end;
    t_closek : forall t t' tk tk' q ref, Rt t t' -> Rk tk tk' ->
      match close_from_tick t tk q ref, close_from_tick t' tk' (Z.mul Sn <$> q) ref with Ok (a, _), Ok (b, _) => Rt a b | Err x, Err y => x = y | _, _ => False end;
    t_setoq : forall t t' q, Rt t t' -> Rt (set_oq t q) (set_oq t' (Sn * q));
    t_status : forall t t' s, Rt t t' -> Rt (set_status t s) (set_status t' s);
    t_cstatus : forall t t' s c, Rt t t' ->
      Rt (set_closes t (alter (fun y => set_cstatus y s) c (tr_closes t))) (set_closes t' (alter (fun y => set_cstatus y s) c (tr_closes t'))) }.

  Variable S : sim.
  Record Re (e e' : epic F) : Prop := {
    e_ref : ep_ref e' = ep_ref e; e_tz : ep_tz e' = ep_tz e; e_open : ep_open e' = ep_open e; e_close : ep_close e' = ep_close e;
    e_days : ep_days e' = ep_days e; e_hol : ep_holidays e' = ep_holidays e; e_prov : ep_prov e' = ep_prov e; e_strats : ep_strats e' = ep_strats e;
    e_mopen : ep_mopen e' = ep_mopen e; e_last : Rk S (ep_last e) (ep_last e') \/ ep_last e = fake_tick /\ ep_last e' = fake_tick }.
  Record rel w w' : Prop := {
    r_trades : Forall2 (Rt S) (w_trades w) (w_trades w'); r_provs : w_provs w' = w_provs w; r_strats : w_strats w' = w_strats w;
    r_epics : Forall2 Re (w_epics w) (w_epics w'); r_log : w_log w' = w_log w;
    r_quoted : forall i t, w_trades w !! i = Some t -> exists e e', w_epics w !! tr_epic t = Some e /\ w_epics w' !! tr_epic t = Some e' /\ Rk S (ep_last e) (ep_last e') }.
  (** Corresponding computations. *)
  Definition relr {A} (x y : world F * res A) : Prop := rel x.1 y.1 /\ x.2 = y.2.

  Lemma F2_lookup {A B} (R : A -> B -> Prop) l l' i : Forall2 R l l' -> match l !! i, l' !! i with Some x, Some y => R x y | None, None => True | _, _ => False end.
  Proof. intros Hr. revert i. induction Hr as [|x y l l' Hx Hr IH]; intros [|i]; simpl; auto; apply IH. Qed.
  Lemma F2_alter {A B} (R : A -> B -> Prop) (f : A -> A) (g : B -> B) l l' i : (forall x y, R x y -> R (f x) (g y)) -> Forall2 R l l' -> Forall2 R (alter f i l) (alter g i l').
  Proof. intros Hf Hr. revert i. induction Hr as [|x y l l' Hx Hr IH]; intros [|i]; simpl; constructor; auto. apply IH. Qed.
  Lemma dir_opp_eqb (a b : dir) : dir_eqb a (dir_opp b) = bool_decide (a = other b). Proof. now destruct a, b. Qed.

  Lemma rel_trade w w' i : rel w w' -> match w_trades w !! i, w_trades w' !! i with Some t, Some t' => Rt S t t' | None, None => True | _, _ => False end.
  Proof. intros R. apply F2_lookup. apply r_trades; auto. Qed.
  Lemma rel_epic w w' i : rel w w' -> match w_epics w !! i, w_epics w' !! i with Some e, Some e' => Re e e' | None, None => True | _, _ => False end.
  Proof. intros R. apply F2_lookup. apply r_epics; auto. Qed.
  Lemma rel_len w w' : rel w w' -> length (w_trades w') = length (w_trades w).
  Proof. intros R. symmetry. eapply Forall2_length, r_trades; eauto. Qed.
  Lemma rel_closed t t' : Rt S t t' -> closed t' = closed t.
  Proof.
    intros R. unfold closed. rewrite (t_opened S _ _ R). pose proof (s_n S). destruct (Z.eqb_spec (opened_quantities t) 0) as [E|E].
    - rewrite E. rewrite Z.mul_0_r. reflexivity.
    - apply Z.eqb_neq. intros E1. apply Z.mul_eq_0 in E1. lia.
  Qed.
  Lemma rel_open_b w w' i : rel w w' -> trade_open_b w' i = trade_open_b w i.
  Proof. intros R. unfold trade_open_b. pose proof (rel_trade w w' i R). destruct (w_trades w !! i), (w_trades w' !! i); try easy. f_equal. now apply rel_closed. Qed.
  Lemma rel_opened w w' p : rel w w' -> opened_trades w' p = opened_trades w p.
  Proof. intros R. unfold opened_trades. apply List.filter_ext. intros i. now apply rel_open_b. Qed.

  (** ** Updates *)
  Lemma rel_upd_trades w w' ts ts' : rel w w' -> Forall2 (Rt S) ts ts' ->
    (forall i t, ts !! i = Some t -> exists e e', w_epics w !! tr_epic t = Some e /\ w_epics w' !! tr_epic t = Some e' /\ Rk S (ep_last e) (ep_last e')) ->
    rel (upd_trades w ts) (upd_trades w' ts').
  Proof. intros [] Ht Hq. constructor; auto. Qed.
  Lemma rel_alter w w' i (f g : trade F -> trade F) : rel w w' -> (forall t t', Rt S t t' -> Rt S (f t) (g t')) -> (forall t, tr_epic (f t) = tr_epic t) ->
    rel (upd_trades w (alter f i (w_trades w))) (upd_trades w' (alter g i (w_trades w'))).
  Proof.
    intros R Hf He. apply rel_upd_trades; [auto|apply F2_alter; auto; now apply r_trades|]. intros j t Ht.
    destruct (decide (j = i)) as [->|Hn]; [|rewrite list_lookup_alter_ne in Ht by auto; eapply r_quoted; eauto].
    rewrite list_lookup_alter in Ht. apply fmap_Some in Ht as (t0 & Ht & ->). rewrite He. eapply r_quoted; eauto.
  Qed.
  Lemma rel_insert w w' i t t' : rel w w' -> Rt S t t' -> (exists t0, w_trades w !! i = Some t0 /\ tr_epic t0 = tr_epic t) ->
    rel (upd_trades w (<[i := t]> (w_trades w))) (upd_trades w' (<[i := t']> (w_trades w'))).
  Proof.
    intros R Ht (t0 & H0 & E0). apply rel_upd_trades; [auto|apply Forall2_insert; [now apply r_trades|auto]|]. intros j x Hx.
    destruct (decide (j = i)) as [->|Hn]; [|rewrite list_lookup_insert_ne in Hx by auto; eapply r_quoted; eauto].
    rewrite list_lookup_insert in Hx by (eapply lookup_lt_Some; eauto). injection Hx as <-. rewrite <- E0. eapply r_quoted; eauto.
  Qed.
  Lemma rel_upd_provs w w' ps : rel w w' -> rel (upd_provs w ps) (upd_provs w' ps).
  Proof. intros []. constructor; auto. Qed.
  Lemma rel_upd_strats w w' ss : rel w w' -> rel (upd_strats w ss) (upd_strats w' ss).
  Proof. intros []. constructor; auto. Qed.
  Lemma rel_add_thread w w' p j : rel w w' -> rel (add_thread w p j) (add_thread w' p j).
  Proof. intros R. unfold add_thread. rewrite (r_provs w w' R). now apply rel_upd_provs. Qed.
  Lemma update_epic (t : trade F) v : tr_epic (update t v) = tr_epic t.
  Proof. unfold update, update_min_max. destruct (closed t); [auto|]. cbv zeta. repeat case_match; reflexivity. Qed.
  Lemma updk_epic (t : trade F) tk : tr_epic (update_from_tick t tk) = tr_epic t. Proof. apply update_epic. Qed.
  Lemma close_epic (t : trade F) v d q ref t' c : close t v d q ref = Ok (t', c) -> tr_epic t' = tr_epic t.
  Proof. unfold close. destruct (timed_set d); [|discriminate]. intros E. injection E as <- _. reflexivity. Qed.
  Lemma closek_epic (t : trade F) tk q ref t' c : close_from_tick t tk q ref = Ok (t', c) -> tr_epic t' = tr_epic t.
  Proof. intros E. apply close_epic in E. now rewrite E, updk_epic. Qed.

  (** ** Closing *)
  Definition relx {A} (x y : res (world F * A)) : Prop := match x, y with Ok (a, i), Ok (b, j) => rel a b /\ i = j | Err e, Err e' => e = e' | _, _ => False end.
  Lemma rel_close_from_epic w w' tid q ref : rel w w' -> relx (close_from_epic w tid q ref) (close_from_epic w' tid (Z.mul (Sn S) <$> q) ref).
  Proof.
    intros R. unfold close_from_epic. pose proof (rel_trade w w' tid R) as Ht. destruct (w_trades w !! tid) as [t|] eqn:Et, (w_trades w' !! tid) as [t'|] eqn:Et'; try easy.
    destruct (r_quoted w w' R tid t Et) as (e & e' & He & He' & Hk). rewrite (t_epic S _ _ Ht), He, He'.
    pose proof (t_closek S t t' _ _ q ref Ht Hk) as Hc. destruct (close_from_tick t (ep_last e) q ref) as [[a ca]|x] eqn:Ea, (close_from_tick t' (ep_last e') _ ref) as [[b cb]|y]; try easy.
    simpl. split; [|symmetry; now apply (t_len S)]. apply rel_insert; auto. exists t. split; [auto|]. symmetry. now apply closek_epic in Ea.
  Qed.
  Lemma rel_epic_close w w' eid tid q ref : rel w w' -> relr (epic_close_trade w eid tid q ref) (epic_close_trade w' eid tid (Z.mul (Sn S) <$> q) ref).
  Proof.
    intros R. unfold epic_close_trade. pose proof (rel_epic w w' eid R) as He. destruct (w_epics w !! eid) as [e|], (w_epics w' !! eid) as [e'|]; try easy.
    pose proof (rel_close_from_epic w w' tid q ref R) as Hc. destruct (close_from_epic w tid q ref) as [[a i]|x], (close_from_epic w' tid _ ref) as [[b j]|y]; try easy.
    - destruct Hc as [Ra <-]. rewrite (e_prov _ _ He). split; [now apply rel_add_thread|auto].
    - simpl in Hc. subst y. now split.
  Qed.
  Lemma rel_strategy_close w w' tid q ref : rel w w' -> relr (strategy_close_trade w tid q ref) (strategy_close_trade w' tid (Z.mul (Sn S) <$> q) ref).
  Proof.
    intros R. unfold strategy_close_trade. pose proof (rel_trade w w' tid R) as Ht. destruct (w_trades w !! tid) as [t|], (w_trades w' !! tid) as [t'|]; try easy.
    rewrite (t_epic S _ _ Ht). now apply rel_epic_close.
  Qed.
  Lemma rel_forM {A} (f g : world F -> A -> world F * res unit) l w w' : (forall x w w', x ∈ l -> rel w w' -> relr (f w x) (g w' x)) -> rel w w' -> relr (forM f w l) (forM g w' l).
  Proof.
    revert w w'. induction l as [|x l IH]; intros w w' Hf R; simpl; [now split|]. pose proof (Hf x w w' (elem_of_list_here _ _) R) as [R1 E1].
    destruct (f w x) as [w1 r1], (g w' x) as [w1' r1']. simpl in R1, E1. subst r1'. destruct r1; [|now split]. apply IH; auto. intros y v v' Hy. apply Hf. now apply elem_of_list_further.
  Qed.
  Lemma rel_andthen (x y : world F * res unit) f g : relr x y -> (forall w w', rel w w' -> relr (f w) (g w')) -> relr (andthen x f) (andthen y g).
  Proof. destruct x as [w [u|e]], y as [w' r']; intros [R E] Hf; simpl in *; subst r'; simpl; [now apply Hf|now split]. Qed.

  (** ** Opening *)
  Lemma rel_base_open w w' pid tid : rel w w' -> rel (base_open_trade w pid tid) (base_open_trade w' pid tid).
  Proof.
    intros R. unfold base_open_trade. pose proof (rel_trade w w' tid R) as Ht. destruct (w_trades w !! tid) as [t|], (w_trades w' !! tid) as [t'|]; try easy.
    cbv zeta. apply rel_add_thread. rewrite (t_strat S _ _ Ht), (r_provs w w' R).
    destruct (tr_strat t) as [s|]; [|now apply rel_upd_provs]. cbn [upd_provs w_strats]. rewrite (r_strats w w' R). now apply rel_upd_strats, rel_upd_provs.
  Qed.
  Lemma rel_net_step pid tid ref w w' oid : rel w w' -> relr (net_step pid tid ref w oid) (net_step pid tid ref w' oid).
  Proof.
    intros R. unfold net_step. pose proof (rel_trade w w' tid R) as Ht. pose proof (rel_trade w w' oid R) as Ho.
    destruct (w_trades w !! tid) as [t|], (w_trades w' !! tid) as [t'|]; try easy. destruct (w_trades w !! oid) as [o|], (w_trades w' !! oid) as [o'|]; try easy.
    rewrite (t_dir S _ _ Ht), (t_dir S _ _ Ho), (s_g S). destruct (dir_eqb _ _); [|now split]. rewrite (t_strat S _ _ Ht), (t_strat S _ _ Ho).
    destruct (bool_decide _); [|now split]. cbv zeta. rewrite (t_opened S _ _ Ho), (t_oq S _ _ Ht).
    pose proof (s_n S) as Hn. rewrite Z.mul_min_distr_nonneg_l by lia. set (qc := Z.min _ _).
    pose proof (rel_close_from_epic w w' oid (Some qc) ref R) as Hc. cbn [fmap option_fmap option_map] in Hc.
    destruct (close_from_epic w oid (Some qc) ref) as [[a i]|x], (close_from_epic w' oid _ ref) as [[b j]|y]; try easy.
    - destruct Hc as [Ra <-]. unfold provider_close_trade. split; [|auto]. simpl. apply (rel_alter (add_thread a pid (JClose oid i)) (add_thread b pid (JClose oid i))); [now apply rel_add_thread| |auto].
      intros x x' Hx. rewrite (t_oq S _ _ Hx). replace (Sn S * tr_oq x - Sn S * qc) with (Sn S * (tr_oq x - qc)) by ring. now apply (t_setoq S).
    - simpl in Hc. subst y. now split.
  Qed.
  Lemma rel_provider_open w w' pid tid ref : rel w w' -> relr (provider_open_trade w pid tid ref) (provider_open_trade w' pid tid ref).
  Proof.
    intros R. unfold provider_open_trade. rewrite (r_provs w w' R). destruct (w_provs w !! pid) as [p|] eqn:Ep; [|now split].
    destruct (pv_kind p); [|split; [now apply rel_base_open|auto]|split; [now apply rel_base_open|auto]].
    unfold backtest_open_trade. rewrite (r_provs w w' R), Ep, (rel_opened w w' p R).
    pose proof (rel_forM (net_step pid tid ref) (net_step pid tid ref) (opened_trades w p) w w' ltac:(intros; now apply rel_net_step) R) as [R1 E1].
    destruct (forM _ w _) as [w1 r1], (forM _ w' _) as [w1' r1']. simpl in R1, E1. subst r1'. destruct r1; [|now split].
    pose proof (rel_trade w1 w1' tid R1) as Ht. destruct (w_trades w1 !! tid) as [t|], (w_trades w1' !! tid) as [t'|]; try easy. rewrite (t_oq S _ _ Ht).
    pose proof (s_n S) as Hn. assert ((Sn S * tr_oq t <=? 0) = (tr_oq t <=? 0)) as ->; [|destruct (tr_oq t <=? 0); split; auto; now apply rel_base_open].
    destruct (Z.leb_spec (tr_oq t) 0); [apply Z.leb_le; nia|apply Z.leb_gt; nia].
  Qed.
  Definition Sd (d : dirarg) : dirarg := match d with Dir d => Dir (Sg S d) | BadDir => BadDir end.
  Lemma rel_epic_open w w' eid d q s ref : rel w w' -> (forall e, w_epics w !! eid = Some e -> Sq S (ep_last e)) ->
    relr (epic_open_trade w eid d q s ref) (epic_open_trade w' eid (Sd d) (Sn S * q) s ref).
  Proof.
    intros R Hq. unfold epic_open_trade. rewrite (r_strats w w' R). pose proof (rel_epic w w' eid R) as He.
    destruct (w_epics w !! eid) as [e|] eqn:Ee, (w_epics w' !! eid) as [e'|] eqn:Ee'; try easy. specialize (Hq e eq_refl).
    destruct (valid_id (w_strats w) s); [|now split]. destruct d as [d|]; [|now split].
    assert (Rk S (ep_last e) (ep_last e')) as Hk. { destruct (e_last _ _ He) as [Hk|[E1 E2]]; [auto|]. rewrite E1, E2. rewrite E1 in Hq. now apply q_fake. }
    destruct (open_from_tick (ep_last e) eid (Dir d) q s ref) as [t|x] eqn:Et; [|destruct d; discriminate].
    destruct (t_open S _ _ _ _ _ _ _ _ Hk Et) as (t' & Et' & Ht). cbn [Sd]. rewrite Et'. cbv zeta. rewrite (rel_len w w' R), (e_prov _ _ He).
    assert (rel (upd_trades w (w_trades w ++ [t])) (upd_trades w' (w_trades w' ++ [t']))) as R1.
    { apply rel_upd_trades; [auto|apply Forall2_app; [now apply r_trades|now constructor]|]. intros i x Hx. apply lookup_app_Some in Hx as [Hx|[_ Hx]]; [eapply r_quoted; eauto|].
      destruct (i - _)%nat; [|discriminate]. injection Hx as <-. exists e, e'. assert (tr_epic t = eid) as -> by (destruct d; simpl in Et; injection Et as <-; reflexivity). auto. }
    pose proof (rel_provider_open _ _ (ep_prov e) (length (w_trades w)) ref R1) as [R2 E2].
    destruct (provider_open_trade _ _ _ _) as [v r], (provider_open_trade (upd_trades w' _) _ _ _) as [v' r']. simpl in R2, E2. subst r'. destruct r; now split.
  Qed.
  Lemma rel_run_thread w w' p k : rel w w' -> rel (run_thread w p k) (run_thread w' p k).
  Proof.
    intros R. unfold run_thread. rewrite (r_provs w w' R). destruct (w_provs w !! p) as [x|]; [|auto]. destruct (pv_threads x !! k) as [th|]; [|auto].
    destruct (th_done th); [auto|]. apply rel_upd_provs.
    assert (forall s i, rel (upd_trades w (alter (fun x => set_status x s) i (w_trades w))) (upd_trades w' (alter (fun x => set_status x s) i (w_trades w')))) as H1.
    { intros s i. apply rel_alter; auto. intros. now apply (t_status S). }
    assert (forall s c i, rel (upd_trades w (alter (fun x => set_closes x (alter (fun y => set_cstatus y s) c (tr_closes x))) i (w_trades w)))
      (upd_trades w' (alter (fun x => set_closes x (alter (fun y => set_cstatus y s) c (tr_closes x))) i (w_trades w')))) as H2.
    { intros s c i. apply rel_alter; auto. intros. now apply (t_cstatus S). }
    unfold job_effect. destruct (pv_kind x), (th_job th); auto. all: destruct w, w'; exact R.
  Qed.

  (** ** Calls *)
  Inductive Rc : cmd F -> cmd F -> Prop :=
    | rc_open e d q s ref : Rc (COpen e d q s ref) (COpen e (Sd d) (Sn S * q) s ref)
    | rc_close t q ref : Rc (CClose t q ref) (CClose t (Z.mul (Sn S) <$> q) ref)
    | rc_eclose e t q ref : Rc (CEpicClose e t q ref) (CEpicClose e t (Z.mul (Sn S) <$> q) ref)
    | rc_all s q ref : Rc (CCloseAll s q ref) (CCloseAll s (Z.mul (Sn S) <$> q) ref)
    | rc_update t v v' : Rv S v v' -> Rc (CTradeUpdate t v) (CTradeUpdate t v')
    | rc_uepic t : Rc (CTradeUpdateEpic t) (CTradeUpdateEpic t)
    | rc_tclose t v v' d q ref : Rv S v v' -> Rc (CTradeClose t v d q ref) (CTradeClose t v' d (Z.mul (Sn S) <$> q) ref)
    | rc_cepic t q ref : Rc (CTradeCloseEpic t q ref) (CTradeCloseEpic t (Z.mul (Sn S) <$> q) ref)
    | rc_pause s p : Rc (CPause s p) (CPause s p)
    | rc_stop s b : Rc (CStop s b) (CStop s b)
    | rc_run p k : Rc (CRun p k) (CRun p k).
  Definition quoted w eid : Prop := forall e, w_epics w !! eid = Some e -> Sq S (ep_last e).
  Definition Rcq w (c c' : cmd F) : Prop := Rc c c' /\ match c with COpen eid _ _ _ _ => quoted w eid | _ => True end.
  Lemma rel_cmd w w' c c' : rel w w' -> Rcq w c c' -> relr (run_cmd w c) (run_cmd w' c').
  Proof.
    intros R [Hc Hq]. destruct Hc as [e d q s ref|t q ref|e t q ref|s q ref|t v v' Hv|t|t v v' d q ref Hv|t q ref|s p|s b|p k]; cbn [run_cmd].
    - pose proof (rel_epic_open w w' e d q s ref R Hq) as [R1 E1]. destruct (epic_open_trade w e d q s ref), (epic_open_trade w' e (Sd d) _ s ref). simpl in *. subst. now split.
    - now apply rel_strategy_close.
    - now apply rel_epic_close.
    - unfold close_opened_trades. rewrite (r_strats w w' R). destruct (w_strats w !! s) as [x|]; [|now split]. apply rel_forM; [|auto]. intros i v v' _ Rv1.
      unfold close_opened_step. rewrite (rel_open_b v v' i Rv1). destruct (trade_open_b v i); [now apply rel_strategy_close|now split].
    - split; [|auto]. apply rel_alter; [auto| |intros; apply update_epic]. intros. now apply (t_upd S).
    - pose proof (rel_trade w w' t R) as Ht. destruct (w_trades w !! t) as [x|] eqn:Ex, (w_trades w' !! t) as [x'|] eqn:Ex'; try easy.
      destruct (r_quoted w w' R t x Ex) as (e & e' & He & He' & Hk). rewrite (t_epic S _ _ Ht), He, He'. split; [|auto]. apply rel_insert; [auto|now apply (t_updk S)|].
      exists x. split; [auto|]. symmetry. apply updk_epic.
    - pose proof (rel_trade w w' t R) as Ht. destruct (w_trades w !! t) as [x|] eqn:Ex, (w_trades w' !! t) as [x'|] eqn:Ex'; try easy.
      pose proof (t_close S x x' v v' d q ref Ht Hv) as Hc. destruct (close x v d q ref) as [[a ca]|y] eqn:Ea, (close x' v' d _ ref) as [[b cb]|z]; try easy; [|subst; now split].
      split; [|auto]. apply rel_insert; [auto|auto|]. exists x. split; [auto|]. symmetry. now apply close_epic in Ea.
    - pose proof (rel_close_from_epic w w' t q ref R) as Hc. destruct (close_from_epic w t q ref) as [[a i]|x], (close_from_epic w' t _ ref) as [[b j]|y]; try easy; [|simpl in Hc; subst; now split].
      destruct Hc as [Ra _]. now split.
    - rewrite (r_strats w w' R). split; [now apply rel_upd_strats|auto].
    - rewrite (r_strats w w' R). split; [now apply rel_upd_strats|auto].
    - split; [now apply rel_run_thread|auto].
  Qed.
  Lemma rel_script w w' s s' : alongside rel Rcq w w' s s' -> rel w w' -> relr (run_script w s) (run_script w' s').
  Proof.
    intros Hs. induction Hs as [w w'|w w' e|w w' c c' k k' v v' r r' Hc E E' _ IH]; intros R; [now split|now split|]. cbn [run_script].
    pose proof (rel_cmd w w' c c' R Hc) as [R1 E1]. rewrite E, E' in *. simpl in R1, E1. subst r'. now apply IH.
  Qed.

  (** ** Strategies and ticks *)
  Definition like (pr pr' : programs F) : Prop := forall sid cb eid w w', rel w w' -> quoted w eid ->
    alongside rel Rcq (at_callback w sid cb eid) (at_callback w' sid cb eid) (pr sid cb eid w) (pr' sid cb eid w').
  (** Corresponding computations that keep a property of the first state. *)
  Definition relj (J : world F -> Prop) (x y : world F * res unit) : Prop := relr x y /\ J x.1.
  Lemma relj_forM {A} (J : world F -> Prop) (f g : world F -> A -> world F * res unit) l w w' : (forall x w w', x ∈ l -> rel w w' -> J w -> relj J (f w x) (g w' x)) -> rel w w' -> J w -> relj J (forM f w l) (forM g w' l).
  Proof.
    revert w w'. induction l as [|x l IH]; intros w w' Hf R Hj; simpl; [now split|]. pose proof (Hf x w w' (elem_of_list_here _ _) R Hj) as [[R1 E1] J1].
    destruct (f w x) as [w1 r1], (g w' x) as [w1' r1']. simpl in R1, E1, J1. subst r1'. destruct r1; [|now split]. apply IH; auto. intros y v v' Hy. apply Hf. now apply elem_of_list_further.
  Qed.
  Lemma relj_andthen (J : world F -> Prop) (x y : world F * res unit) f g : relj J x y -> (forall w w', rel w w' -> J w -> relj J (f w) (g w')) -> relj J (andthen x f) (andthen y g).
  Proof. destruct x as [w [u|e]], y as [w' r']; intros [[R E] Hj] Hf; simpl in *; subst r'; simpl; [now apply Hf|now split]. Qed.
  Lemma script_epics w s : w_epics (fst (run_script w s)) = w_epics w.
  Proof.
    revert w. induction s as [|e|c k IH]; intros w; [auto|auto|]. cbn [run_script]. pose proof (cmd_rest w c) as E. destruct (run_cmd w c) as [v r]. rewrite IH.
    apply (f_equal (fun x => fst (fst x))) in E. exact E.
  Qed.
  Lemma rel_log w w' l : rel w w' -> rel (upd_log w l) (upd_log w' l).
  Proof. intros []. constructor; auto. Qed.
  Lemma rel_callback pr pr' sid cb eid w w' : like pr pr' -> rel w w' -> quoted w eid -> relj (fun v => quoted v eid) (run_callback pr sid cb eid w) (run_callback pr' sid cb eid w').
  Proof.
    intros Hp R Hq. split.
    - unfold run_callback. cbv zeta. apply (rel_script (at_callback w sid cb eid) (at_callback w' sid cb eid)); [now apply Hp|]. unfold at_callback. rewrite (r_log w w' R). now apply rel_log.
    - unfold run_callback, quoted. cbv zeta. rewrite script_epics. exact Hq.
  Qed.
  Lemma rel_strategy pr pr' eid mo x w w' : like pr pr' -> rel w w' -> quoted w eid -> relj (fun v => quoted v eid) (execute_strategy pr eid mo w x) (execute_strategy pr' eid mo w' x).
  Proof.
    intros Hp R Hq. unfold execute_strategy. rewrite (r_strats w w' R). destruct (w_strats w !! x.2) as [s|]; [|now split].
    pose proof (rel_epic w w' eid R) as He. destruct (w_epics w !! eid) as [e|] eqn:Ee, (w_epics w' !! eid) as [e'|]; try easy. rewrite (e_mopen _ _ He).
    assert (tk_dt (ep_last e') = tk_dt (ep_last e)) as -> by (destruct (e_last _ _ He) as [Hk|[-> ->]]; [now apply (k_dt S)|auto]).
    destruct (is_active s (tk_dt (ep_last e))) as [s' act].
    assert (rel (upd_strats w (<[x.2:=s']> (w_strats w))) (upd_strats w' (<[x.2:=s']> (w_strats w)))) as R1 by now apply rel_upd_strats.
    destruct act; [|now split]. apply relj_andthen.
    - destruct (eqb mo (ep_mopen e)); [now split|]. destruct mo; now apply rel_callback.
    - intros w2 w2' R2 Q2. apply relj_andthen; [destruct (ep_mopen e); [now apply rel_callback|now split]|]. intros w3 w3' R3 Q3. now apply rel_callback.
  Qed.

  (** ** Frame sets *)
  Lemma fset_frame tk w x : exists fs, fst (update_frame_set tk w x) = upd_fsets w fs.
  Proof.
    unfold update_frame_set. destruct (w_fsets w !! x.2) as [f|]; [|exists (w_fsets w); now destruct w]. destruct (fs_epic_state w f). destruct (fs_on_new_tick _ _ _ _ _). eexists. reflexivity.
  Qed.
  Lemma fsets_frame tk w l : exists fs, fst (forM (update_frame_set tk) w l) = upd_fsets w fs.
  Proof.
    revert w. induction l as [|x l IH]; intros w; simpl; [exists (w_fsets w); now destruct w|]. destruct (fset_frame tk w x) as [fs E]. destruct (update_frame_set tk w x) as [w1 [u|e]]; simpl in E; [|now exists fs].
    destruct (IH w1) as [fs1 E1]. exists fs1. rewrite E1, E. reflexivity.
  Qed.
  Definition same_view w (v : world F) : Prop := w_fsets v = w_fsets w /\ forall i, match w_epics w !! i, w_epics v !! i with Some e, Some e' => ep_mopen e' = ep_mopen e /\ ep_last e' = ep_last e | None, None => True | _, _ => False end.
  Lemma view_state w v fs : same_view w v -> fs_epic_state v fs = fs_epic_state w fs.
  Proof. intros [_ Hv]. unfold fs_epic_state. destruct (fs_epic fs) as [i|]; [|auto]. specialize (Hv i). destruct (w_epics w !! i), (w_epics v !! i); try easy. destruct Hv as [-> ->]. auto. Qed.
  Lemma view_forM tk l w v : same_view w v -> snd (forM (update_frame_set tk) v l) = snd (forM (update_frame_set tk) w l).
  Proof.
    revert w v. induction l as [|x l IH]; intros w v Hv; [auto|]. simpl. unfold update_frame_set at 1 3. rewrite (proj1 Hv). destruct (w_fsets w !! x.2) as [fs|]; [|auto].
    rewrite (view_state w v fs Hv). destruct (fs_epic_state w fs). destruct (fs_on_new_tick _ _ _ _ _) as [fs' [u|e]]; [|auto]. apply IH. destruct Hv as [_ Hv]. split; [auto|exact Hv].
  Qed.
  Lemma charts_fsets w eid e tk : charts_ok w eid tk -> w_epics w !! eid = Some e -> arrow_ltb (tk_dt (tick_to (ep_tz e) tk)) (tk_dt (ep_last e)) = false ->
    let e' := ep_set_last e (tick_to (ep_tz e) tk) (is_market_open e (tick_to (ep_tz e) tk)) in
    exists fs u, forM (update_frame_set (tick_to (ep_tz e) tk)) (upd_epics w (<[eid := e']> (w_epics w))) (ep_fsets e) = (upd_fsets (upd_epics w (<[eid := e']> (w_epics w))) fs, Ok u).
  Proof.
    intros Hc He Ha e'. set (tk1 := tick_to (ep_tz e) tk) in *. unfold charts_ok in Hc. cbn [step] in Hc. unfold epic_on_new_tick at 2 in Hc.
    cbn [no_charts w_epics] in Hc. rewrite list_lookup_fmap in Hc. unfold epic_on_new_tick in Hc. cbn [no_strats upd_epics w_epics] in Hc. rewrite list_lookup_fmap, He in Hc.
    cbn [fmap option_fmap option_map ep_tz ep_set_fsets ep_set_strats ep_last] in Hc. fold tk1 in Hc. rewrite Ha in Hc. cbn [ep_set_last ep_fsets ep_set_fsets ep_strats forM andthen] in Hc.
    cbn [snd] in Hc. fold (@no_strats F) in Hc.
    match type of Hc with snd (andthen (forM (update_frame_set tk1) ?v _) _) = _ => assert (same_view (upd_epics w (<[eid := e']> (w_epics w))) v) as Hv end.
    { split; [reflexivity|]. intros i. cbn [upd_epics w_epics no_strats]. destruct (decide (i = eid)) as [->|Hn].
      - rewrite !list_lookup_insert by (rewrite ?fmap_length; eapply lookup_lt_Some; eauto). split; reflexivity.
      - rewrite !list_lookup_insert_ne by auto. rewrite list_lookup_fmap. destruct (w_epics w !! i); simpl; auto. }
    pose proof (view_forM tk1 (ep_fsets e) _ _ Hv) as Ev. destruct (fsets_frame tk1 (upd_epics w (<[eid := e']> (w_epics w))) (ep_fsets e)) as [fs Ef].
    destruct (forM (update_frame_set tk1) (upd_epics w (<[eid := e']> (w_epics w))) (ep_fsets e)) as [w2 r]. simpl in Ef, Ev. subst w2.
    destruct (forM _ _ _) as [w3 r3]. simpl in Ev. subst r3. destruct r as [u|x]; [eauto|]. simpl in Hc. discriminate Hc.
  Qed.
  Lemma rel_fsets w w' fs fs' : rel w w' -> rel (upd_fsets w fs) (upd_fsets w' fs').
  Proof. intros []. constructor; auto. Qed.
  Lemma rel_value w w' pid tk tk' : rel w w' -> Rk S tk tk' -> rel (update_open_trades w pid tk) (update_open_trades w' pid tk').
  Proof.
    intros R Hk. unfold update_open_trades. rewrite (r_provs w w' R). destruct (w_provs w !! pid) as [p|]; [|auto]. rewrite (rel_opened w w' p R). generalize (opened_trades w p). intros l.
    revert w w' R. induction l as [|i l IH]; intros w w' R; simpl; [now destruct w, w'|].
    assert (rel (upd_trades w (alter (λ t, update_from_tick t tk) i (w_trades w))) (upd_trades w' (alter (λ t, update_from_tick t tk') i (w_trades w')))) as R1.
    { apply rel_alter; [auto| |intros; apply updk_epic]. intros. now apply (t_updk S). }
    exact (IH _ _ R1).
  Qed.
  Lemma rel_tick pr pr' eid tk tk' w w' : like pr pr' -> rel w w' -> Rk S tk tk' -> charts_ok w eid tk -> charts_ok w' eid tk' ->
    relr (epic_on_new_tick pr w eid tk) (epic_on_new_tick pr' w' eid tk').
  Proof.
    intros Hp R Hk Hc Hc'. pose proof (rel_epic w w' eid R) as He. unfold epic_on_new_tick. destruct (w_epics w !! eid) as [e|] eqn:Ee, (w_epics w' !! eid) as [e'|] eqn:Ee'; try easy.
    cbv zeta. pose proof (charts_fsets w eid e tk Hc Ee) as C1. pose proof (charts_fsets w' eid e' tk' Hc' Ee') as C2. cbv zeta in C1, C2.
    assert (tk_dt (ep_last e') = tk_dt (ep_last e)) as Hl by (destruct (e_last _ _ He) as [Hl|[-> ->]]; [now apply (k_dt S)|auto]).
    assert (Rk S (tick_to (ep_tz e) tk) (tick_to (ep_tz e') tk')) as K1 by (rewrite (e_tz _ _ He); now apply (k_to S)).
    assert (tk_dt (tick_to (ep_tz e') tk') = tk_dt (tick_to (ep_tz e) tk)) as Hd by now apply (k_dt S).
    revert C1 C2 K1 Hd. generalize (tick_to (ep_tz e) tk) (tick_to (ep_tz e') tk'). intros t1 t1' C1 C2 K1 Hd. rewrite Hd, Hl in *.
    destruct (arrow_ltb (tk_dt t1) (tk_dt (ep_last e))); [now split|].
    change (ep_fsets (ep_set_last e t1 (is_market_open e t1))) with (ep_fsets e). change (ep_fsets (ep_set_last e' t1' (is_market_open e' t1'))) with (ep_fsets e'). destruct (C1 eq_refl) as (fs & u & ->). destruct (C2 eq_refl) as (fs' & u' & ->). clear C1 C2. cbn [andthen].
    assert (is_market_open e' t1' = is_market_open e t1) as Hm. { unfold is_market_open, in_market_hours. now rewrite (e_open _ _ He), (e_close _ _ He), (e_days _ _ He), (e_hol _ _ He), Hd. }
    set (a := ep_set_last e t1 _). set (b := ep_set_last e' t1' _). assert (Re a b) as Hab.
    { destruct He. unfold a, b. constructor; simpl; auto. }
    assert (rel (upd_epics w (<[eid:=a]> (w_epics w))) (upd_epics w' (<[eid:=b]> (w_epics w')))) as R1.
    { destruct R as [R1 R2 R3 R4 R5 R6]. constructor; simpl; auto; [now apply Forall2_insert|]. intros i t Ht. destruct (R6 i t Ht) as (x & x' & Hx & Hx' & Hxx).
      destruct (decide (tr_epic t = eid)) as [E|Hn].
      - rewrite E. exists a, b. rewrite !list_lookup_insert by (eapply lookup_lt_Some; eauto). auto.
      - exists x, x'. rewrite !list_lookup_insert_ne by auto. auto. }
    rewrite (e_strats _ _ He : ep_strats b = ep_strats a), (e_mopen _ _ He), (e_prov _ _ He : ep_prov b = ep_prov a).
    refine (proj1 (relj_forM (fun v => quoted v eid) _ _ _ _ _ _ _ _)).
    - intros x v v' _ Rv1 Qv. now apply rel_strategy.
    - apply rel_value; [|exact K1]. now apply rel_fsets.
    - unfold quoted, update_open_trades. destruct (w_provs _ !! _); simpl; rewrite list_lookup_insert by (eapply lookup_lt_Some; eauto); intros x Hx; injection Hx as <-; simpl; eapply k_q; eauto.
  Qed.

  (** ** Main programs *)
  Lemma rel_chart_left pr w w' o : is_chart o = true -> rel w w' -> rel (fst (step pr w o)) w'.
  Proof.
    intros Ho R. destruct o as [k|ref|u q ref m|ref tz op cl ds hs pv|eid fid|eid sid|fid i|e tk|c]; try discriminate; cbn [step].
    - destruct (fset_init u q ref m); [|auto]. destruct R. constructor; auto.
    - unfold add_frame_set. destruct (w_epics w !! eid) as [e|] eqn:Ee; [|auto]. destruct (w_fsets w !! fid) as [fs|]; [|auto]. destruct (dict_get _ _); [auto|]. simpl.
      pose proof (rel_epic w w' eid R) as He. rewrite Ee in He. destruct (w_epics w' !! eid) as [e'|] eqn:Ee'; [|easy]. destruct R as [R1 R2 R3 R4 R5 R6]. constructor; simpl; auto.
      + rewrite <- (list_insert_id _ _ _ Ee'). apply Forall2_insert; [auto|]. destruct He. constructor; auto.
      + intros j t Ht. destruct (R6 j t Ht) as (x & x' & Hx & Hx' & Hxx). destruct (decide (tr_epic t = eid)) as [E|Hn].
        * rewrite E in *. rewrite list_lookup_insert by (eapply lookup_lt_Some; eauto). assert (x = e) as -> by congruence. eexists _, x'. eauto.
        * rewrite list_lookup_insert_ne by auto. eauto.
    - destruct (w_fsets w !! fid) as [fs|]; [|auto]. destruct (add_indicator fs i). simpl. destruct R. constructor; auto.
  Qed.
  Lemma rel_chart_right pr w w' o : is_chart o = true -> rel w w' -> rel w (fst (step pr w' o)).
  Proof.
    intros Ho R. destruct o as [k|ref|u q ref m|ref tz op cl ds hs pv|eid fid|eid sid|fid i|e tk|c]; try discriminate; cbn [step].
    - destruct (fset_init u q ref m); [|auto]. destruct R. constructor; auto.
    - unfold add_frame_set. destruct (w_epics w' !! eid) as [e'|] eqn:Ee'; [|auto]. destruct (w_fsets w' !! fid) as [fs|]; [|auto]. destruct (dict_get _ _); [auto|]. simpl.
      pose proof (rel_epic w w' eid R) as He. rewrite Ee' in He. destruct (w_epics w !! eid) as [e|] eqn:Ee; [|easy]. destruct R as [R1 R2 R3 R4 R5 R6]. constructor; simpl; auto.
      + rewrite <- (list_insert_id _ _ _ Ee). apply Forall2_insert; [auto|]. destruct He. constructor; auto.
      + intros j t Ht. destruct (R6 j t Ht) as (x & x' & Hx & Hx' & Hxx). destruct (decide (tr_epic t = eid)) as [E|Hn].
        * rewrite E in *. rewrite list_lookup_insert by (eapply lookup_lt_Some; eauto). assert (x' = e') as -> by congruence. eexists x, _. eauto.
        * rewrite list_lookup_insert_ne by auto. eauto.
    - destruct (w_fsets w' !! fid) as [fs|]; [|auto]. destruct (add_indicator fs i). simpl. destruct R. constructor; auto.
  Qed.
  Lemma rel_same pr pr' w w' o : match o with OTick _ _ | OCmd _ => False | _ => True end -> rel w w' -> rel (fst (step pr w o)) (fst (step pr' w' o)).
  Proof.
    intros Ho R. destruct (is_chart o) eqn:Hi; [now apply rel_chart_left, rel_chart_right|].
    destruct o as [k|ref|u q ref m|ref tz op cl ds hs pv|eid fid|eid sid|fid i|e tk|c]; try discriminate; try easy; cbn [step].
    - simpl. rewrite (r_provs w w' R). now apply rel_upd_provs.
    - simpl. rewrite (r_strats w w' R). now apply rel_upd_strats.
    - unfold new_epic. destruct tz as [z|]; [|auto]. rewrite (r_provs w w' R). destruct (valid_id (w_provs w) pv); [|auto]. cbv zeta.
      assert (forall ps p, rel (upd_epics (upd_provs w ps) (w_epics w ++ [{| ep_ref := ref; ep_tz := z; ep_open := op; ep_close := cl; ep_days := match ds with None | Some [] => [0; 1; 2; 3; 4] | Some l => l end;
          ep_holidays := match hs with None => [] | Some l => l end; ep_prov := p; ep_last := fake_tick; ep_fsets := []; ep_strats := []; ep_mopen := false |}]))
        (upd_epics (upd_provs w' ps) (w_epics w' ++ [{| ep_ref := ref; ep_tz := z; ep_open := op; ep_close := cl; ep_days := match ds with None | Some [] => [0; 1; 2; 3; 4] | Some l => l end;
          ep_holidays := match hs with None => [] | Some l => l end; ep_prov := p; ep_last := fake_tick; ep_fsets := []; ep_strats := []; ep_mopen := false |}]))) as Hn.
      { intros ps p. destruct R as [R1 R2 R3 R4 R5 R6]. constructor; simpl; auto.
        - apply Forall2_app; [auto|]. constructor; [|constructor]. constructor; auto.
        - intros i t Ht. destruct (R6 i t Ht) as (x & x' & Hx & Hx' & Hxx). exists x, x'. rewrite !lookup_app_l by (eapply lookup_lt_Some; eauto). auto. }
      destruct pv as [pid|]; apply Hn.
    - unfold add_strategy. rewrite (r_strats w w' R). pose proof (rel_epic w w' eid R) as He. destruct (w_epics w !! eid) as [e|] eqn:Ee, (w_epics w' !! eid) as [e'|] eqn:Ee'; try easy.
      destruct (w_strats w !! sid) as [s|]; [|auto]. rewrite (e_strats _ _ He), (e_ref _ _ He). destruct (dict_get _ _); [auto|]. simpl.
      destruct R as [R1 R2 R3 R4 R5 R6]. constructor; simpl; auto.
      + apply Forall2_insert; [auto|]. destruct He. constructor; auto.
      + intros j t Ht. destruct (R6 j t Ht) as (x & x' & Hx & Hx' & Hxx). destruct (decide (tr_epic t = eid)) as [E|Hn].
        * rewrite E in *. rewrite !list_lookup_insert by (eapply lookup_lt_Some; eauto). assert (x = e) as -> by congruence. assert (x' = e') as -> by congruence. do 2 eexists. eauto.
        * rewrite !list_lookup_insert_ne by auto. eauto.
  Qed.
  Lemma rel_empty : rel empty_world empty_world.
  Proof. constructor; try constructor. intros i t Ht. discriminate Ht. Qed.
End sim.

Lemma alongside_mono {F : Type} `{Num F} (R R' : world F -> world F -> Prop) (C C' : world F -> cmd F -> cmd F -> Prop) w w' s s' :
  (forall v v', R' v v' -> R v v') -> (forall w c c', C w c c' -> C' w c c') -> alongside R C w w' s s' -> alongside R' C' w w' s s'.
Proof.
  intros Hr Hc Hs. induction Hs as [w w'|w w' e|w w' c c' k k' v v' r r' Hcc E E' _ IH]; [constructor|constructor|]. apply (al_call _ _ _ _ _ _ _ _ v v' r r'); auto.
Qed.
