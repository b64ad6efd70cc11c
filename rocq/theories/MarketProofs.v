(** Openings and closings happen at the last tick of the epic (C63). *)
From Verif Require Export SpecMarket EpicTimeProofs.
Open Scope Z_scope.

Section proofs.
  Context {F : Type} `{Num F}.
  Implicit Types (w : world F) (e : epic F) (t : trade F) (es : list (epic F)).

  Lemma same_deal_refl t : same_deal t t.
  Proof. repeat split. Qed.
  Lemma same_deal_trans t t1 t2 : same_deal t t1 -> same_deal t1 t2 -> same_deal t t2.
  Proof. intros (A1 & A2 & A3 & A4 & A5 & A6) (B1 & B2 & B3 & B4 & B5 & B6). repeat split; congruence. Qed.
  Lemma closed_deal es t t' l : same_deal t t' -> Forall (fun x => now es t (fun tk => closed_at tk t x)) l -> Forall (fun x => now es t' (fun tk => closed_at tk t' x)) l.
  Proof. intros (A1 & _ & A3 & _) Hf. eapply Forall_impl; [exact Hf|]. intros [[v q] d] (e & E & C). exists e. rewrite A1. split; [auto|]. unfold closed_at in *. now rewrite A3. Qed.

  Lemma alt_refl es ts : at_last_tick es ts ts.
  Proof. intros i. destruct (ts !! i) as [t|]; [|auto]. split; [apply same_deal_refl|]. exists []. split; [now rewrite app_nil_r|constructor]. Qed.
  Lemma alt_trans es a b c : at_last_tick es a b -> at_last_tick es b c -> at_last_tick es a c.
  Proof.
    intros H1 H2 i. specialize (H1 i). specialize (H2 i). destruct (a !! i) as [t|], (b !! i) as [t1|], (c !! i) as [t2|]; try contradiction; auto.
    - destruct H1 as (D1 & n1 & E1 & F1), H2 as (D2 & n2 & E2 & F2). split; [eapply same_deal_trans; eauto|]. exists (n1 ++ n2). rewrite E2, E1, app_assoc. split; [auto|].
      apply Forall_app. split; [eapply closed_deal; eauto|auto].
    - destruct H1 as ((e & Ee & O1) & F1), H2 as (D2 & n2 & E2 & F2). pose proof D2 as (A1 & _ & A3 & A4 & A5 & _). split.
      + exists e. rewrite A1. split; [auto|]. unfold opened_at in *. now rewrite A3, A4, A5.
      + rewrite E2. apply Forall_app. split; [eapply closed_deal; eauto|auto].
  Qed.
  (** The same deal with the same closes. *)
  Definition mild t t' : Prop := same_deal t t' /\ map terms (tr_closes t') = map terms (tr_closes t).
  Lemma alt_alter es ts i f : (forall t, ts !! i = Some t -> mild t (f t)) -> at_last_tick es ts (alter f i ts).
  Proof.
    intros Hf j. destruct (decide (i = j)) as [->|Hn].
    - rewrite list_lookup_alter. destruct (ts !! j) as [t|] eqn:E; [|exact I]. cbn. destruct (Hf t eq_refl) as [D E']. split; [auto|]. exists []. rewrite app_nil_r. split; [auto|constructor].
    - rewrite list_lookup_alter_ne by auto. apply alt_refl.
  Qed.
  Lemma alt_insert es ts i t t' : ts !! i = Some t -> mild t t' -> at_last_tick es ts (<[i := t']> ts).
  Proof.
    intros Ht Hm j. destruct (decide (i = j)) as [->|Hn].
    - rewrite list_lookup_insert by (eapply lookup_lt_Some; eauto). rewrite Ht. destruct Hm as [D E']. split; [auto|]. exists []. rewrite app_nil_r. split; [auto|constructor].
    - rewrite list_lookup_insert_ne by auto. apply alt_refl.
  Qed.
  Lemma mild_maxmin t a b : mild t (set_maxmin t a b).
  Proof. split; [repeat split|reflexivity]. Qed.
  Lemma mild_trans t t1 t2 : mild t t1 -> mild t1 t2 -> mild t t2.
  Proof. intros [D1 E1] [D2 E2]. split; [eapply same_deal_trans; eauto|congruence]. Qed.
  Lemma mild_refl t : mild t t.
  Proof. split; [repeat split|reflexivity]. Qed.
  Lemma mild_min_max t : mild t (update_min_max t).
  Proof.
    unfold update_min_max. cbv zeta. eapply mild_trans with (t1 := if fltb (tr_max t) (result t) then set_maxmin t (result t) (tr_min t) else t).
    - destruct (fltb _ _); [apply mild_maxmin|apply mild_refl].
    - destruct (fltb (result _) _); [apply mild_maxmin|apply mild_refl].
  Qed.
  Lemma mild_update t v : mild t (update t v).
  Proof. unfold update. destruct (closed t); [apply mild_refl|]. eapply mild_trans; [|apply mild_min_max]. split; [repeat split|reflexivity]. Qed.
  Lemma mild_tick t tk : mild t (update_from_tick t tk).
  Proof. apply mild_update. Qed.
  Lemma min_max_cv t : tr_cv (update_min_max t) = tr_cv t.
  Proof. unfold update_min_max. cbv zeta. destruct (fltb (tr_max t) (result t)); destruct (fltb (result _) _); reflexivity. Qed.

  Lemma mild_closed t t' : tr_oq t' = tr_oq t -> mild t t' -> opened_quantities t' = opened_quantities t.
  Proof.
    intros Eq [_ E]. unfold opened_quantities, closed_quantities. rewrite Eq. assert (map tc_qty (tr_closes t') = map tc_qty (tr_closes t)) as ->; [|auto].
    apply (f_equal (map (fun x : F * Z * arrow => snd (fst x)))) in E. now rewrite !map_map in E.
  Qed.
  Lemma update_oq t v : tr_oq (update t v) = tr_oq t.
  Proof. unfold update. destruct (closed t); [auto|]. unfold update_min_max. cbv zeta. destruct (fltb (tr_max _) (result _)); destruct (fltb (result _) _); reflexivity. Qed.
  (** A close at a tick. *)
  Lemma close_tick_spec t tk q ref t' c : close_from_tick t tk q ref = Ok (t', c) ->
    same_deal t t' /\ map terms (tr_closes t') = map terms (tr_closes t) ++ [terms c] /\ closed_at tk t' (terms c).
  Proof.
    unfold close_from_tick. cbv zeta. set (t1 := update_from_tick t tk). unfold close. cbn [timed_set rbind]. intros [= <- <-]. pose proof (mild_tick t tk) as [D E]. fold t1 in D, E.
    split; [exact D|]. split; [cbn [tr_closes set_closes]; now rewrite map_app, E|]. unfold closed_at, terms. cbn [tc_value tc_qty tc_dt set_closes tr_dir]. split; [auto|]. intros Hq.
    assert (opened_quantities t1 = opened_quantities t) as Eo by (apply mild_closed; [apply update_oq|apply mild_tick]).
    assert (closed t = false) as Hc.
    { unfold closed. apply Z.eqb_neq. intros E0. unfold close_quantity in Hq. rewrite Eo, E0 in Hq. destruct (Z.ltb_spec 0 match q with Some z => if z =? 0 then 0 else z | None => 0 end); lia. }
    destruct D as (_ & _ & -> & _). unfold t1, update_from_tick, update, exit_price. rewrite Hc, min_max_cv. reflexivity.
  Qed.

  (** ** Calls *)
  Lemma alt_close w tid q ref w' ci es : close_from_epic w tid q ref = Ok (w', ci) -> es = w_epics w -> at_last_tick es (w_trades w) (w_trades w').
  Proof.
    intros E ->. apply close_from_epic_inv in E as (t & e & t' & c & Ht & He & Hc & -> & _). cbn [w_trades upd_trades]. destruct (close_tick_spec _ _ _ _ _ _ Hc) as (D & Et & C).
    intros j. destruct (decide (tid = j)) as [<-|Hn].
    - rewrite list_lookup_insert by (eapply lookup_lt_Some; eauto). rewrite Ht. split; [auto|]. exists [terms c]. split; [auto|]. constructor; [|constructor].
      exists e. destruct D as (D1 & _). rewrite D1. auto.
    - rewrite list_lookup_insert_ne by auto. apply (alt_refl _ _ j).
  Qed.
  Definition stays w w' : Prop := w_epics w' = w_epics w /\ at_last_tick (w_epics w) (w_trades w) (w_trades w').
  Lemma stays_refl w : stays w w.
  Proof. split; [auto|apply alt_refl]. Qed.
  Lemma stays_trans w w1 w2 : stays w w1 -> stays w1 w2 -> stays w w2.
  Proof. intros [E1 A1] [E2 A2]. split; [congruence|]. eapply alt_trans; [exact A1|]. now rewrite <- E1. Qed.
  Lemma stays_same w w' : w_epics w' = w_epics w -> w_trades w' = w_trades w -> stays w w'.
  Proof. intros E1 E2. split; [auto|]. rewrite E2. apply alt_refl. Qed.
  Lemma stays_forM {A} (f : world F -> A -> world F * res unit) l w : (forall w x, stays w (fst (f w x))) -> stays w (fst (forM f w l)).
  Proof. intros Hf. apply (forM_inv (stays w)); [|apply stays_refl]. intros w1 x _ H1. eapply stays_trans; eauto. Qed.
  Lemma stays_close_epic w tid q ref w' ci : close_from_epic w tid q ref = Ok (w', ci) -> stays w w'.
  Proof. intros E. split; [apply close_from_epic_rest in E as [E _]; unfold rest in E; congruence|]. eapply alt_close; eauto. Qed.
  Lemma stays_epic_close w eid tid q ref : stays w (fst (epic_close_trade w eid tid q ref)).
  Proof.
    unfold epic_close_trade. destruct (w_epics w !! eid) as [e|]; [|apply stays_refl]. destruct (close_from_epic w tid q ref) as [[w1 ci]|] eqn:E; [|apply stays_refl].
    eapply stays_trans; [eapply stays_close_epic; eauto|]. now apply stays_same.
  Qed.
  Lemma stays_strategy_close w tid q ref : stays w (fst (strategy_close_trade w tid q ref)).
  Proof. unfold strategy_close_trade. destruct (w_trades w !! tid); [apply stays_epic_close|apply stays_refl]. Qed.
  Lemma stays_net pid tid ref w oid : stays w (fst (net_step pid tid ref w oid)).
  Proof.
    unfold net_step. destruct (w_trades w !! tid) as [t|]; [|apply stays_refl]. destruct (w_trades w !! oid) as [o|]; [|apply stays_refl].
    destruct (dir_eqb _ _); [|apply stays_refl]. destruct (bool_decide _); [|apply stays_refl]. cbv zeta. destruct (close_from_epic _ _ _ _) as [[w1 ci]|] eqn:E; [|apply stays_refl].
    eapply stays_trans; [eapply stays_close_epic; eauto|]. split; [reflexivity|]. cbn [fst w_trades upd_trades provider_close_trade]. unfold provider_close_trade, add_thread. cbn [w_trades upd_provs].
    apply alt_alter. intros x _. split; [repeat split|reflexivity].
  Qed.
  Lemma stays_base_open w pid tid : stays w (base_open_trade w pid tid).
  Proof. unfold base_open_trade. destruct (w_trades w !! tid) as [t|]; [|apply stays_refl]. cbv zeta. destruct (tr_strat t); now apply stays_same. Qed.
  Lemma stays_provider_open w pid tid ref : stays w (fst (provider_open_trade w pid tid ref)).
  Proof.
    unfold provider_open_trade. destruct (w_provs w !! pid) as [p|] eqn:Ep; [|apply stays_refl]. destruct (pv_kind p); try apply stays_base_open. unfold backtest_open_trade. rewrite Ep.
    pose proof (stays_forM (net_step pid tid ref) (opened_trades w p) w (stays_net pid tid ref)) as S1. destruct (forM _ w _) as [w1 [u|x]]; cbn [fst] in *; [|auto].
    destruct (w_trades w1 !! tid) as [t|]; [|auto]. destruct (tr_oq t <=? 0); [auto|]. eapply stays_trans; [exact S1|apply stays_base_open].
  Qed.
  Lemma stays_open w eid d q s ref : stays w (fst (epic_open_trade w eid d q s ref)).
  Proof.
    unfold epic_open_trade. destruct (w_epics w !! eid) as [e|] eqn:Ee; [|apply stays_refl]. destruct (valid_id _ _); [|apply stays_refl].
    destruct (open_from_tick _ _ _ _ _ _) as [t|] eqn:Et; [|apply stays_refl]. cbv zeta. set (w1 := upd_trades w (w_trades w ++ [t])).
    assert (stays w w1) as S1.
    { split; [reflexivity|]. intros i. cbn [w1 w_trades upd_trades]. destruct (w_trades w !! i) as [x|] eqn:Ex.
      - rewrite (lookup_app_l_Some _ _ _ _ Ex). split; [apply same_deal_refl|]. exists []. rewrite app_nil_r. split; [auto|constructor].
      - apply lookup_ge_None in Ex. rewrite lookup_app_r by auto. destruct (i - length (w_trades w))%nat; [|exact I]. cbn [lookup list_lookup].
        unfold open_from_tick in Et. destruct d as [[]|]; try discriminate; injection Et as <-; split; try (exists e; split; [exact Ee|split; reflexivity]); constructor. }
    pose proof (stays_provider_open w1 (ep_prov e) (length (w_trades w)) ref) as S2. destruct (provider_open_trade _ _ _ _) as [w' [u|x]]; cbn [fst] in *; eapply stays_trans; eauto.
  Qed.
  Lemma stays_thread w pid k : stays w (run_thread w pid k).
  Proof.
    unfold run_thread. destruct (w_provs w !! pid) as [p|]; [|apply stays_refl]. destruct (pv_threads p !! k) as [th|]; [|apply stays_refl]. destruct (th_done th); [apply stays_refl|].
    split; [reflexivity|]. cbn [w_trades upd_provs upd_trades]. unfold job_effect.
    assert (forall t c s, mild t (set_closes t (alter (fun y => set_cstatus y s) c (tr_closes t)))) as Hc.
    { intros t c s. split; [repeat split|]. cbn [tr_closes set_closes]. apply list_eq. intros j. change (map terms) with (fmap (M:=list) (terms (F:=F))). rewrite !list_lookup_fmap.
      destruct (decide (c = j)) as [->|Hn]; [rewrite list_lookup_alter; now destruct (tr_closes t !! j)|now rewrite list_lookup_alter_ne]. }
    destruct (pv_kind p) as [| |so sc]; [|apply alt_refl|]; destruct (th_job th); apply alt_alter; intros t _; first [apply Hc|split; [repeat split|reflexivity]].
  Qed.
  Lemma stays_cmd w c : at_market c -> stays w (fst (run_cmd w c)).
  Proof.
    destruct c as [e d q s ref|t q ref|e t q ref|s q ref|t v|t|t v d q ref|t q ref|s u|s b|p k]; intros Hc; cbn [run_cmd fst]; try contradiction.
    - pose proof (stays_open w e d q s ref) as S1. now destruct (epic_open_trade w e d q s ref).
    - apply stays_strategy_close.
    - apply stays_epic_close.
    - unfold close_opened_trades. destruct (w_strats w !! s); [|apply stays_refl]. apply stays_forM. intros w1 x. unfold close_opened_step. destruct (trade_open_b w1 x); [apply stays_strategy_close|apply stays_refl].
    - split; [reflexivity|]. apply alt_alter. intros x _. apply mild_update.
    - destruct (w_trades w !! t) as [x|] eqn:E; [|apply stays_refl]. destruct (w_epics w !! tr_epic x); [|apply stays_refl]. split; [reflexivity|]. eapply alt_insert; eauto. apply mild_tick.
    - destruct (close_from_epic w t q ref) as [[w' ci]|] eqn:E; [|apply stays_refl]. eapply stays_close_epic; eauto.
    - now apply stays_same.
    - now apply stays_same.
    - apply stays_thread.
  Qed.
  Lemma stays_script w s : script_ok at_market s -> stays w (fst (run_script w s)).
  Proof.
    revert w. induction s as [|x|c k IH]; intros w Hs; cbn [run_script]; try apply stays_refl. destruct Hs as [Hc Hk]. pose proof (stays_cmd w c Hc) as S1. destruct (run_cmd w c) as [w' r].
    eapply stays_trans; [exact S1|]. now apply IH.
  Qed.
  Lemma stays_callback pr sid cb eid w : programs_ok at_market pr -> stays w (fst (run_callback pr sid cb eid w)).
  Proof. intros Hp. unfold run_callback. cbv zeta. eapply stays_trans; [|apply stays_script, Hp]. now apply stays_same. Qed.
  Lemma stays_exec pr eid mo w x : programs_ok at_market pr -> stays w (fst (execute_strategy pr eid mo w x)).
  Proof.
    intros Hp. unfold execute_strategy. destruct (w_strats w !! x.2) as [s|]; [|apply stays_refl]. destruct (w_epics w !! eid) as [e|]; [|apply stays_refl].
    destruct (is_active _ _) as [s' [|]]; [|now apply stays_same]. set (w1 := upd_strats w _). assert (stays w w1) as S1 by now apply stays_same.
    apply (andthen_inv (stays w)).
    - destruct (eqb _ _); [exact S1|]. destruct mo; (eapply stays_trans; [exact S1|now apply stays_callback]).
    - intros w2 S2. apply (andthen_inv (stays w)).
      + destruct (ep_mopen e); [|exact S2]. eapply stays_trans; [exact S2|now apply stays_callback].
      + intros w3 S3. eapply stays_trans; [exact S3|now apply stays_callback].
  Qed.
  Lemma stays_value w pid tk : stays w (update_open_trades w pid tk).
  Proof.
    unfold update_open_trades. destruct (w_provs w !! pid) as [p|]; [|apply stays_refl]. split; [reflexivity|]. cbn [w_trades upd_trades]. generalize (w_trades w) as ts.
    induction (opened_trades w p) as [|i l IH]; intros ts; [apply alt_refl|]. cbn [fold_left]. eapply alt_trans; [|apply IH]. apply alt_alter. intros t _. apply mild_tick.
  Qed.
  Lemma step_market pr w (o : op F) : programs_ok at_market pr -> op_ok at_market o -> at_last_tick (w_epics (fst (step pr w o))) (w_trades w) (w_trades (fst (step pr w o))).
  Proof.
    intros Hp Ho. assert (setup o \/ (exists a tk, o = OTick a tk) \/ exists c, o = OCmd c) as [Hs|[(a & tk & ->)|(c & ->)]] by (destruct o; simpl; eauto).
    - rewrite setup_trades by auto. apply alt_refl.
    - cbn [step]. unfold epic_on_new_tick. destruct (w_epics w !! a) as [e|]; [|apply alt_refl]. cbv zeta. destruct (arrow_ltb _ _); [apply alt_refl|]. set (e' := ep_set_last e _ _).
      set (w1 := upd_epics w _). match goal with |- at_last_tick (w_epics (fst ?x)) _ _ => enough (stays w1 (fst x)) as [E A] by (rewrite E; exact A) end.
      apply (andthen_inv (stays w1)).
      + apply stays_forM. intros w2 x. apply stays_same; [apply update_fset_epics|]. unfold update_frame_set. destruct (w_fsets w2 !! x.2) as [fs|]; [|auto]. destruct (fs_epic_state w2 fs).
        now destruct (fs_on_new_tick _ _ _ _ _).
      + intros w2 S2. eapply stays_trans; [exact S2|]. eapply stays_trans; [apply stays_value|]. apply stays_forM. intros w3 x. now apply stays_exec.
    - cbn [step]. pose proof (stays_cmd w c Ho) as [E A]. now rewrite E.
  Qed.

  (** ** Whole runs *)
  Lemma step_new_epic pr w (o : op F) eid e : w_epics w !! eid = None -> w_epics (fst (step pr w o)) !! eid = Some e -> ep_last e = fake_tick.
  Proof.
    intros Hn. assert (setup o \/ (exists a tk, o = OTick a tk) \/ exists c, o = OCmd c) as [Hs|[(a & tk & ->)|(c & ->)]] by (destruct o; simpl; eauto).
    - intros He. now destruct (new_epics pr w o eid e Hs Hn He).
    - cbn [step]. intros He. exfalso. destruct (w_epics w !! a) as [ea|] eqn:Ea; [|unfold epic_on_new_tick in He; rewrite Ea in He; cbn [fst] in He; congruence].
      destruct (refused_dec ea tk) as [Hr|Hr]; [rewrite (tick_refused _ _ _ _ _ Ea Hr) in He; cbn [fst] in He; congruence|].
      rewrite (tick_epics _ _ _ _ _ Ea Hr), list_lookup_insert_ne in He by congruence. congruence.
    - cbn [step]. pose proof (cmd_rest w c) as E. injection E as E _ _. rewrite E. congruence.
  Qed.
  Lemma accepted_snoc pr w l (o : op F) eid : accepted pr w (l ++ [o]) eid = accepted pr w l eid ++ accepts (run pr w l) o eid.
  Proof. revert w. induction l as [|x l IH]; intros w; [cbn; now rewrite app_nil_r|]. cbn [app accepted run fold_left]. rewrite IH, app_assoc. reflexivity. Qed.
  Lemma run_snoc pr w l (o : op F) : run pr w (l ++ [o]) = fst (step pr (run pr w l) o).
  Proof. unfold run. now rewrite fold_left_app. Qed.

  Definition from_run pr w0 l (eid : nat) (p : tick F -> Prop) : Prop := exists tk, tk ∈ fake_tick :: accepted pr w0 l eid /\ p tk.
  Lemma from_run_more pr w0 l o eid p : from_run pr w0 l eid p -> from_run pr w0 (l ++ [o]) eid p.
  Proof. intros (tk & Hin & Hp). exists tk. split; [|auto]. rewrite accepted_snoc. set_solver. Qed.
  Lemma from_run_epic pr w0 l eid e : (forall eid e, w_epics w0 !! eid = Some e -> ep_last e = fake_tick) -> w_epics (run pr w0 l) !! eid = Some e -> ep_last e ∈ fake_tick :: accepted pr w0 l eid.
  Proof.
    intros H0. revert eid e. induction l as [|o l IH] using rev_ind; intros eid e He; [rewrite (H0 eid e He); left|]. rewrite run_snoc in He. rewrite accepted_snoc.
    destruct (w_epics (run pr w0 l) !! eid) as [e0|] eqn:E0; [|rewrite (step_new_epic _ _ _ _ _ E0 He); left].
    destruct (step_epic pr _ o eid e0 E0) as (e' & E' & _ & [(L & _)|(tk & -> & Hn & ->)]); rewrite He in E'; injection E' as ->.
    - rewrite L. specialize (IH eid e0 E0). set_solver.
    - unfold accepts. rewrite decide_True by auto. rewrite E0, decide_False by auto. apply elem_of_list_further, elem_of_app. right. now left.
  Qed.
  Lemma run_market pr l : programs_ok at_market pr -> Forall (op_ok at_market) l -> forall i t, w_trades (run pr empty_world l) !! i = Some t ->
    from_run pr empty_world l (tr_epic t) (fun tk => opened_at tk t) /\ forall c, c ∈ tr_closes t -> from_run pr empty_world l (tr_epic t) (fun tk => closed_at tk t (terms c)).
  Proof.
    intros Hp Hl. assert (forall i t, w_trades (run pr empty_world l) !! i = Some t ->
      from_run pr empty_world l (tr_epic t) (fun tk => opened_at tk t) /\ Forall (fun x => from_run pr empty_world l (tr_epic t) (fun tk => closed_at tk t x)) (map terms (tr_closes t))) as HJ.
    { induction l as [|o l IH] using rev_ind; [intros i t E; discriminate|]. apply Forall_app in Hl as [Hl Ho]. inversion Ho as [|? ? Ho' _]; subst. specialize (IH Hl). intros i t Ht.
      assert (forall x p, now (w_epics (run pr empty_world (l ++ [o]))) x p -> from_run pr empty_world (l ++ [o]) (tr_epic x) p) as Hnow.
      { intros x p (e & Ee & Hx). exists (ep_last e). split; [|auto]. apply from_run_epic; [intros ? ? E; discriminate|exact Ee]. }
      rewrite run_snoc in Ht. pose proof (step_market pr (run pr empty_world l) o Hp Ho' i) as A. rewrite Ht in A. rewrite run_snoc in Hnow.
      destruct (w_trades (run pr empty_world l) !! i) as [t0|] eqn:E0.
      - destruct A as (D & new & En & Fn). destruct (IH i t0 E0) as [O0 C0]. pose proof D as (D1 & _ & D3 & D4 & D5 & _). split.
        + rewrite D1. apply from_run_more. destruct O0 as (tk & Hin & O1 & O2). exists tk. split; [auto|]. unfold opened_at. now rewrite D3, D4, D5.
        + rewrite En. apply Forall_app. split.
          * eapply Forall_impl; [exact C0|]. intros [[v q] d] C. rewrite D1. apply from_run_more. destruct C as (tk & Hin & C). exists tk. split; [auto|]. unfold closed_at in *. now rewrite D3.
          * eapply Forall_impl; [exact Fn|]. intros x. apply Hnow.
      - destruct A as [On Fn]. split; [now apply Hnow|]. eapply Forall_impl; [exact Fn|]. intros x. apply Hnow. }
    intros i t Ht. destruct (HJ i t Ht) as [O C]. split; [auto|]. intros c Hc. rewrite Forall_forall in C. apply C. apply elem_of_list_fmap. eauto.
  Qed.

  (** ** Order of dates *)
  Lemma sorted_snoc_le (l : list Z) x y : x <= y -> Sorted Z.le (l ++ [x]) -> Sorted Z.le (l ++ [y]).
  Proof.
    intros Hxy. induction l as [|a l IH]; intros Hs; [repeat constructor|]. cbn [app] in *. inversion Hs as [|? ? Hs' Hd]; subst. constructor; [auto|].
    destruct l as [|b l]; cbn [app] in *; inversion Hd; subst; constructor; lia.
  Qed.
  Lemma sorted_snoc_same (l : list Z) x m : Sorted Z.le (l ++ [x]) -> Sorted Z.le ((l ++ replicate m x) ++ [x]).
  Proof.
    induction m as [|m IH]; intros Hs; [now rewrite app_nil_r|]. specialize (IH Hs). replace (replicate (S m) x) with (replicate m x ++ [x]).
    2:{ symmetry. apply (replicate_S_end m x). }
    rewrite (app_assoc l). set (a := l ++ replicate m x) in *. clearbody a. clear Hs. induction a as [|c a IHa]; [repeat constructor; lia|]. cbn [app] in *. inversion IH as [|? ? Hs' Hd]; subst.
    constructor; [auto|]. destruct a as [|d a]; cbn [app] in *; inversion Hd; subst; constructor; auto.
  Qed.
  Definition dated w : Prop := forall i t, w_trades w !! i = Some t -> exists e, w_epics w !! tr_epic t = Some e /\ (ar_tz (tr_dt t) = ep_tz e -> well_dated e t).
  (** The epics go forward, the trades stay. *)
  Definition onward (es es' : list (epic F)) : Prop := forall eid e, es !! eid = Some e ->
    exists e', es' !! eid = Some e' /\ ep_tz e' = ep_tz e /\ (has_ticked e -> has_ticked e' /\ ar_wall (tk_dt (ep_last e)) <= ar_wall (tk_dt (ep_last e'))).
  Lemma dated_onward w w' : onward (w_epics w) (w_epics w') -> w_trades w' = w_trades w -> dated w -> dated w'.
  Proof.
    intros Ho Et Hd i t Ht. rewrite Et in Ht. destruct (Hd i t Ht) as (e & Ee & Hc). destruct (Ho _ _ Ee) as (e' & Ee' & Ez & Hl). exists e'. split; [auto|]. rewrite Ez. intros Hz.
    destruct (Hc Hz) as [C1 C2]. apply Forall_cons in C1 as [C0 C1]. apply Forall_app in C1 as [C1 C3]. inversion C3 as [|? ? C3' _]; subst. destruct (Hl C3') as [T1 L1].
    split; rewrite ?Ez.
    - constructor; [congruence|]. apply Forall_app. split; [auto|]. constructor; [|constructor]. unfold has_ticked in T1. congruence.
    - cbn [map] in C2 |- *. rewrite map_app in C2 |- *. cbn [map] in C2 |- *. rewrite app_comm_cons in C2 |- *. eapply sorted_snoc_le; eauto.
  Qed.
  Lemma dated_stays w w' : stays w w' -> dated w -> dated w'.
  Proof.
    intros [Ee A] Hd i t Ht. specialize (A i). rewrite Ht in A.
    assert (forall e x, (now (w_epics w) t (fun tk => closed_at tk t x)) -> w_epics w !! tr_epic t = Some e -> snd x = tk_dt (ep_last e)) as Hdt.
    { intros e [[v q] d] (e1 & E1 & C & _) E2. cbn. congruence. }
    assert (forall e l, w_epics w !! tr_epic t = Some e -> Forall (fun x => now (w_epics w) t (fun tk => closed_at tk t x)) l -> map snd l = replicate (length l) (tk_dt (ep_last e))) as Hrep.
    { intros e l E2 Hf. induction Hf as [|x l Hx Hf IH]; [reflexivity|]. cbn [map length replicate]. f_equal; [eapply Hdt; eauto|exact IH]. }
    assert (map tc_dt (tr_closes t) = map snd (map terms (tr_closes t))) as Em by now rewrite map_map.
    assert (forall m (x : arrow), map ar_wall (replicate m x) = replicate m (ar_wall x)) as Hmr by (intros m x; induction m; cbn; congruence).
    destruct (w_trades w !! i) as [t0|] eqn:E0.
    - destruct A as (D & new & En & Fn). destruct (Hd i t0 E0) as (e & He & Hc). pose proof D as (D1 & _ & D3 & D4 & D5 & _). exists e. rewrite Ee, D1. split; [auto|]. rewrite D5. intros Hz.
      destruct (Hc Hz) as [C1 C2]. rewrite <- D1 in He. pose proof (Hrep e new He Fn) as Hn. assert (map tc_dt (tr_closes t) = map tc_dt (tr_closes t0) ++ replicate (length new) (tk_dt (ep_last e))) as Ed.
      { rewrite Em, En, map_app, Hn, map_map. reflexivity. }
      unfold well_dated. cbv zeta. rewrite D5, Ed. apply Forall_cons in C1 as [C0 C1]. apply Forall_app in C1 as [C1 C3]. split.
      + constructor; [auto|]. apply Forall_app. split; [|auto]. apply Forall_app. split; [auto|]. inversion C3; subst. now apply Forall_replicate.
      + cbn [map] in C2 |- *. rewrite !map_app in C2 |- *. cbn [map] in C2 |- *. rewrite ?map_app, Hmr. rewrite app_comm_cons in C2. rewrite !app_comm_cons. now apply sorted_snoc_same.
    - destruct A as [(e & He & O1 & O2) Fn]. exists e. rewrite Ee. split; [auto|]. rewrite O2. intros Hz. pose proof (Hrep e _ He Fn) as Hn. rewrite <- Em in Hn. unfold well_dated. cbv zeta. rewrite O2, Hn. split.
      + constructor; [auto|]. apply Forall_app. split; [now apply Forall_replicate|repeat constructor; auto].
      + cbn [map]. rewrite map_app, Hmr. cbn [map]. apply (sorted_snoc_same [ar_wall (tk_dt (ep_last e))]). constructor; [repeat constructor|constructor; lia].
  Qed.
  Lemma onward_refl es : onward es es.
  Proof. intros eid e He. exists e. split; [auto|]. split; [auto|]. intros Ht. split; [auto|lia]. Qed.
  Lemma reach_dated w : reach at_market w -> dated w.
  Proof.
    intros Hr. induction Hr as [|w c Hr IH Hc|pr w o Hr IH Ho|w eid e tk Hr IH He Ha|w eid e x Hr IH He Hx|w eid e Hr IH He|w sid s d Hr IH Hs|w l Hr IH].
    - intros i t E. discriminate.
    - eapply dated_stays; [now apply stays_cmd|auto].
    - eapply dated_onward; [|now apply setup_trades|auto]. intros eid e He. destruct (setup_epic pr w o eid e Ho He) as (e' & E1 & K & E3 & E4). exists e'. split; [auto|].
      destruct K as (_ & K & _). split; [auto|]. unfold has_ticked. rewrite E3, K. intros Ht. split; [auto|lia].
    - apply (dated_onward w); [|reflexivity|exact IH]. intros j ej Ej. cbn [w_epics upd_epics]. destruct (decide (j = eid)) as [->|Hn].
      + rewrite list_lookup_insert by (eapply lookup_lt_Some; eauto). rewrite He in Ej. injection Ej as <-. eexists. split; [reflexivity|]. split; [reflexivity|]. intros Ht. split; [reflexivity|].
        cbn [ep_last ep_set_last]. assert (~ refused e tk) as Hnr by (unfold refused; change (arrow_to (ep_tz e) (tk_dt tk)) with (tk_dt (tick_to (ep_tz e) tk)); congruence).
        rewrite refused_wall in Hnr by auto. simpl. lia.
      + rewrite list_lookup_insert_ne by auto. apply onward_refl. exact Ej.
    - eapply dated_stays; [|exact IH]. apply stays_same; [apply update_fset_epics|]. unfold update_frame_set. destruct (w_fsets w !! x.2) as [fs|]; [|auto]. destruct (fs_epic_state w fs).
      now destruct (fs_on_new_tick _ _ _ _ _).
    - eapply dated_stays; [apply stays_value|exact IH].
    - eapply dated_stays; [|exact IH]. now apply stays_same.
    - eapply dated_stays; [|exact IH]. now apply stays_same.
  Qed.
  Lemma reach_chronological (P : cmd F -> Prop) w i t e : (forall c, P c -> at_market c) -> reach P w -> w_trades w !! i = Some t -> w_epics w !! tr_epic t = Some e -> ar_tz (tr_dt t) = ep_tz e -> well_dated e t.
  Proof.
    intros HP Hr Ht He. assert (reach at_market w) as Hr' by (eapply reach_mono; eauto). destruct (reach_dated w Hr' i t Ht) as (e' & He' & Hc). rewrite He in He'. now injection He' as <-.
  Qed.
End proofs.
