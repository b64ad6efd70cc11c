(** Request threads: every schedule gives the same figures (C16). *)
From Verif Require Export QuantityProofs.
Open Scope Z_scope.

Section proofs.
  Context {F : Type} `{Num F}.
  Implicit Types (w : world F) (t : trade F).

  (** ** Trades *)
  Lemma erase_closedq t : closed_quantities (erase_trade t) = closed_quantities t.
  Proof. unfold closed_quantities. f_equal. simpl. change (map tc_qty) with (fmap (M:=list) (@tc_qty F)). rewrite <- list_fmap_compose. apply list_fmap_ext. now intros i x _. Qed.
  Lemma erase_opened t : opened_quantities (erase_trade t) = opened_quantities t.
  Proof. unfold opened_quantities. now rewrite erase_closedq. Qed.
  Lemma erase_closed t : closed (erase_trade t) = closed t.
  Proof. unfold closed. now rewrite erase_opened. Qed.
  Lemma erase_result t : result (erase_trade t) = result t.
  Proof.
    unfold result. f_equal.
    - unfold opened_result, opened_result_avg. now rewrite erase_opened, erase_closed.
    - unfold closed_result. f_equal. simpl. change (map ?f) with (fmap (M:=list) f). rewrite <- list_fmap_compose. apply list_fmap_ext. now intros i x _.
  Qed.
  Lemma erase_set_cv t v : erase_trade (set_cv t v) = set_cv (erase_trade t) v.
  Proof. reflexivity. Qed.
  Lemma erase_set_maxmin t a b : erase_trade (set_maxmin t a b) = set_maxmin (erase_trade t) a b.
  Proof. reflexivity. Qed.
  Lemma erase_min_max t : update_min_max (erase_trade t) = erase_trade (update_min_max t).
  Proof.
    unfold update_min_max. rewrite erase_result. change (tr_max (erase_trade t)) with (tr_max t). change (tr_min (erase_trade t)) with (tr_min t).
    destruct (fltb (tr_max t) (result t)).
    - rewrite <- erase_set_maxmin. rewrite erase_result. set (u := set_maxmin t _ _). change (tr_min (erase_trade u)) with (tr_min u). change (tr_max (erase_trade u)) with (tr_max u).
      now destruct (fltb (result u) (tr_min u)).
    - rewrite erase_result. change (tr_min (erase_trade t)) with (tr_min t). now destruct (fltb (result t) (tr_min t)).
  Qed.
  Lemma erase_update t v : update (erase_trade t) v = erase_trade (update t v).
  Proof. unfold update. rewrite erase_closed. destruct (closed t); [auto|]. now rewrite <- erase_set_cv, erase_min_max. Qed.
  Lemma erase_update_tick t tk : update_from_tick (erase_trade t) tk = erase_trade (update_from_tick t tk).
  Proof. unfold update_from_tick. apply erase_update. Qed.
  Lemma erase_close_quantity t q : close_quantity (erase_trade t) q = close_quantity t q.
  Proof. unfold close_quantity. now rewrite erase_opened. Qed.
  Lemma erase_close t v d q ref : close (erase_trade t) v d q ref = rmap (fun x => (erase_trade x.1, x.2)) (close t v d q ref).
  Proof.
    unfold close. destruct (timed_set d) as [dt|e]; [|auto]. simpl. rewrite erase_close_quantity. f_equal. f_equal.
    unfold erase_trade, set_closes. simpl. f_equal. now rewrite fmap_app.
  Qed.
  Lemma erase_close_tick t tk q ref : close_from_tick (erase_trade t) tk q ref = rmap (fun x => (erase_trade x.1, x.2)) (close_from_tick t tk q ref).
  Proof. unfold close_from_tick. rewrite erase_update_tick. cbv zeta. change (tr_cv (erase_trade ?x)) with (tr_cv x). apply erase_close. Qed.
  Lemma erase_set_oq t q : erase_trade (set_oq t q) = set_oq (erase_trade t) q.
  Proof. reflexivity. Qed.
  Lemma erase_created tk e d q s ref : rmap erase_trade (open_from_tick (F:=F) tk e d q s ref) = open_from_tick tk e d q s ref.
  Proof. destruct d as [[|]|]; reflexivity. Qed.

  (** ** World operations *)
  Definition er {A} (x : world F * A) : world F * A := (erase x.1, x.2).
  Lemma erase_t w i : w_trades (erase w) !! i = erase_trade <$> w_trades w !! i.
  Proof. apply list_lookup_fmap. Qed.
  Lemma erase_p w i : w_provs (erase w) !! i = erase_prov <$> w_provs w !! i.
  Proof. apply list_lookup_fmap. Qed.
  Lemma erase_upd_insert w i t : upd_trades (erase w) (<[i := erase_trade t]> (w_trades (erase w))) = erase (upd_trades w (<[i:=t]> (w_trades w))).
  Proof. unfold erase, upd_trades. simpl. f_equal. symmetry. apply list_fmap_insert. Qed.
  Lemma erase_upd_alter w i f : (forall t, f (erase_trade t) = erase_trade (f t)) ->
    upd_trades (erase w) (alter f i (w_trades (erase w))) = erase (upd_trades w (alter f i (w_trades w))).
  Proof. intros Hf. unfold erase, upd_trades. simpl. f_equal. symmetry. apply list_alter_fmap. apply Forall_true. intros t. symmetry. apply Hf. Qed.
  Lemma erase_add_thread w pid j : add_thread (erase w) pid j = erase (add_thread w pid j).
  Proof.
    unfold add_thread, erase, upd_provs. simpl. f_equal. symmetry. apply list_alter_fmap. apply Forall_true. intros p.
    unfold erase_prov, pv_set_threads. simpl. now rewrite fmap_app.
  Qed.
  Lemma erase_close_from_epic w tid q ref : close_from_epic (erase w) tid q ref = rmap (fun x => (erase x.1, x.2)) (close_from_epic w tid q ref).
  Proof.
    unfold close_from_epic. rewrite erase_t. destruct (w_trades w !! tid) as [t|]; [|auto]. cbn [fmap option_fmap option_map].
    change (tr_epic (erase_trade t)) with (tr_epic t). change (w_epics (erase w)) with (w_epics w). destruct (w_epics w !! tr_epic t) as [e|]; [|auto].
    rewrite erase_close_tick. destruct (close_from_tick t (ep_last e) q ref) as [[t' c]|x]; [|auto]. cbn [rmap rbind fst snd].
    rewrite erase_upd_insert. change (tr_closes (erase_trade t)) with ((fun c => set_cstatus c CREATED) <$> tr_closes t). now rewrite fmap_length.
  Qed.
  Lemma erase_net_step pid tid ref w oid : net_step pid tid ref (erase w) oid = er (net_step pid tid ref w oid).
  Proof.
    unfold net_step. rewrite !erase_t. destruct (w_trades w !! tid) as [t|]; [|auto]. destruct (w_trades w !! oid) as [o|]; [|auto].
    cbn [fmap option_fmap option_map]. rewrite erase_opened. change (tr_dir (erase_trade ?x)) with (tr_dir x). change (tr_strat (erase_trade ?x)) with (tr_strat x).
    change (tr_oq (erase_trade t)) with (tr_oq t).
    destruct (dir_eqb _ _); [|auto]. destruct (bool_decide _); [|auto]. cbv zeta. rewrite erase_close_from_epic.
    destruct (close_from_epic w oid _ ref) as [[w1 ci]|x]; [|auto]. cbn [rmap fst snd]. unfold provider_close_trade. rewrite erase_add_thread.
    rewrite erase_upd_alter by (now intros x). reflexivity.
  Qed.
  Lemma erase_forM {A} (f : world F -> A -> world F * res unit) l w :
    (forall w x, f (erase w) x = er (f w x)) -> forM f (erase w) l = er (forM f w l).
  Proof.
    intros Hf. revert w. induction l as [|x l IH]; intros w; simpl; [auto|]. rewrite Hf. destruct (f w x) as [w1 [u|e]]; simpl; [apply IH|auto].
  Qed.
  Lemma erase_base_open w pid tid : base_open_trade (erase w) pid tid = erase (base_open_trade w pid tid).
  Proof.
    unfold base_open_trade. rewrite erase_t. destruct (w_trades w !! tid) as [t|]; [|auto]. cbn [fmap option_fmap option_map]. cbv zeta.
    change (tr_strat (erase_trade t)) with (tr_strat t).
    assert (upd_provs (erase w) (alter (fun p => pv_set_trades p (pv_trades p ++ [tid])) pid (w_provs (erase w))) =
            erase (upd_provs w (alter (fun p => pv_set_trades p (pv_trades p ++ [tid])) pid (w_provs w)))) as ->.
    { unfold erase, upd_provs. simpl. f_equal. symmetry. apply list_alter_fmap. apply Forall_true. now intros p. }
    destruct (tr_strat t) as [s|]; [|apply erase_add_thread]. rewrite <- erase_add_thread. reflexivity.
  Qed.
  Lemma erase_opened_trades w p : opened_trades (erase w) (erase_prov p) = opened_trades w p.
  Proof.
    unfold opened_trades. simpl. apply filter_ext_in. intros i _. unfold trade_open_b. rewrite erase_t. destruct (w_trades w !! i) as [t|]; [|auto].
    simpl. now rewrite erase_closed.
  Qed.
  Lemma erase_provider_open w pid tid ref : provider_open_trade (erase w) pid tid ref = er (provider_open_trade w pid tid ref).
  Proof.
    unfold provider_open_trade. rewrite erase_p. destruct (w_provs w !! pid) as [p|] eqn:Ep; [|auto]. cbn [fmap option_fmap option_map].
    change (pv_kind (erase_prov p)) with (pv_kind p). destruct (pv_kind p); [|unfold er; simpl; now rewrite erase_base_open|unfold er; simpl; now rewrite erase_base_open].
    unfold backtest_open_trade. rewrite erase_p, Ep. cbn [fmap option_fmap option_map]. rewrite erase_opened_trades, erase_forM by (apply erase_net_step).
    destruct (forM _ _ _) as [w1 [u|e]]; [|auto]. cbn [er fst snd]. rewrite erase_t. destruct (w_trades w1 !! tid) as [t|]; [|auto]. cbn [fmap option_fmap option_map].
    change (tr_oq (erase_trade t)) with (tr_oq t). destruct (tr_oq t <=? 0); [auto|]. unfold er. simpl. now rewrite erase_base_open.
  Qed.
  Lemma erase_open w eid d q s ref : epic_open_trade (erase w) eid d q s ref = er (epic_open_trade w eid d q s ref).
  Proof.
    unfold epic_open_trade. change (w_epics (erase w)) with (w_epics w). change (w_strats (erase w)) with (w_strats w). destruct (w_epics w !! eid) as [e|]; [|auto].
    destruct (valid_id _ _); [|auto]. pose proof (erase_created (ep_last e) eid d q s ref) as E. destruct (open_from_tick (ep_last e) eid d q s ref) as [t|x]; [|auto].
    cbn [rmap] in E. injection E as E. cbv zeta. assert (length (w_trades (erase w)) = length (w_trades w)) as -> by (apply fmap_length).
    assert (upd_trades (erase w) (w_trades (erase w) ++ [t]) = erase (upd_trades w (w_trades w ++ [t]))) as ->.
    { unfold erase, upd_trades. simpl. f_equal. rewrite fmap_app. simpl. now rewrite E. }
    rewrite erase_provider_open. now destruct (provider_open_trade _ _ _ _) as [w' [u|x]].
  Qed.
  Lemma erase_epic_close w eid tid q ref : epic_close_trade (erase w) eid tid q ref = er (epic_close_trade w eid tid q ref).
  Proof.
    unfold epic_close_trade. change (w_epics (erase w)) with (w_epics w). destruct (w_epics w !! eid) as [e|]; [|auto]. rewrite erase_close_from_epic.
    destruct (close_from_epic w tid q ref) as [[w1 ci]|x]; [|auto]. cbn [rmap fst snd]. unfold provider_close_trade. now rewrite erase_add_thread.
  Qed.
  Lemma erase_strategy_close w tid q ref : strategy_close_trade (erase w) tid q ref = er (strategy_close_trade w tid q ref).
  Proof. unfold strategy_close_trade. rewrite erase_t. destruct (w_trades w !! tid) as [t|]; [|auto]. cbn [fmap option_fmap option_map]. apply erase_epic_close. Qed.

  Lemma erase_job k j (ts : list (trade F)) : erase_trade <$> job_effect k j ts = erase_trade <$> ts.
  Proof.
    assert (forall f i, (forall t, erase_trade (f t) = erase_trade t) -> erase_trade <$> alter f i ts = erase_trade <$> ts) as Hf.
    { intros f i Hf. apply list_eq. intros n. rewrite !list_lookup_fmap. destruct (decide (i = n)) as [->|Hn].
      - rewrite list_lookup_alter. destruct (ts !! n); simpl; [now rewrite Hf|auto].
      - now rewrite list_lookup_alter_ne. }
    assert (forall i s (l : list (tclose F)), (fun c => set_cstatus c CREATED) <$> alter (fun c => set_cstatus c s) i l = (fun c => set_cstatus c CREATED) <$> l) as Hc.
    { intros i s l. apply list_eq. intros n. rewrite !list_lookup_fmap. destruct (decide (i = n)) as [->|Hn].
      - rewrite list_lookup_alter. now destruct (l !! n).
      - now rewrite list_lookup_alter_ne. }
    unfold job_effect. destruct k; [|auto|]; destruct j; apply Hf; intros t; unfold erase_trade, set_closes; simpl; rewrite ?Hc; reflexivity.
  Qed.
  Lemma erase_run_thread w pid k : erase (run_thread w pid k) = erase w.
  Proof.
    unfold run_thread. destruct (w_provs w !! pid) as [p|] eqn:Ep; [|auto]. destruct (pv_threads p !! k) as [th|] eqn:Et; [|auto]. destruct (th_done th); [auto|].
    unfold erase. simpl. rewrite erase_job. f_equal. rewrite list_fmap_insert. apply list_insert_id. rewrite list_lookup_fmap, Ep. simpl. f_equal.
    unfold erase_prov, pv_set_threads. simpl. f_equal. rewrite list_fmap_insert. symmetry. apply list_insert_id. rewrite list_lookup_fmap, Et. reflexivity.
  Qed.

  (** Two computations that agree up to statuses. *)
  Definition rel {A} (f g : world F -> world F * A) : Prop := forall w w', erase w = erase w' -> er (f w) = er (g w').
  Lemma comm_rel {A} (f : world F -> world F * A) : (forall w, f (erase w) = er (f w)) -> rel f f.
  Proof. intros Hf w w' E. now rewrite <- !Hf, E. Qed.

  Lemma er_eq {A} (x y : world F * A) : er x = er y <-> erase x.1 = erase y.1 /\ x.2 = y.2.
  Proof. destruct x, y. unfold er. simpl. split; [intros E; split; [exact (f_equal fst E)|exact (f_equal snd E)]|]. now intros [-> ->]. Qed.
  Lemma erase_upd w w' (f : world F -> world F) : erase w = erase w' -> (forall w, f (erase w) = erase (f w)) -> erase (f w) = erase (f w').
  Proof. intros E Hf. now rewrite <- !Hf, E. Qed.

  Lemma rel_cmd c : rel (fun w => run_cmd w c) (fun w => run_cmd w c).
  Proof.
    destruct c as [e d q s ref|t q ref|e t q ref|s q ref|t v|t|t v d q ref|t q ref|s u|s b|p k].
    - apply comm_rel. intros w. simpl. rewrite erase_open. now destruct (epic_open_trade w e d q s ref).
    - apply comm_rel. intros w. apply erase_strategy_close.
    - apply comm_rel. intros w. apply erase_epic_close.
    - apply comm_rel. intros w. simpl. unfold close_opened_trades. change (w_strats (erase w)) with (w_strats w). destruct (w_strats w !! s) as [x|]; [|auto].
      apply erase_forM. intros w1 i. unfold close_opened_step, trade_open_b. rewrite erase_t. destruct (w_trades w1 !! i) as [t|]; [|auto]. cbn [fmap option_fmap option_map].
      rewrite erase_closed. destruct (closed t); [auto|]. apply erase_strategy_close.
    - apply comm_rel. intros w. unfold run_cmd. rewrite erase_upd_alter; [auto|]. intros x. apply erase_update.
    - apply comm_rel. intros w. unfold run_cmd. rewrite erase_t. destruct (w_trades w !! t) as [x|]; [|auto]. cbn [fmap option_fmap option_map].
      change (tr_epic (erase_trade x)) with (tr_epic x). change (w_epics (erase w)) with (w_epics w). destruct (w_epics w !! tr_epic x) as [e|]; [|auto].
      rewrite erase_update_tick. now rewrite erase_upd_insert.
    - apply comm_rel. intros w. unfold run_cmd. rewrite erase_t. destruct (w_trades w !! t) as [x|]; [|auto]. cbn [fmap option_fmap option_map].
      rewrite erase_close. destruct (close x v d q ref) as [[x' c]|e]; [|auto]. cbn [rmap fst snd]. now rewrite erase_upd_insert.
    - apply comm_rel. intros w. unfold run_cmd. rewrite erase_close_from_epic. now destruct (close_from_epic w t q ref) as [[w' ci]|e].
    - apply comm_rel. reflexivity.
    - apply comm_rel. reflexivity.
    - intros w w' E. unfold er. simpl. now rewrite !erase_run_thread, E.
  Qed.

  Lemma rel_script s s' : woven s s' -> rel (fun w => run_script w s) (fun w => run_script w s').
  Proof.
    intros Hw. induction Hw as [|e|c k k' Hk IH|p n s k' Hk IH]; intros w w' E.
    - unfold er. simpl. now rewrite E.
    - unfold er. simpl. now rewrite E.
    - cbn [run_script]. pose proof (rel_cmd c w w' E) as E1. cbv beta in E1. destruct (run_cmd w c) as [w1 r1], (run_cmd w' c) as [w1' r1']. apply er_eq in E1 as [E1 E1r]. simpl in E1, E1r. subst r1'. apply (IH w1 w1' r1); auto.
    - cbn [run_script run_cmd]. apply IH. now rewrite erase_run_thread.
  Qed.
  Lemma rel_forM {A} (f g : world F -> A -> world F * res unit) l : (forall x, rel (fun w => f w x) (fun w => g w x)) -> rel (fun w => forM f w l) (fun w => forM g w l).
  Proof.
    intros Hf. induction l as [|x l IH]; intros w w' E; simpl.
    - unfold er. simpl. now rewrite E.
    - pose proof (Hf x w w' E) as E1. cbv beta in E1. destruct (f w x) as [w1 r1], (g w' x) as [w1' r1']. apply er_eq in E1 as [E1 E1r]. simpl in E1, E1r. subst r1'. destruct r1; [apply IH; auto|]. unfold er. simpl. now rewrite E1.
  Qed.
  Lemma rel_andthen x x' (f g : world F -> world F * res unit) : er x = er x' -> rel f g -> er (andthen x f) = er (andthen x' g).
  Proof.
    intros E Hf. destruct x as [w r], x' as [w' r']. apply er_eq in E as [E E1r]. simpl in E, E1r. subst r'. destruct r; simpl; [now apply Hf|]. unfold er. simpl. now rewrite E.
  Qed.
  Lemma erase_parts w w' : erase w = erase w' -> w_strats w = w_strats w' /\ w_epics w = w_epics w' /\ w_fsets w = w_fsets w' /\ w_log w = w_log w'.
  Proof. intros E. repeat split; [change (w_strats w) with (w_strats (erase w))|change (w_epics w) with (w_epics (erase w))|change (w_fsets w) with (w_fsets (erase w))|change (w_log w) with (w_log (erase w))]; rewrite E; reflexivity. Qed.
  Lemma rel_callback pr pr' sid cb eid : woven_programs pr pr' -> rel (run_callback pr sid cb eid) (run_callback pr' sid cb eid).
  Proof.
    intros Hp w w' E. unfold run_callback. cbv zeta. destruct (erase_parts w w' E) as (_ & _ & _ & El). apply (rel_script _ _ (Hp sid cb eid w w' E)).
    rewrite El. now apply (erase_upd w w' (fun w => upd_log w (w_log w' ++ [{| ev_strat := sid; ev_cb := cb; ev_epic := eid |}]))).
  Qed.
  Lemma rel_strategy pr pr' eid mo x : woven_programs pr pr' -> rel (fun w => execute_strategy pr eid mo w x) (fun w => execute_strategy pr' eid mo w x).
  Proof.
    intros Hp w w' E. unfold execute_strategy. destruct (erase_parts w w' E) as (Es & Ee & _). rewrite <- Es, <- Ee.
    destruct (w_strats w !! x.2) as [s|]; [|unfold er; simpl; now rewrite E]. destruct (w_epics w !! eid) as [e|]; [|unfold er; simpl; now rewrite E].
    destruct (is_active s (tk_dt (ep_last e))) as [s' act].
    assert (erase (upd_strats w (<[x.2:=s']> (w_strats w))) = erase (upd_strats w' (<[x.2:=s']> (w_strats w)))) as E1.
    { now apply (erase_upd w w' (fun x0 => upd_strats x0 (<[x.2:=s']> (w_strats w)))). }
    destruct act; [|unfold er; cbn [fst snd]; now rewrite E1].
    apply rel_andthen.
    - destruct (eqb mo (ep_mopen e)); [unfold er; cbn [fst snd]; now rewrite E1|]. destruct mo; now apply rel_callback.
    - intros w2 w2' E2. apply rel_andthen; [|now apply rel_callback]. destruct (ep_mopen e); [now apply rel_callback|]. unfold er; cbn [fst snd]; now rewrite E2.
  Qed.
  Lemma erase_value w pid tk : update_open_trades (erase w) pid tk = erase (update_open_trades w pid tk).
  Proof.
    unfold update_open_trades. rewrite erase_p. destruct (w_provs w !! pid) as [p|]; [|auto]. cbn [fmap option_fmap option_map]. rewrite erase_opened_trades.
    unfold erase, upd_trades. simpl. f_equal. generalize (w_trades w) as ts. induction (opened_trades w p) as [|i l IH]; intros ts; simpl; [auto|]. rewrite <- IH. f_equal.
    symmetry. apply list_alter_fmap. apply Forall_true. intros t. symmetry. apply erase_update_tick.
  Qed.
  Lemma rel_tick pr pr' eid tk : woven_programs pr pr' -> rel (fun w => epic_on_new_tick pr w eid tk) (fun w => epic_on_new_tick pr' w eid tk).
  Proof.
    intros Hp w w' E. unfold epic_on_new_tick. destruct (erase_parts w w' E) as (_ & Ee & _). rewrite <- Ee.
    destruct (w_epics w !! eid) as [e|]; [|unfold er; simpl; now rewrite E]. cbv zeta. destruct (arrow_ltb _ _); [unfold er; simpl; now rewrite E|].
    apply rel_andthen.
    - apply rel_forM.
      + intros x. apply comm_rel. intros w1. unfold update_frame_set. change (w_fsets (erase w1)) with (w_fsets w1). destruct (w_fsets w1 !! x.2) as [fs|]; [|auto].
        change (fs_epic_state (erase w1) fs) with (fs_epic_state w1 fs). destruct (fs_epic_state w1 fs). destruct (fs_on_new_tick _ _ _ _ _). reflexivity.
      + now apply (erase_upd w w' (fun x => upd_epics x (<[eid:=ep_set_last e (tick_to (ep_tz e) tk) (is_market_open e (tick_to (ep_tz e) tk))]> (w_epics w)))).
    - intros w2 w2' E2. apply rel_forM; [intros x; now apply rel_strategy|]. now rewrite <- !erase_value, E2.
  Qed.
  Lemma rel_step pr pr' o : woven_programs pr pr' -> rel (fun w => step pr w o) (fun w => step pr' w o).
  Proof.
    intros Hp. destruct o as [k|ref|u q ref m|ref tz op cl ds hs pv|eid fid|eid sid|fid i|e tk|c].
    - apply comm_rel. intros w. unfold er, erase, upd_provs. simpl. now rewrite fmap_app.
    - apply comm_rel. reflexivity.
    - apply comm_rel. intros w. simpl. now destruct (fset_init u q ref m).
    - apply comm_rel. intros w. simpl. unfold new_epic. destruct tz as [z|]; [|auto].
      assert (valid_id (w_provs (erase w)) pv = valid_id (w_provs w) pv) as -> by (destruct pv; simpl; now rewrite ?fmap_length).
      destruct (valid_id (w_provs w) pv); [|auto]. cbv zeta. destruct pv as [pid|]; [reflexivity|]. unfold er, erase, upd_epics, upd_provs. simpl. now rewrite fmap_app, fmap_length.
    - apply comm_rel. intros w. simpl. unfold add_frame_set. change (w_epics (erase w)) with (w_epics w). change (w_fsets (erase w)) with (w_fsets w).
      destruct (w_epics w !! eid); [|auto]. destruct (w_fsets w !! fid); [|auto]. now destruct (dict_get _ _).
    - apply comm_rel. intros w. simpl. unfold add_strategy. change (w_epics (erase w)) with (w_epics w). change (w_strats (erase w)) with (w_strats w).
      destruct (w_epics w !! eid); [|auto]. destruct (w_strats w !! sid); [|auto]. now destruct (dict_get _ _).
    - apply comm_rel. intros w. simpl. change (w_fsets (erase w)) with (w_fsets w). destruct (w_fsets w !! fid); [|auto]. now destruct (add_indicator _ _).
    - now apply rel_tick.
    - apply rel_cmd.
  Qed.
  Lemma rel_run pr pr' l l' w w' : woven_programs pr pr' -> woven_ops l l' -> erase w = erase w' -> erase (run pr w l) = erase (run pr' w' l').
  Proof.
    intros Hp Hl. revert w w'. induction Hl as [|o l l' Hl IH|p n l l' Hl IH]; intros w w' E; [auto| |].
    - apply IH. pose proof (rel_step pr pr' o Hp w w' E) as E1. now apply er_eq in E1 as [E1 _].
    - apply IH. change (erase w = erase (run_thread w' p n)). now rewrite erase_run_thread.
  Qed.

  (** What [erase] keeps. *)
  Lemma erase_same_trade w w' i t : erase w = erase w' -> w_trades w !! i = Some t -> exists t', w_trades w' !! i = Some t' /\
    opened_quantities t' = opened_quantities t /\ closed_quantities t' = closed_quantities t /\ result t' = result t /\
    tr_cv t' = tr_cv t /\ tr_max t' = tr_max t /\ tr_min t' = tr_min t /\ tr_oq t' = tr_oq t /\
    map tc_value (tr_closes t') = map tc_value (tr_closes t) /\ map tc_qty (tr_closes t') = map tc_qty (tr_closes t).
  Proof.
    intros E Ht. assert (erase_trade <$> w_trades w' !! i = Some (erase_trade t)) as E1 by (rewrite <- erase_t, <- E, erase_t, Ht; reflexivity).
    destruct (w_trades w' !! i) as [t'|]; [|discriminate]. simpl in E1. assert (erase_trade t' = erase_trade t) as E2 by congruence. clear E1. exists t'. split; [auto|].
    rewrite <- (erase_opened t'), <- (erase_closedq t'), <- (erase_result t'), E2, erase_opened, erase_closedq, erase_result.
    pose proof (f_equal tr_cv E2). pose proof (f_equal tr_max E2). pose proof (f_equal tr_min E2). pose proof (f_equal tr_oq E2). pose proof (f_equal tr_closes E2) as E3. simpl in *.
    repeat split; auto.
    - apply (f_equal (fmap tc_value)) in E3. rewrite <- !list_fmap_compose in E3. exact E3.
    - apply (f_equal (fmap tc_qty)) in E3. rewrite <- !list_fmap_compose in E3. exact E3.
  Qed.
End proofs.
