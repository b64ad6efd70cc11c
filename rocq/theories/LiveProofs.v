(** Backtests and live providers (C67). *)
From Verif Require Export SpecLive ScheduleProofs LedgerProofs QuantityProofs StrategyProofs.
Open Scope Z_scope.

Section proofs.
  Context {F : Type} `{Num F}.
  Implicit Types (w v : world F).

  Definition lose_kind (p : provider) : provider := {| pv_kind := PBase; pv_trades := pv_trades p; pv_threads := pv_threads p |}.
  Definition lose w : world F := upd_provs w (lose_kind <$> w_provs w).
  Lemma plain_erase w : plain w = lose (erase w).
  Proof. unfold plain, lose, erase, upd_provs. simpl. f_equal. rewrite <- list_fmap_compose. reflexivity. Qed.
  Definition lo {A} (x : world F * A) : world F * A := (lose x.1, x.2).
  Definition pl {A} (x : world F * A) : world F * A := (plain x.1, x.2).
  Lemma pl_er {A} (x : world F * A) : pl x = lo (er x).
  Proof. unfold pl, lo, er. simpl. now rewrite plain_erase. Qed.
  Lemma lose_p w i : w_provs (lose w) !! i = lose_kind <$> w_provs w !! i.
  Proof. apply list_lookup_fmap. Qed.
  Lemma lose_trades w ts : upd_trades (lose w) ts = lose (upd_trades w ts).
  Proof. reflexivity. Qed.
  Lemma lose_alter w f i : (forall p, f (lose_kind p) = lose_kind (f p)) -> upd_provs (lose w) (alter f i (w_provs (lose w))) = lose (upd_provs w (alter f i (w_provs w))).
  Proof. intros Hf. unfold lose, upd_provs. simpl. f_equal. symmetry. apply list_alter_fmap. apply Forall_true. intros p. symmetry. apply Hf. Qed.
  Lemma lose_add_thread w pid j : add_thread (lose w) pid j = lose (add_thread w pid j).
  Proof. unfold add_thread. now apply lose_alter. Qed.
  Lemma lose_close_from_epic w tid q ref : close_from_epic (lose w) tid q ref = rmap (fun x => (lose x.1, x.2)) (close_from_epic w tid q ref).
  Proof.
    unfold close_from_epic. change (w_trades (lose w)) with (w_trades w). change (w_epics (lose w)) with (w_epics w). destruct (w_trades w !! tid) as [t|]; [|auto].
    destruct (w_epics w !! tr_epic t) as [e|]; [|auto]. now destruct (close_from_tick t (ep_last e) q ref) as [[t' c]|x].
  Qed.
  Lemma lose_epic_close w eid tid q ref : epic_close_trade (lose w) eid tid q ref = lo (epic_close_trade w eid tid q ref).
  Proof.
    unfold epic_close_trade. change (w_epics (lose w)) with (w_epics w). destruct (w_epics w !! eid) as [e|]; [|auto]. rewrite lose_close_from_epic.
    destruct (close_from_epic w tid q ref) as [[w1 ci]|x]; [|auto]. cbn [rmap fst snd]. unfold provider_close_trade. now rewrite lose_add_thread.
  Qed.
  Lemma lose_strategy_close w tid q ref : strategy_close_trade (lose w) tid q ref = lo (strategy_close_trade w tid q ref).
  Proof. unfold strategy_close_trade. change (w_trades (lose w)) with (w_trades w). destruct (w_trades w !! tid); [|auto]. apply lose_epic_close. Qed.
  Lemma lose_forM {A} (f : world F -> A -> world F * res unit) l w :
    (forall w x, f (lose w) x = lo (f w x)) -> forM f (lose w) l = lo (forM f w l).
  Proof. intros Hf. revert w. induction l as [|x l IH]; intros w; simpl; [auto|]. rewrite Hf. destruct (f w x) as [w1 [u|e]]; simpl; [apply IH|auto]. Qed.
  Lemma lose_base_open w pid tid : base_open_trade (lose w) pid tid = lose (base_open_trade w pid tid).
  Proof.
    unfold base_open_trade. change (w_trades (lose w)) with (w_trades w). destruct (w_trades w !! tid) as [t|]; [|auto]. cbv zeta.
    rewrite lose_alter by (now intros p). destruct (tr_strat t) as [s|]; [|apply lose_add_thread]. rewrite <- lose_add_thread. reflexivity.
  Qed.

  (** ** Openings that nothing opposes *)
  Lemma net_nothing pid tid ref w l t : w_trades w !! tid = Some t ->
    (forall i o, i ∈ l -> w_trades w !! i = Some o -> tr_strat o = tr_strat t -> tr_dir o <> dir_opp (tr_dir t)) -> (forall i, i ∈ l -> is_Some (w_trades w !! i)) ->
    forM (net_step pid tid ref) w l = (w, Ok ()).
  Proof.
    intros Ht. induction l as [|i l IH]; intros Hd Hs; [auto|]. simpl. destruct (Hs i (elem_of_list_here _ _)) as [o Ho]. unfold net_step at 1. rewrite Ht, Ho.
    assert (forall w' r, forM (net_step pid tid ref) w' l = r -> w' = w -> r = (w, Ok ())) as Go.
    { intros w' r <- ->. apply IH; [intros j x Hj; apply Hd; now apply elem_of_list_further|intros j Hj; apply Hs; now apply elem_of_list_further]. }
    destruct (dir_eqb (tr_dir o) (dir_opp (tr_dir t))) eqn:Ed; [|now eapply Go]. destruct (bool_decide (tr_strat o = tr_strat t)) eqn:Es; [|now eapply Go].
    apply bool_decide_eq_true in Es. exfalso. apply (Hd i o (elem_of_list_here _ _) Ho Es). now apply bool_decide_eq_true in Ed.
  Qed.
  Lemma open_plainly w eid d q s ref : one_way w (COpen eid d q s ref) ->
    epic_open_trade w eid d q s ref =
    match w_epics w !! eid, valid_id (w_strats w) s with
    | None, _ | _, false => (w, Err Dangling)
    | Some e, true =>
        match open_from_tick (ep_last e) eid d q s ref with
        | Err x => (w, Err x)
        | Ok t => match w_provs w !! ep_prov e with
                  | None => (upd_trades w (w_trades w ++ [t]), Err Dangling)
                  | Some _ => (base_open_trade (upd_trades w (w_trades w ++ [t])) (ep_prov e) (length (w_trades w)), Ok (length (w_trades w)))
                  end
        end
    end.
  Proof.
    intros [Hq Ho]. unfold epic_open_trade. destruct (w_epics w !! eid) as [e|] eqn:Ee; [|auto]. destruct (valid_id (w_strats w) s); [|auto].
    destruct (open_from_tick (ep_last e) eid d q s ref) as [t|x] eqn:Et; [|auto]. cbv zeta. unfold provider_open_trade.
    change (w_provs (upd_trades w (w_trades w ++ [t]))) with (w_provs w). destruct (w_provs w !! ep_prov e) as [p|] eqn:Ep; [|auto].
    destruct (pv_kind p); [|auto|auto]. unfold backtest_open_trade. change (w_provs (upd_trades w (w_trades w ++ [t]))) with (w_provs w). rewrite Ep.
    assert (w_trades (upd_trades w (w_trades w ++ [t])) !! length (w_trades w) = Some t) as Hl by (simpl; now rewrite lookup_app_r, Nat.sub_diag by lia).
    assert (tr_strat t = s /\ d = Dir (tr_dir t) /\ tr_oq t = q) as (Hts & Htd & Htq). { destruct d as [[|]|]; simpl in Et; [| |discriminate]; injection Et as <-; auto. }
    rewrite (net_nothing _ _ _ _ _ t Hl).
    - rewrite Hl. destruct (Z.leb_spec (tr_oq t) 0); [lia|]. reflexivity.
    - intros i o Hi Hio Hs Hd. apply elem_of_list_In, filter_In in Hi as [Hi Hop]. apply elem_of_list_In in Hi. rewrite elem_of_reverse in Hi.
      unfold trade_open_b in Hop. rewrite Hio in Hop. apply negb_true_iff in Hop. unfold closed in Hop. apply Z.eqb_neq in Hop.
      simpl in Hio. apply lookup_app_Some in Hio as [Hio|[Hge Hio]].
      + apply (Ho e p i o eq_refl Ep Hi Hio); [congruence|auto|]. rewrite Htd, Hd. now destruct (tr_dir t).
      + destruct (i - length (w_trades w))%nat; [|discriminate]. injection Hio as <-. now destruct (tr_dir t).
    - intros i Hi. apply elem_of_list_In, filter_In in Hi as [_ Hop]. unfold trade_open_b in Hop. now destruct (w_trades (upd_trades w (w_trades w ++ [t])) !! i).
  Qed.

  (** ** The same in both *)
  Lemma plain_parts w w' : plain w = plain w' -> w_strats w = w_strats w' /\ w_epics w = w_epics w' /\ w_fsets w = w_fsets w' /\ w_log w = w_log w'.
  Proof. intros E. repeat split; [change (w_strats w) with (w_strats (plain w))|change (w_epics w) with (w_epics (plain w))|change (w_fsets w) with (w_fsets (plain w))|change (w_log w) with (w_log (plain w))]; rewrite E; reflexivity. Qed.
  Lemma pl_eq {A} (x y : world F * A) : pl x = pl y <-> plain x.1 = plain y.1 /\ x.2 = y.2.
  Proof. destruct x, y. unfold pl. simpl. split; [intros E; split; [exact (f_equal fst E)|exact (f_equal snd E)]|]. now intros [-> ->]. Qed.
  Lemma plain_upd w w' (f : world F -> world F) : plain w = plain w' -> (forall w, f (plain w) = plain (f w)) -> plain (f w) = plain (f w').
  Proof. intros E Hf. now rewrite <- !Hf, E. Qed.
  Lemma plain_run_thread w p n : plain (run_thread w p n) = plain w.
  Proof. now rewrite !plain_erase, erase_run_thread. Qed.
  Lemma plain_t w i : w_trades (plain w) !! i = erase_trade <$> w_trades w !! i.
  Proof. apply list_lookup_fmap. Qed.
  Lemma plain_p w i : w_provs (plain w) !! i = plain_prov <$> w_provs w !! i.
  Proof. apply list_lookup_fmap. Qed.
  Lemma one_way_plain w w' c : plain w = plain w' -> one_way w c -> one_way w' c.
  Proof.
    intros E. destruct c as [eid d q s ref|t q ref|e t q ref|s q ref|t v|t|t v d q ref|t q ref|s u|s b|p k]; auto. intros [Hq Ho]. split; [auto|].
    intros e p i t He Hp Hi Ht Hs Hop. destruct (plain_parts w w' E) as (_ & Ee & _).
    assert (plain_prov <$> w_provs w !! ep_prov e = Some (plain_prov p)) as P1 by now rewrite <- plain_p, E, plain_p, Hp.
    assert (erase_trade <$> w_trades w !! i = Some (erase_trade t)) as T1 by now rewrite <- plain_t, E, plain_t, Ht.
    destruct (w_provs w !! ep_prov e) as [p0|] eqn:Ep; [|discriminate]. destruct (w_trades w !! i) as [t0|] eqn:Et; [|discriminate].
    apply (inj Some) in P1. apply (inj Some) in T1. pose proof (f_equal tr_strat T1) as T2. pose proof (f_equal tr_dir T1) as T3. pose proof (f_equal opened_quantities T1) as T4.
    rewrite !erase_opened in T4. change (tr_strat t0 = tr_strat t) in T2. change (tr_dir t0 = tr_dir t) in T3. rewrite <- T3. rewrite <- Ee in He.
    apply (Ho e p0 i t0 He Ep); [|auto|congruence|congruence]. pose proof (f_equal pv_trades P1) as P2. change (pv_trades p0 = pv_trades p) in P2. now rewrite P2.
  Qed.
  Lemma pl_open w eid d q s ref : one_way w (COpen eid d q s ref) -> pl (epic_open_trade w eid d q s ref) = epic_open_trade (plain w) eid d q s ref.
  Proof.
    intros Ho. assert (one_way (plain w) (COpen eid d q s ref)) as Hop.
    { apply (one_way_plain w); [|auto]. rewrite (plain_erase w), (plain_erase (lose (erase w))). unfold lose, erase, upd_provs. simpl. f_equal.
      - rewrite <- list_fmap_compose. apply list_fmap_ext. intros _ t _. unfold compose, erase_trade, set_closes. simpl. f_equal. rewrite <- list_fmap_compose. reflexivity.
      - rewrite <- !list_fmap_compose. apply list_fmap_ext. intros _ p _. unfold compose, erase_prov, lose_kind, pv_set_threads. simpl. f_equal. rewrite <- list_fmap_compose. reflexivity. }
    rewrite (open_plainly w eid d q s ref Ho), (open_plainly (plain w) eid d q s ref Hop). change (w_epics (plain w)) with (w_epics w). change (w_strats (plain w)) with (w_strats w).
    destruct (w_epics w !! eid) as [e|]; [|auto]. destruct (valid_id (w_strats w) s); [|auto].
    pose proof (erase_created (ep_last e) eid d q s ref) as E. destruct (open_from_tick (ep_last e) eid d q s ref) as [t|x]; [|auto].
    cbn [rmap] in E. injection E as E. rewrite plain_p. assert (length (w_trades (plain w)) = length (w_trades w)) as -> by (apply fmap_length).
    assert (upd_trades (plain w) (w_trades (plain w) ++ [t]) = plain (upd_trades w (w_trades w ++ [t]))) as ->.
    { unfold plain, upd_trades. simpl. f_equal. rewrite fmap_app. simpl. now rewrite E. }
    destruct (w_provs w !! ep_prov e) as [p|]; [|auto]. cbn [fmap option_fmap option_map]. unfold pl. cbn [fst snd]. f_equal. rewrite !plain_erase.
    now rewrite lose_base_open, erase_base_open.
  Qed.
  Lemma alike_cmd w w' c : plain w = plain w' -> one_way w c -> pl (run_cmd w c) = pl (run_cmd w' c).
  Proof.
    intros E Ho. assert (forall (f : world F -> world F * res unit), (forall w, f (erase w) = er (f w)) -> (forall w, f (lose w) = lo (f w)) -> pl (f w) = pl (f w')) as comm.
    { intros f Hf Hg. rewrite !pl_er, <- !Hf, <- !Hg, <- !plain_erase. now rewrite E. }
    destruct c as [eid d q s ref|t q ref|e t q ref|s q ref|t v|t|t v d q ref|t q ref|s u|s b|p k].
    - pose proof (pl_open w _ _ _ _ _ Ho) as E1. pose proof (pl_open w' _ _ _ _ _ (one_way_plain w w' _ E Ho)) as E2. rewrite E in E1. rewrite <- E2 in E1. simpl.
      destruct (epic_open_trade w eid d q s ref) as [v r], (epic_open_trade w' eid d q s ref) as [v' r']. apply pl_eq in E1 as [E1 E3]. simpl in E1, E3. subst r'. apply pl_eq. auto.
    - apply (comm (fun w => strategy_close_trade w t q ref)); intros; [apply erase_strategy_close|apply lose_strategy_close].
    - apply (comm (fun w => epic_close_trade w e t q ref)); intros; [apply erase_epic_close|apply lose_epic_close].
    - apply (comm (fun w => close_opened_trades w s q ref)); intros w0.
      + unfold close_opened_trades. change (w_strats (erase w0)) with (w_strats w0). destruct (w_strats w0 !! s) as [x|]; [|auto].
        apply erase_forM. intros w1 i. unfold close_opened_step, trade_open_b. rewrite erase_t. destruct (w_trades w1 !! i) as [t|]; [|auto]. cbn [fmap option_fmap option_map].
        rewrite erase_closed. destruct (closed t); [auto|]. apply erase_strategy_close.
      + unfold close_opened_trades. change (w_strats (lose w0)) with (w_strats w0). destruct (w_strats w0 !! s) as [x|]; [|auto].
        apply lose_forM. intros w1 i. unfold close_opened_step. change (trade_open_b (lose w1) i) with (trade_open_b w1 i). destruct (trade_open_b w1 i); [apply lose_strategy_close|auto].
    - apply (comm (fun w => run_cmd w (CTradeUpdate t v))); intros w0; [|reflexivity]. unfold run_cmd. rewrite erase_upd_alter; [auto|]. intros x. apply erase_update.
    - apply (comm (fun w => run_cmd w (CTradeUpdateEpic t))); intros w0; unfold run_cmd.
      + rewrite erase_t. destruct (w_trades w0 !! t) as [x|]; [|auto]. cbn [fmap option_fmap option_map].
        change (tr_epic (erase_trade x)) with (tr_epic x). change (w_epics (erase w0)) with (w_epics w0). destruct (w_epics w0 !! tr_epic x) as [e|]; [|auto].
        rewrite erase_update_tick. now rewrite erase_upd_insert.
      + change (w_trades (lose w0)) with (w_trades w0). destruct (w_trades w0 !! t) as [x|]; [|auto]. change (w_epics (lose w0)) with (w_epics w0). now destruct (w_epics w0 !! tr_epic x).
    - apply (comm (fun w => run_cmd w (CTradeClose t v d q ref))); intros w0; unfold run_cmd.
      + rewrite erase_t. destruct (w_trades w0 !! t) as [x|]; [|auto]. cbn [fmap option_fmap option_map].
        rewrite erase_close. destruct (close x v d q ref) as [[x' c]|e]; [|auto]. cbn [rmap fst snd]. now rewrite erase_upd_insert.
      + change (w_trades (lose w0)) with (w_trades w0). destruct (w_trades w0 !! t) as [x|]; [|auto]. now destruct (close x v d q ref) as [[x' c]|e].
    - apply (comm (fun w => run_cmd w (CTradeCloseEpic t q ref))); intros w0; unfold run_cmd.
      + rewrite erase_close_from_epic. now destruct (close_from_epic w0 t q ref) as [[v ci]|e].
      + rewrite lose_close_from_epic. now destruct (close_from_epic w0 t q ref) as [[v ci]|e].
    - apply (comm (fun w => run_cmd w (CPause s u))); reflexivity.
    - apply (comm (fun w => run_cmd w (CStop s b))); reflexivity.
    - apply pl_eq. simpl. now rewrite !plain_run_thread.
  Qed.
  Lemma alike_script w w' s s' : same_orders w w' s s' -> plain w = plain w' -> pl (run_script w s) = pl (run_script w' s').
  Proof.
    intros Hs. induction Hs as [w w'|w w' e|w w' c k k' v v' r Hc Ev Ev' _ IH|w w' p n k s' _ IH|w w' p n s k' _ IH]; intros E.
    - now apply pl_eq.
    - now apply pl_eq.
    - pose proof (alike_cmd w w' c E Hc) as E1. cbn [run_script]. rewrite Ev in E1 |- *. destruct (run_cmd w' c) as [v1 r1]. simpl in Ev'. subst v1.
      apply pl_eq in E1 as [E1 E2]. simpl in E1, E2. subst r1. now apply IH.
    - cbn [run_script run_cmd]. apply IH. now rewrite plain_run_thread.
    - cbn [run_script run_cmd]. apply IH. now rewrite plain_run_thread.
  Qed.

  (** Two computations that agree, the first from states of an invariant. *)
  Definition alike (J J' : world F -> Prop) (f g : world F -> world F * res unit) : Prop :=
    forall w w', J w -> plain w = plain w' -> pl (f w) = pl (g w') /\ J' (fst (f w)).
  Lemma alike_forM {A} J (f g : world F -> A -> world F * res unit) l : (forall x, x ∈ l -> alike J J (fun w => f w x) (fun w => g w x)) -> alike J J (fun w => forM f w l) (fun w => forM g w l).
  Proof.
    induction l as [|x l IH]; intros Hf w w' Hj E; simpl.
    - split; [now apply pl_eq|auto].
    - destruct (Hf x (elem_of_list_here _ _) w w' Hj E) as [E1 Hj1]. destruct (f w x) as [w1 r1], (g w' x) as [w1' r1']. apply pl_eq in E1 as [E1 E1r]. simpl in E1, E1r, Hj1. subst r1'.
      destruct r1; [apply IH; auto; intros y Hy; apply Hf; now apply elem_of_list_further|]. split; [now apply pl_eq|auto].
  Qed.
  Lemma alike_andthen (J J' : world F -> Prop) (x x' : world F * res unit) (f g : world F -> world F * res unit) : pl x = pl x' /\ J (fst x) -> (forall w, J w -> J' w) -> alike J J' f g -> pl (andthen x f) = pl (andthen x' g) /\ J' (fst (andthen x f)).
  Proof.
    intros [E Hj] Hi Hf. destruct x as [w r], x' as [w' r']. apply pl_eq in E as [E E1r]. simpl in E, E1r, Hj. subst r'. destruct r; simpl; [now apply Hf|]. split; [now apply pl_eq|auto].
  Qed.
  Lemma alike_callback P pr pr' sid cb eid : one_way_programs P pr pr' -> programs_ok P pr -> alike (reach P) (reach P) (run_callback pr sid cb eid) (run_callback pr' sid cb eid).
  Proof.
    intros Hw Hp w w' Hr E. split; [|now apply callback_reach]. unfold run_callback. cbv zeta. apply (alike_script _ _ _ _ (Hw sid cb eid w w' Hr E)).
    destruct (plain_parts w w' E) as (_ & _ & _ & El). unfold called. rewrite El. now apply (plain_upd w w' (fun w => upd_log w (w_log w' ++ [{| ev_strat := sid; ev_cb := cb; ev_epic := eid |}]))).
  Qed.
  Lemma alike_strategy P pr pr' eid mo x : one_way_programs P pr pr' -> programs_ok P pr ->
    alike (reach P) (reach P) (fun w => execute_strategy pr eid mo w x) (fun w => execute_strategy pr' eid mo w x).
  Proof.
    intros Hp Hok w w' Hr E. unfold execute_strategy. destruct (plain_parts w w' E) as (Es & Ee & _). rewrite <- Es, <- Ee.
    destruct (w_strats w !! x.2) as [s|] eqn:Ex; [|split; [now apply pl_eq|auto]]. destruct (w_epics w !! eid) as [e|]; [|split; [now apply pl_eq|auto]].
    pose proof (reach_active P w x.2 s (tk_dt (ep_last e)) Hr Ex) as R1. destruct (is_active s (tk_dt (ep_last e))) as [s' act]. cbn [fst] in R1.
    assert (plain (upd_strats w (<[x.2:=s']> (w_strats w))) = plain (upd_strats w' (<[x.2:=s']> (w_strats w)))) as E1.
    { now apply (plain_upd w w' (fun x0 => upd_strats x0 (<[x.2:=s']> (w_strats w)))). }
    destruct act; [|split; [now apply pl_eq|auto]].
    apply (alike_andthen (reach P)); [|auto|].
    - destruct (eqb mo (ep_mopen e)); [split; [now apply pl_eq|auto]|]. destruct mo; now apply (alike_callback P).
    - intros w2 w2' R2 E2. apply (alike_andthen (reach P)); [|auto|now apply (alike_callback P)]. destruct (ep_mopen e); [now apply (alike_callback P)|]. split; [now apply pl_eq|auto].
  Qed.
  Lemma lose_value w pid tk : update_open_trades (lose w) pid tk = lose (update_open_trades w pid tk).
  Proof. unfold update_open_trades. rewrite lose_p. now destruct (w_provs w !! pid) as [p|]. Qed.
  Lemma alike_tick P pr pr' eid tk : one_way_programs P pr pr' -> programs_ok P pr -> alike (reach P) (reach P) (fun w => epic_on_new_tick pr w eid tk) (fun w => epic_on_new_tick pr' w eid tk).
  Proof.
    intros Hp Hok w w' Hr E. unfold epic_on_new_tick. destruct (plain_parts w w' E) as (_ & Ee & _). rewrite <- Ee.
    destruct (w_epics w !! eid) as [e|] eqn:He; [|split; [now apply pl_eq|auto]]. cbv zeta. destruct (arrow_ltb _ _) eqn:Ha; [split; [now apply pl_eq|auto]|].
    set (e' := ep_set_last e _ _).
    apply (alike_andthen (fun w1 => reach P w1 /\ w_epics w1 !! eid = Some e')); [|now intros w1 [R1 _]|].
    - apply (alike_forM (fun w1 => reach P w1 /\ w_epics w1 !! eid = Some e')).
      + intros x Hx w1 w1' [R1 He1] E1. split.
        * unfold update_frame_set. destruct (plain_parts w1 w1' E1) as (_ & Ee1 & Ef1 & _). rewrite <- Ef1. destruct (w_fsets w1 !! x.2) as [fs|]; [|now apply pl_eq].
          assert (fs_epic_state w1' fs = fs_epic_state w1 fs) as -> by (unfold fs_epic_state; now rewrite Ee1). destruct (fs_epic_state w1 fs). destruct (fs_on_new_tick _ _ _ _ _) as [fs' r].
          apply pl_eq. split; [|auto]. simpl. now apply (plain_upd w1 w1' (fun y => upd_fsets y (<[x.2:=fs']> (w_fsets w1)))).
        * rewrite update_fset_epics. split; [|auto]. now apply (reach_fset P w1 eid e' x).
      + split; [now apply reach_accept|]. simpl. apply list_lookup_insert. eapply lookup_lt_Some; eauto.
      + now apply (plain_upd w w' (fun x => upd_epics x (<[eid:=e']> (w_epics w)))).
    - intros w2 w2' [R2 He2] E2. apply (alike_forM (reach P)); [intros x _; now apply alike_strategy|now apply (reach_value P w2 eid e')|].
      rewrite !plain_erase. rewrite <- !erase_value, <- !lose_value, <- !plain_erase. now rewrite E2.
  Qed.
  Lemma alike_step P pr pr' o : one_way_programs P pr pr' -> programs_ok P pr -> op_ok P o ->
    forall w w', reach P w -> match o with OCmd c => one_way w c | _ => True end -> plain w = plain w' -> pl (step pr w o) = pl (step pr' w' o) /\ reach P (fst (step pr w o)).
  Proof.
    intros Hp Hok Ho w w' Hr Hc E. split; [|now apply step_reach].
    destruct (plain_parts w w' E) as (Es & Ee & Ef & El).
    assert (forall (f : world F -> world F * res unit), (forall w, f (erase w) = er (f w)) -> (forall w, f (lose w) = lo (f w)) -> pl (f w) = pl (f w')) as comm.
    { intros f Hf Hg. rewrite !pl_er, <- !Hf, <- !Hg, <- !plain_erase. now rewrite E. }
    destruct o as [k|ref|u q ref m|ref tz op cl ds hs pv|eid fid|eid sid|fid i|e tk|c].
    - apply pl_eq. split; [|auto]. apply (f_equal w_provs) in E as Ep. destruct w, w'. unfold plain in *. simpl in *. subst. rewrite !fmap_app. simpl. f_equal; [congruence|now rewrite Ep].
    - apply (comm (fun w => step pr w (ONewStrategy ref))); reflexivity.
    - apply (comm (fun w => step pr w (ONewFrameSet u q ref m))); intros w0; simpl; now destruct (fset_init u q ref m).
    - simpl. unfold new_epic. destruct tz as [z|]; [|now apply pl_eq]. assert (length (w_provs w) = length (w_provs w')) as L.
      { apply (f_equal (fun x => length (w_provs x))) in E as Ep. simpl in Ep. now rewrite !fmap_length in Ep. }
      assert (valid_id (w_provs w') pv = valid_id (w_provs w) pv) as -> by (destruct pv; simpl; now rewrite ?L).
      destruct (valid_id (w_provs w) pv); [|now apply pl_eq]. cbv zeta. apply (f_equal w_provs) in E as Ep. apply (f_equal w_trades) in E as Et.
      destruct pv as [pid|]; apply pl_eq; (split; [|auto]); destruct w, w'; unfold plain in *; simpl in *; subst; [congruence|]. rewrite !fmap_app, L. simpl. f_equal; [auto|now rewrite Ep].
    - apply (comm (fun w => step pr w (OAddFrameSet eid fid))); intros w0; simpl; unfold add_frame_set.
      + change (w_epics (erase w0)) with (w_epics w0). change (w_fsets (erase w0)) with (w_fsets w0). destruct (w_epics w0 !! eid); [|auto]. destruct (w_fsets w0 !! fid); [|auto]. now destruct (dict_get _ _).
      + change (w_epics (lose w0)) with (w_epics w0). change (w_fsets (lose w0)) with (w_fsets w0). destruct (w_epics w0 !! eid); [|auto]. destruct (w_fsets w0 !! fid); [|auto]. now destruct (dict_get _ _).
    - apply (comm (fun w => step pr w (OAddStrategy eid sid))); intros w0; simpl; unfold add_strategy.
      + change (w_epics (erase w0)) with (w_epics w0). change (w_strats (erase w0)) with (w_strats w0). destruct (w_epics w0 !! eid); [|auto]. destruct (w_strats w0 !! sid); [|auto]. now destruct (dict_get _ _).
      + change (w_epics (lose w0)) with (w_epics w0). change (w_strats (lose w0)) with (w_strats w0). destruct (w_epics w0 !! eid); [|auto]. destruct (w_strats w0 !! sid); [|auto]. now destruct (dict_get _ _).
    - apply (comm (fun w => step pr w (OAddIndicator fid i))); intros w0; simpl.
      + change (w_fsets (erase w0)) with (w_fsets w0). destruct (w_fsets w0 !! fid); [|auto]. now destruct (add_indicator _ _).
      + change (w_fsets (lose w0)) with (w_fsets w0). destruct (w_fsets w0 !! fid); [|auto]. now destruct (add_indicator _ _).
    - now apply (alike_tick P pr pr' e tk Hp Hok).
    - now apply alike_cmd.
  Qed.
  Lemma plain_provs w w' (k k' : pkind) : plain w = plain w' -> plain (upd_provs w (w_provs w ++ [{| pv_kind := k; pv_trades := []; pv_threads := [] |}])) =
    plain (upd_provs w' (w_provs w' ++ [{| pv_kind := k'; pv_trades := []; pv_threads := [] |}])).
  Proof.
    intros E. apply (f_equal w_provs) in E as Ep. apply (f_equal w_trades) in E as Et. destruct (plain_parts w w' E) as (Es & Ee & Ef & El).
    destruct w, w'. unfold plain in *. simpl in *. subst. rewrite !fmap_app. simpl. f_equal; [auto|now rewrite Ep].
  Qed.
  Lemma alike_run P pr pr' l l' w w' : one_way_programs P pr pr' -> programs_ok P pr -> Forall (op_ok P) l -> reach P w -> other_kinds pr w l l' ->
    plain w = plain w' -> plain (run pr w l) = plain (run pr' w' l').
  Proof.
    intros Hp Hok Hl Hr Ho. revert w' Hl Hr. induction Ho as [w|w k k' l l' Ho IH|w o l l' Hc Ho IH|w p n l l' Ho IH|w p n l l' Ho IH]; intros w' Hl Hr E; [auto| | | |].
    - inversion Hl; subst. apply IH; [auto| |now apply plain_provs]. now apply step_reach.
    - inversion Hl; subst. destruct (alike_step P pr pr' o Hp Hok ltac:(auto) w w' Hr Hc E) as [E1 R1]. apply IH; [auto|auto|]. now apply pl_eq in E1 as [E1 _].
    - inversion Hl; subst. apply IH; [auto| |now rewrite plain_run_thread]. now apply (reach_call P w (CRun p n)).
    - apply IH; [auto|auto|]. simpl. now rewrite plain_run_thread.
  Qed.

  (** ** What the two have in common *)
  Lemma plain_trade w w' i t : plain w = plain w' -> w_trades w !! i = Some t -> exists t', w_trades w' !! i = Some t' /\ erase_trade t' = erase_trade t.
  Proof.
    intros E Ht. assert (erase_trade <$> w_trades w' !! i = Some (erase_trade t)) as E1 by (rewrite <- plain_t, <- E, plain_t, Ht; reflexivity).
    destruct (w_trades w' !! i) as [t'|]; [|discriminate]. apply (inj Some) in E1. eauto.
  Qed.
  Lemma erase_eq_result t t' : erase_trade (F:=F) t = erase_trade t' -> result t = result t'.
  Proof. intros E. now rewrite <- erase_result, E, erase_result. Qed.
  Lemma plain_results w w' l : plain w = plain w' -> results_of w l = results_of w' l.
  Proof.
    intros E. unfold results_of. induction l as [|i l IH]; [auto|]. simpl.
    assert (erase_trade <$> w_trades w !! i = erase_trade <$> w_trades w' !! i) as Et by now rewrite <- !plain_t, E.
    destruct (w_trades w !! i) as [t|], (w_trades w' !! i) as [t'|]; try discriminate Et; [|exact IH]. apply (inj Some) in Et. simpl. f_equal; [apply (erase_eq_result t t' Et)|exact IH].
  Qed.
  Lemma plain_same w w' : plain w = plain w' ->
    w_strats w = w_strats w' /\ w_epics w = w_epics w' /\ w_fsets w = w_fsets w' /\ w_log w = w_log w' /\
    (forall pid, pv_trades <$> w_provs w !! pid = pv_trades <$> w_provs w' !! pid) /\
    (forall s a, strategy_result w s a = strategy_result w' s a /\ profit_factor w s a = profit_factor w' s a) /\
    (forall s es oo d, get_trades w s es oo d = get_trades w' s es oo d).
  Proof.
    intros E. destruct (plain_parts w w' E) as (Es & Ee & Ef & El). do 4 (split; [auto|]). split; [|split].
    - intros pid. apply (f_equal (fun x => w_provs x !! pid)) in E. rewrite !plain_p in E. destruct (w_provs w !! pid) as [p|], (w_provs w' !! pid) as [p'|]; try discriminate E; [|auto].
      apply (inj Some) in E. simpl. f_equal. exact (f_equal pv_trades E).
    - intros s a. unfold strategy_result, profit_factor. now rewrite (plain_results w w' _ E).
    - intros s es oo d. unfold get_trades. induction (reverse (st_trades s)) as [|i l IH]; [auto|]. simpl.
      assert (erase_trade <$> w_trades w !! i = erase_trade <$> w_trades w' !! i) as Et by now rewrite <- !plain_t, E.
      destruct (w_trades w !! i) as [t|], (w_trades w' !! i) as [t'|]; try discriminate Et; [|exact IH]. apply (inj Some) in Et.
      pose proof (f_equal tr_epic Et) as T1. pose proof (f_equal tr_dt Et) as T2. pose proof (f_equal closed Et) as T3. change (tr_epic t = tr_epic t') in T1. change (tr_dt t = tr_dt t') in T2.
      rewrite !erase_closed in T3. rewrite T1, T2, T3, IH. reflexivity.
  Qed.

  (** ** Strategies with a fixed direction *)
  Lemma directed_trades dirs w : reach (directed dirs) w -> forall i t, w_trades w !! i = Some t -> tr_dir t = dirs (tr_strat t).
  Proof.
    assert (forall w w', keeps w w' -> (forall i t, w_trades w !! i = Some t -> tr_dir t = dirs (tr_strat t)) -> forall i t, w_trades w' !! i = Some t -> tr_dir t = dirs (tr_strat t)) as Hk.
    { intros w0 w1 K IH i t Ht. destruct (keeps_t w1 w0 i t (keeps_sym _ _ K) Ht) as (t0 & H0 & (_ & E1 & E2 & _)). rewrite <- E1, <- E2. eauto. }
    intros Hr. induction Hr as [|w c Hr IH Hc|pr w o Hr IH Ho|w eid e tk Hr IH He Ha|w eid e x Hr IH He Hx|w eid e Hr IH He|w sid s d Hr IH Hs|w l Hr IH].
    - intros i t Ht. discriminate Ht.
    - destruct (is_open_call c) eqn:Eo; [|now apply (Hk w), IH; apply keeps_cmd].
      destruct c as [e d q s ref| | | | | | | | | | ]; try discriminate Eo. destruct Hc as [_ Hd]. simpl. destruct (epic_open_trade w e d q s ref) as [w' r] eqn:E. simpl.
      destruct (open_inv _ _ _ _ _ _ _ _ E) as [[-> _]|(ep & t & wn & _ & Ht & _ & K & C)]; [auto|].
      assert (forall i t, w_trades wn !! i = Some t -> tr_dir t = dirs (tr_strat t)) as Hn.
      { apply (Hk _ _ K). intros i t0 Hi. simpl in Hi. apply lookup_app_Some in Hi as [Hi|[_ Hi]]; [eauto|]. destruct (i - length (w_trades w))%nat; [|discriminate]. injection Hi as <-.
        apply open_fields in Ht as (d' & Ed & _ & Es & Edd & _). rewrite Es, Edd. congruence. }
      destruct C as [->| ->]; [exact Hn|]. now rewrite (proj1 (register_rest wn (ep_prov ep) (length (w_trades w)))).
    - intros i t. rewrite setup_trades by auto. apply IH.
    - eapply Hk; [now apply keeps_accept|auto].
    - eapply Hk; [apply keeps_fset|auto].
    - eapply Hk; [apply keeps_value|auto].
    - eapply Hk; [now apply keeps_active|auto].
    - eapply Hk; [apply keeps_log|auto].
  Qed.
  Lemma directed_one_way dirs w c : reach (directed dirs) w -> directed dirs c -> one_way w c.
  Proof.
    intros Hr. destruct c as [eid d q s ref|t q ref|e t q ref|s q ref|t v|t|t v d q ref|t q ref|s u|s b|p k]; auto. intros [Hq ->]. split; [auto|].
    intros e p i t He Hp Hi Ht Hs _ Ed. rewrite (directed_trades dirs w Hr i t Ht), Hs in Ed. now destruct (dirs s).
  Qed.
  Lemma directed_orders dirs s s' : same_calls s s' -> script_ok (directed dirs) s -> forall w w', reach (directed dirs) w -> same_orders w w' s s'.
  Proof.
    intros Hs. induction Hs as [|e|c k k' _ IH]; intros Hok w w' Hr; [constructor|constructor|]. destruct Hok as [Hc Hk].
    destruct (run_cmd w c) as [v r] eqn:Ev. eapply so_call; [now apply (directed_one_way dirs)|exact Ev|reflexivity|]. intros E. apply IH; [auto|apply Hk|].
    pose proof (reach_call (directed dirs) w c Hr Hc) as R. now rewrite Ev in R.
  Qed.
  Lemma directed_programs dirs pr : kind_blind pr -> programs_ok (directed dirs) pr -> one_way_programs (directed dirs) pr pr.
  Proof. intros Hb Hok sid cb eid w w' Hr E. apply (directed_orders dirs); [now apply Hb|apply Hok|]. now apply reach_log. Qed.
  (** Two lists of operations that differ in the kinds of the providers they create. *)
  Lemma directed_ops dirs pr l l' w : programs_ok (directed dirs) pr -> Forall (op_ok (directed dirs)) l -> reach (directed dirs) w ->
    same_but_kinds l l' -> other_kinds pr w l l'.
  Proof.
    intros Hp Hl Hr H2. revert w Hl Hr. induction H2 as [|o o' l l' Ho H2 IH]; intros w Hl Hr; [constructor|]. inversion Hl as [|? ? Hop Hl']; subst.
    pose proof (step_reach (directed dirs) pr w o Hp Hop Hr) as R.
    destruct o as [k|ref|u q ref m|ref tz op cl ds hs pv|eid fid|eid sid|fid i|e tk|c]; [destruct o'; try discriminate Ho; apply ok_prov; now apply IH| | | | | | | |]; subst o'; apply ok_op; auto.
    now apply (directed_one_way dirs).
  Qed.
  Lemma directed_run dirs pr l l' : kind_blind pr -> programs_ok (directed dirs) pr -> Forall (op_ok (directed dirs)) l ->
    same_but_kinds l l' ->
    plain (run pr empty_world l) = plain (run pr empty_world l').
  Proof.
    intros Hb Hok Hl H2. apply (alike_run (directed dirs)); auto using directed_programs, reach_empty. apply (directed_ops dirs); auto using reach_empty.
  Qed.

  (** ** Closing first *)
  Lemma after_closing P w sid s ref w' r e d q ref' : reach P w -> w_strats w !! sid = Some s -> run_cmd w (CCloseAll sid None ref) = (w', r) -> 0 < q ->
    one_way w' (COpen e d q (Some sid) ref').
  Proof.
    intros Hr Hs E Hq. split; [auto|]. destruct (close_opened_trades_spec P w sid s ref Hr Hs) as (w1 & E1 & _ & _ & _ & Es & _ & _ & Hc). rewrite E in E1. injection E1 as -> ->.
    assert (wfw w1) as W. { assert (reach any_call w1) as R by (pose proof (reach_call any_call w (CCloseAll sid None ref) (reach_any P w Hr) I) as R; now rewrite E in R). now apply (reach_wf any_call). }
    intros ep p i t He Hp Hi Ht Hst Hop _. apply (Hc i); [|exists t; auto]. rewrite <- Es in Hs. apply (wf_strat _ W sid s Hs). split; [eauto|]. exists (ep_prov ep), p. auto.
  Qed.
End proofs.
