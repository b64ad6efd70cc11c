(** C76: the trades of programs whose quotes are delivered more than once. *)
From Verif Require Import EpicMoreProofs SimProofs.
From Verif Require Export RepeatWorld.
Open Scope Z_scope.

Section proofs.
  Context {F : Type} `{Num F}.
  Implicit Types (w v : world F) (tk : tick F).
  Hypothesis LT : less_than F.

  (** ** Calls do not read frame sets and the log *)
  Definition put (x : list (fset F) * list event) w : world F :=
    {| w_trades := w_trades w; w_provs := w_provs w; w_strats := w_strats w; w_epics := w_epics w; w_fsets := x.1; w_log := x.2 |}.
  Definition puts {A} x (y : world F * res A) : world F * res A := (put x y.1, y.2).
  Lemma put_close_epic x w t q ref : close_from_epic (put x w) t q ref = match close_from_epic w t q ref with Ok (w', n) => Ok (put x w', n) | Err er => Err er end.
  Proof.
    unfold close_from_epic. simpl. destruct (w_trades w !! t) as [y|]; [|auto]. destruct (w_epics w !! tr_epic y) as [e|]; [|auto]. destruct (close_from_tick y (ep_last e) q ref) as [[y' c]|]; auto.
  Qed.
  Lemma put_net x p t ref w o : net_step p t ref (put x w) o = puts x (net_step p t ref w o).
  Proof.
    unfold net_step. simpl. destruct (w_trades w !! t) as [y|]; [|auto]. destruct (w_trades w !! o) as [z|]; [|auto]. destruct (dir_eqb _ _); [|auto]. destruct (bool_decide _); [|auto].
    rewrite put_close_epic. destruct (close_from_epic w o _ ref) as [[w1 n]|]; auto.
  Qed.
  Lemma put_forM {A} (f : world F -> A -> world F * res unit) x : (forall w a, f (put x w) a = puts x (f w a)) -> forall l w, forM f (put x w) l = puts x (forM f w l).
  Proof. intros Hf. induction l as [|a l IH]; intros w; [auto|]. simpl. rewrite Hf. destruct (f w a) as [w1 [u|er]]; simpl; [apply IH|auto]. Qed.
  Lemma put_base x w p t : base_open_trade (put x w) p t = put x (base_open_trade w p t).
  Proof. unfold base_open_trade. simpl. destruct (w_trades w !! t) as [y|]; [|auto]. now destruct (tr_strat y). Qed.
  Lemma put_provider x w p t ref : provider_open_trade (put x w) p t ref = puts x (provider_open_trade w p t ref).
  Proof.
    unfold provider_open_trade, backtest_open_trade. simpl. destruct (w_provs w !! p) as [y|]; [|auto]. destruct (pv_kind y); rewrite ?put_base; try reflexivity.
    change (opened_trades (put x w) y) with (opened_trades w y). rewrite put_forM by (intros; apply put_net). destruct (forM _ w _) as [w1 [u|er]]; [|auto]. simpl. destruct (w_trades w1 !! t) as [z|]; [|auto]. rewrite put_base. now destruct (_ <=? 0).
  Qed.
  Lemma put_open x w e d q s ref : epic_open_trade (put x w) e d q s ref = puts x (epic_open_trade w e d q s ref).
  Proof.
    unfold epic_open_trade. simpl. destruct (w_epics w !! e) as [y|]; [|auto]. destruct (valid_id _ _); [|auto]. destruct (open_from_tick _ _ _ _ _ _) as [t|]; [|auto].
    change (upd_trades (put x w) (w_trades w ++ [t])) with (put x (upd_trades w (w_trades w ++ [t]))). rewrite put_provider. destruct (provider_open_trade _ _ _ _) as [w1 [u|er]]; auto.
  Qed.
  Lemma put_epic_close x w e t q ref : epic_close_trade (put x w) e t q ref = puts x (epic_close_trade w e t q ref).
  Proof. unfold epic_close_trade. simpl. destruct (w_epics w !! e) as [y|]; [|auto]. rewrite put_close_epic. destruct (close_from_epic _ _ _ _) as [[w1 n]|]; auto. Qed.
  Lemma put_strategy_close x w t q ref : strategy_close_trade (put x w) t q ref = puts x (strategy_close_trade w t q ref).
  Proof. unfold strategy_close_trade. simpl. destruct (w_trades w !! t); [apply put_epic_close|auto]. Qed.
  Lemma put_cmd x w c : run_cmd (put x w) c = puts x (run_cmd w c).
  Proof.
    destruct c as [e d q s ref|t q ref|e t q ref|s q ref|t y|t|t y d q ref|t q ref|s p|s b|p k]; cbn [run_cmd]; auto using put_strategy_close, put_epic_close.
    - rewrite put_open. now destruct (epic_open_trade w e d q s ref).
    - unfold close_opened_trades. simpl. destruct (w_strats w !! s) as [y|]; [|auto]. apply put_forM. intros w1 a. unfold close_opened_step.
      change (trade_open_b (put x w1) a) with (trade_open_b w1 a). destruct (trade_open_b w1 a); [apply put_strategy_close|auto].
    - simpl. destruct (w_trades w !! t) as [y|]; [|auto]. now destruct (w_epics w !! tr_epic y).
    - simpl. destruct (w_trades w !! t) as [z|]; [|auto]. now destruct (close z y d q ref) as [[z' c]|].
    - rewrite put_close_epic. now destruct (close_from_epic w t q ref) as [[w1 n]|].
    - unfold run_thread, puts. simpl. destruct (w_provs w !! p) as [y|]; [|auto]. destruct (pv_threads y !! k) as [th|]; [|auto]. now destruct (th_done th).
  Qed.

  (** ** The ledger *)
  Definition ledger w := (w_trades w, w_provs w, w_strats w).
  Lemma ledger_inj w v : ledger v = ledger w -> w_trades v = w_trades w /\ w_provs v = w_provs w /\ w_strats v = w_strats w.
  Proof. intros E. now injection E. Qed.
  Lemma ledger_put w v : ledger v = ledger w -> w_epics v = w_epics w -> v = put (w_fsets v, w_log v) w.
  Proof. intros (E1 & E2 & E3)%ledger_inj E4. destruct v, w; simpl in *. unfold put. simpl. congruence. Qed.
  Lemma ledger_cmd w v c : ledger v = ledger w -> w_epics v = w_epics w -> ledger (fst (run_cmd v c)) = ledger (fst (run_cmd w c)).
  Proof. intros E1 E2. rewrite (ledger_put w v E1 E2), put_cmd. reflexivity. Qed.
  Lemma ledger_update tk w v p : ledger v = ledger w -> ledger (update_open_trades v p tk) = ledger (update_open_trades w p tk).
  Proof.
    intros (E1 & E2 & E3)%ledger_inj. unfold update_open_trades. rewrite E2. destruct (w_provs w !! p) as [y|]; [|unfold ledger; congruence].
    assert (opened_trades v y = opened_trades w y) as -> by (unfold opened_trades, trade_open_b; now rewrite E1). unfold ledger. simpl. congruence.
  Qed.
  Definition woken s (d : arrow) : strategy := fst (is_active s d).
  Lemma exec_silent eid mo w x : let y := execute_strategy silent eid mo w x in
    w_trades y.1 = w_trades w /\ w_provs y.1 = w_provs w /\ w_epics y.1 = w_epics w /\
    match w_strats w !! x.2, w_epics w !! eid with
    | Some s, Some e => w_strats y.1 = <[x.2 := woken s (tk_dt (ep_last e))]> (w_strats w) /\ y.2 = Ok ()
    | _, _ => w_strats y.1 = w_strats w /\ y.2 = Err Dangling
    end.
  Proof.
    unfold execute_strategy, woken. destruct (w_strats w !! x.2) as [s|]; [|now repeat split]. destruct (w_epics w !! eid) as [e|] eqn:Ee; [|now repeat split].
    destruct (is_active s (tk_dt (ep_last e))) as [s' act]. simpl. unfold run_callback, silent. destruct act; [|repeat split; auto].
    destruct (eqb mo (ep_mopen e)); [|destruct mo]; destruct (ep_mopen e); simpl; repeat split; auto.
  Qed.
  Lemma ledger_exec eid mo mo' w v l : ledger v = ledger w -> w_epics v = w_epics w ->
    ledger (fst (forM (execute_strategy silent eid mo') v l)) = ledger (fst (forM (execute_strategy silent eid mo) w l)).
  Proof.
    revert w v. induction l as [|x l IH]; intros w v E E4; [auto|]. cbn [forM]. pose proof (ledger_inj _ _ E) as (E1 & E2 & E3).
    destruct (exec_silent eid mo w x) as (A1 & A2 & A3 & A4), (exec_silent eid mo' v x) as (B1 & B2 & B3 & B4). rewrite E3, E4 in B4.
    destruct (execute_strategy silent eid mo w x) as [w1 r], (execute_strategy silent eid mo' v x) as [v1 r']. simpl in *.
    destruct (w_strats w !! x.2) as [s|]; [destruct (w_epics w !! eid) as [e|]|]; destruct A4 as [A4 ->], B4 as [B4 ->]; [apply IH| |]; unfold ledger; simpl; congruence.
  Qed.
  Definition awake eid w (x : string * nat) : Prop := exists s e, w_strats w !! x.2 = Some s /\ w_epics w !! eid = Some e /\ woken s (tk_dt (ep_last e)) = s.
  Lemma woken_twice s d : woken (woken s d) d = woken s d.
  Proof.
    unfold woken, is_active. destruct (st_stopped s) eqn:Es; simpl; [now rewrite Es|]. destruct (st_paused s) as [u|] eqn:Ep; simpl; [|now rewrite Es, Ep]. destruct (arrow_ltb d u) eqn:Eu; simpl; rewrite Es, ?Ep, ?Eu; auto.
  Qed.
  Lemma exec_wakes eid mo l w : snd (forM (execute_strategy silent eid mo) w l) = Ok () -> let w' := fst (forM (execute_strategy silent eid mo) w l) in
    w_epics w' = w_epics w /\ (forall x, awake eid w x -> awake eid w' x) /\ (forall x, x ∈ l -> awake eid w' x).
  Proof.
    revert w. induction l as [|x l IH]; intros w; cbn [forM]; [intros _; simpl; split; [auto|]; split; [auto|]; intros x Hx; now apply elem_of_nil in Hx|].
    destruct (exec_silent eid mo w x) as (A1 & A2 & A3 & A4). destruct (execute_strategy silent eid mo w x) as [w1 r]. simpl in A1, A2, A3, A4.
    destruct (w_strats w !! x.2) as [s|] eqn:Es; [destruct (w_epics w !! eid) as [e|] eqn:Ee|]; destruct A4 as [A4 ->]; try discriminate. intros E. destruct (IH w1 E) as (I1 & I2 & I3). pose proof (lookup_lt_Some _ _ _ Es) as Hlt.
    assert (awake eid w1 x) as Hx. { exists (woken s (tk_dt (ep_last e))), e. rewrite A3, A4. split; [now apply list_lookup_insert|]. split; [auto|apply woken_twice]. }
    cbv zeta. split; [congruence|]. split.
    - intros y (sy & ey & Y1 & Y2 & Y3). apply I2. destruct (Nat.eq_dec y.2 x.2) as [Hn|Hn].
      + destruct Hx as (s2 & e2 & X). exists s2, e2. now rewrite Hn.
      + exists sy, ey. rewrite A3, A4. rewrite list_lookup_insert_ne by auto. now repeat split.
    - intros y [->|Hy]%elem_of_cons; auto.
  Qed.
  Lemma exec_awake eid mo l w : (forall x, x ∈ l -> awake eid w x) -> ledger (fst (forM (execute_strategy silent eid mo) w l)) = ledger w.
  Proof.
    revert w. induction l as [|x l IH]; intros w Hl; cbn [forM]; [auto|]. destruct (exec_silent eid mo w x) as (A1 & A2 & A3 & A4). destruct (Hl x ltac:(left)) as (s & e & X1 & X2 & X3). rewrite X1, X2, X3 in A4.
    destruct (execute_strategy silent eid mo w x) as [w1 r]. simpl in A1, A2, A3, A4. destruct A4 as [A4 ->]. rewrite (list_insert_id _ _ _ X1) in A4. rewrite IH; [unfold ledger; congruence|].
    intros y Hy. destruct (Hl y ltac:(now right)) as (sy & ey & Y). exists sy, ey. now rewrite A3, A4.
  Qed.

  (** ** Trades *)
  Lemma update_twice (t : trade F) tk : update_from_tick (update_from_tick t tk) tk = update_from_tick t tk.
  Proof.
    destruct LT as [Li _]. unfold update_from_tick. assert (forall x y, tr_dir (update t x) = tr_dir t /\ update (update t y) y = update t y) as Hu; [|destruct (Hu (match tr_dir t with BUY => tk_bid tk | SELL => tk_ask tk end) (match tr_dir t with BUY => tk_bid tk | SELL => tk_ask tk end)) as [-> E]; exact E].
    intros x y. split.
    - unfold update, update_min_max. destruct (closed t); [auto|]. destruct (fltb (tr_max (set_cv t x)) (result (set_cv t x))); simpl; destruct (fltb _ _); auto.
    - unfold update at 2 3. destruct (closed t) eqn:Ec; [unfold update; now rewrite Ec|]. set (r := result (set_cv t y)).
      assert (update_min_max (set_cv t y) = set_maxmin (set_cv t y) (if fltb (tr_max t) r then r else tr_max t) (if fltb r (tr_min t) then r else tr_min t)) as ->.
      { unfold update_min_max. change (tr_max (set_cv t y)) with (tr_max t). fold r. destruct (fltb (tr_max t) r).
        - change (result (set_maxmin (set_cv t y) r (tr_min (set_cv t y)))) with r. simpl. destruct (fltb r (tr_min t)); reflexivity.
        - change (tr_min (set_cv t y)) with (tr_min t). fold r. destruct (fltb r (tr_min t)); reflexivity. }
      set (mx := if fltb (tr_max t) r then r else tr_max t). set (mn := if fltb r (tr_min t) then r else tr_min t).
      assert (fltb mx r = false) as Hmx by (unfold mx; destruct (fltb (tr_max t) r) eqn:E; auto). assert (fltb r mn = false) as Hmn by (unfold mn; destruct (fltb r (tr_min t)) eqn:E; auto).
      unfold update. change (closed (set_maxmin (set_cv t y) mx mn)) with (closed t). rewrite Ec. change (set_cv (set_maxmin (set_cv t y) mx mn) y) with (set_maxmin (set_cv t y) mx mn).
      unfold update_min_max. change (tr_max (set_maxmin (set_cv t y) mx mn)) with mx. change (result (set_maxmin (set_cv t y) mx mn)) with r. rewrite Hmx.
      change (tr_min (set_maxmin (set_cv t y) mx mn)) with mn. change (result (set_maxmin (set_cv t y) mx mn)) with r. now rewrite Hmn.
  Qed.
  Lemma fold_same (f : trade F -> trade F) l (ts : list (trade F)) : (forall i t, i ∈ l -> ts !! i = Some t -> f t = t) -> fold_left (fun ts i => alter f i ts) l ts = ts.
  Proof.
    induction l as [|i l IH]; intros Hf; simpl; [auto|]. assert (alter f i ts = ts) as ->; [|apply IH; intros j t Hj; apply Hf; now right]. apply list_eq. intros j. destruct (Nat.eq_dec i j) as [->|Hn].
    - rewrite list_lookup_alter. destruct (ts !! j) as [t|] eqn:Et; [|auto]. simpl. f_equal. apply (Hf j); [left|auto].
    - now rewrite list_lookup_alter_ne.
  Qed.
  Lemma fold_done (f : trade F -> trade F) l : (forall t, f (f t) = f t) -> forall (ts : list (trade F)) i t, fold_left (fun ts i => alter f i ts) l ts !! i = Some t ->
    f t = t \/ ~ i ∈ l /\ ts !! i = Some t.
  Proof.
    intros Hf. induction l as [|j l IH]; intros ts i t E; simpl in E; [right; split; [apply not_elem_of_nil|auto]|]. destruct (IH _ _ _ E) as [IE|[Hi IE]]; [now left|]. destruct (Nat.eq_dec j i) as [->|Hn].
    - rewrite list_lookup_alter in IE. destruct (ts !! i) as [t0|]; [|discriminate]. injection IE as <-. left. apply Hf.
    - rewrite list_lookup_alter_ne in IE by auto. right. split; [|auto]. intros [->|Hi']%elem_of_cons; auto.
  Qed.
  Lemma update_again tk w p : ledger (update_open_trades (update_open_trades w p tk) p tk) = ledger (update_open_trades w p tk).
  Proof.
    destruct (w_provs w !! p) as [y|] eqn:Ep; [|unfold update_open_trades; now rewrite !Ep].
    assert (update_open_trades w p tk = upd_trades w (fold_left (fun ts i => alter (fun t => update_from_tick t tk) i ts) (opened_trades w y) (w_trades w))) as Eu by (unfold update_open_trades; now rewrite Ep).
    set (w1 := update_open_trades w p tk) in *. assert (w_provs w1 !! p = Some y) as Ep1 by (rewrite Eu; exact Ep).
    assert (w_trades w1 = fold_left (fun ts i => alter (fun t => update_from_tick t tk) i ts) (opened_trades w y) (w_trades w)) as Et1 by now rewrite Eu.
    unfold update_open_trades. rewrite Ep1. unfold ledger. cbn [w_trades w_provs w_strats upd_trades]. do 2 f_equal. apply fold_same. intros i t Hi Et.
    pose proof Et as Et2. rewrite Et1 in Et2. destruct (fold_done _ _ (fun t => update_twice t tk) _ _ _ Et2) as [E|[Hn E]]; [auto|]. elim Hn. unfold opened_trades in *.
    apply elem_of_list_In, filter_In in Hi as [Hi Ho]. apply elem_of_list_In, filter_In. split; [auto|]. unfold trade_open_b in *. now rewrite Et in Ho; rewrite E.
  Qed.

  (** ** Ticks *)
  Lemma told_ledger tk l w : ledger (fst (forM (update_frame_set tk) w l)) = ledger w.
  Proof.
    apply (forM_inv (fun w1 => ledger w1 = ledger w)); [|auto]. intros w1 x _ <-. unfold update_frame_set. destruct (w_fsets w1 !! x.2) as [fs|]; [|auto]. destruct (fs_epic_state w1 fs). now destruct (fs_on_new_tick _ _ _ _ _).
  Qed.
  Lemma told_epics tk l w : w_epics (fst (forM (update_frame_set tk) w l)) = w_epics w.
  Proof. apply (forM_inv (fun w1 => w_epics w1 = w_epics w)); [|auto]. intros w1 x _ <-. apply update_fset_epics. Qed.
  Definition twin w v : Prop := near w v /\ ledger v = ledger w.
  Lemma twin_tick w v eid tk : twin w v -> ledger (fst (step silent v (OTick eid tk))) = ledger (fst (step silent w (OTick eid tk))).
  Proof.
    intros [Hn Hl]. cbn [step]. unfold epic_on_new_tick. rewrite (nr_epics _ _ Hn). destruct (w_epics w !! eid) as [e|] eqn:Ee; [|auto]. cbv zeta. destruct (arrow_ltb _ _); [auto|]. cbn [ep_fsets ep_set_last ep_prov ep_strats].
    set (t := tick_to (ep_tz e) tk). set (e' := ep_set_last e t (is_market_open e t)). assert (near (upd_epics w (<[eid := e']> (w_epics w))) (upd_epics v (<[eid := e']> (w_epics w)))) as Hn1 by (destruct Hn; split; auto).
    pose proof (near_updates LT t (ep_fsets e) _ _ Hn1) as [Hn2 Er]. pose proof (told_ledger t (ep_fsets e) (upd_epics w (<[eid := e']> (w_epics w)))) as L1. pose proof (told_ledger t (ep_fsets e) (upd_epics v (<[eid := e']> (w_epics w)))) as L2.
    destruct (forM (update_frame_set t) (upd_epics w _) _) as [w1 r], (forM (update_frame_set t) (upd_epics v _) _) as [v1 r']. simpl in Hn2, Er, L1, L2. subst r'.
    assert (ledger v1 = ledger w1) as L by (change (ledger (upd_epics w (<[eid:=e']> (w_epics w)))) with (ledger w) in L1; change (ledger (upd_epics v (<[eid:=e']> (w_epics w)))) with (ledger v) in L2; congruence).
    destruct r as [u|]; [|exact L]. cbn [andthen]. apply ledger_exec; [now apply ledger_update|]. destruct (value_rest w1 (ep_prov e) t) as (_ & -> & _), (value_rest v1 (ep_prov e) t) as (_ & -> & _). apply Hn2.
  Qed.
  Lemma tick_done w eid tk e : w_epics w !! eid = Some e -> ~ refused e tk -> snd (step silent w (OTick eid tk)) = Ok () -> let w' := fst (step silent w (OTick eid tk)) in let t := tick_to (ep_tz e) tk in
    w_epics w' = <[eid := ep_set_last e t (is_market_open e t)]> (w_epics w) /\ ledger (update_open_trades w' (ep_prov e) t) = ledger w' /\ (forall x, x ∈ ep_strats e -> awake eid w' x).
  Proof.
    intros Ee Hr. cbv zeta. set (t := tick_to (ep_tz e) tk). set (e' := ep_set_last e t (is_market_open e t)). unfold refused in Hr. cbn [step]. unfold epic_on_new_tick. rewrite Ee. cbv zeta. fold t. fold e'.
    destruct (arrow_ltb _ _) eqn:El; [now elim Hr|]. change (ep_fsets e') with (ep_fsets e). change (ep_prov e') with (ep_prov e). change (ep_strats e') with (ep_strats e).
    set (w0 := upd_epics w (<[eid := e']> (w_epics w))). pose proof (told_ledger t (ep_fsets e) w0) as L0. pose proof (told_epics t (ep_fsets e) w0) as P0.
    destruct (forM (update_frame_set t) w0 (ep_fsets e)) as [w1 [u|er]]; [|discriminate]. cbn [andthen fst snd] in *. intros Hx. destruct (exec_wakes eid (ep_mopen e) (ep_strats e) (update_open_trades w1 (ep_prov e) t) Hx) as (X1 & _ & X3).
    destruct (value_rest w1 (ep_prov e) t) as (_ & V & _). split; [rewrite X1, V, P0; reflexivity|]. split; [|exact X3].
    pose proof (update_again t w1 (ep_prov e)) as U. apply ledger_inj in U as (U1 & U2 & _). set (w2 := update_open_trades w1 (ep_prov e) t) in *. set (w' := fst (forM _ w2 _)).
    assert (w_trades w' = w_trades w2 /\ w_provs w' = w_provs w2) as [T1 T2].
    { unfold w'. apply (forM_inv (fun w3 => w_trades w3 = w_trades w2 /\ w_provs w3 = w_provs w2)); [|auto]. intros w3 x _ [<- <-]. destruct (exec_silent eid (ep_mopen e) w3 x) as (A1 & A2 & _). now split. }
    unfold update_open_trades in *. rewrite T2. destruct (w_provs w2 !! ep_prov e) as [y|]; [|auto]. assert (opened_trades w' y = opened_trades w2 y) as -> by (unfold opened_trades, trade_open_b; now rewrite T1).
    unfold ledger. cbn [w_trades w_provs w_strats upd_trades] in *. rewrite T1. congruence.
  Qed.
  Lemma twin_again w v eid tk : Forall sound_fs (w_fsets w) -> zones w -> (snd (step silent w (OTick eid tk)) = Ok () \/ forall e, w_epics w !! eid = Some e -> refused e tk) ->
    twin (fst (step silent w (OTick eid tk))) v -> twin (fst (step silent w (OTick eid tk))) (fst (step silent v (OTick eid tk))).
  Proof.
    intros Hs Hz Hc [Hn Hl]. split; [now apply tick_again|]. destruct (w_epics w !! eid) as [e|] eqn:Ee; [|revert Hn Hl; cbn [step]; unfold epic_on_new_tick; rewrite Ee; intros Hn Hl; simpl in *; now rewrite (nr_epics _ _ Hn), Ee].
    destruct (decide (refused e tk)) as [Hr|Hr].
    { revert Hn Hl. cbn [step]. rewrite (tick_refused _ _ eid e) by auto. intros Hn Hl. simpl in Hn. rewrite (tick_refused _ _ eid e); [auto|now rewrite (nr_epics _ _ Hn)|auto]. }
    destruct Hc as [Hc|Hc]; [|now elim Hr; apply Hc].
    destruct (tick_done w eid tk e Ee Hr Hc) as (D1 & D2 & D3). set (w' := fst (step silent w (OTick eid tk))) in *. set (t := tick_to (ep_tz e) tk) in *. set (e' := ep_set_last e t (is_market_open e t)) in *.
    assert (w_epics v !! eid = Some e') as Ev by (rewrite (nr_epics _ _ Hn), D1; apply list_lookup_insert; eapply lookup_lt_Some; eauto). pose proof (ledger_inj _ _ Hl) as (L1 & L2 & L3).
    cbn [step]. unfold epic_on_new_tick. rewrite Ev. cbv zeta. change (tick_to (ep_tz e') tk) with t. destruct (arrow_ltb _ _); [exact Hl|]. change (ep_set_last e' t (is_market_open e' t)) with e'. change (ep_fsets e') with (ep_fsets e). change (ep_prov e') with (ep_prov e). change (ep_strats e') with (ep_strats e).
    rewrite (list_insert_id _ _ _ Ev). change (upd_epics v (w_epics v)) with (put (w_fsets v, w_log v) v). pose proof (told_ledger t (ep_fsets e) (put (w_fsets v, w_log v) v)) as T1. pose proof (told_epics t (ep_fsets e) (put (w_fsets v, w_log v) v)) as T2.
    destruct (forM (update_frame_set t) _ _) as [v1 [u|er]]; cbn [andthen fst] in *; [|etransitivity; [exact T1|exact Hl]]. change (ledger v1 = ledger v) in T1. change (w_epics v1 = w_epics v) in T2.
    assert (ledger (update_open_trades v1 (ep_prov e) t) = ledger w') as L4. { rewrite (ledger_update t w' v1 (ep_prov e)) by congruence. exact D2. }
    destruct (value_rest v1 (ep_prov e) t) as (_ & V & _). rewrite exec_awake; [exact L4|]. intros x Hx. destruct (D3 x Hx) as (s & y & X1 & X2 & X3). exists s, y. apply ledger_inj in L4 as (_ & _ & ->). rewrite V, T2, (nr_epics _ _ Hn). now repeat split.
  Qed.

  (** ** Whole programs *)
  Lemma twin_step w v o : twin w v -> calendar_op o -> twin (fst (step silent w o)) (fst (step silent v o)).
  Proof.
    intros Ht Ho. pose proof Ht as [Hn Hl]. split; [now apply near_step|]. pose proof (ledger_inj _ _ Hl) as (L1 & L2 & L3). pose proof Hn as [N1 N2 N3].
    destruct o as [k|ref|u q ref m|ref tz op cl ds hs p|a f|a s|f i|a tk|c]; cbn [step].
    - unfold ledger. simpl. congruence.
    - unfold ledger. simpl. congruence.
    - destruct (fset_init u q ref m); exact Hl.
    - unfold new_epic. destruct tz as [z|]; [|exact Hl]. rewrite L2. destruct (valid_id _ _); [|exact Hl]. destruct p; unfold ledger; simpl; congruence.
    - unfold add_frame_set. rewrite N1. pose proof (F2_lookup _ _ _ f N2) as Hx. destruct (w_epics w !! a) as [e|]; [|exact Hl]. destruct (w_fsets w !! f) as [x|], (w_fsets v !! f) as [y|]; try easy.
      destruct Hx as [Sx Rx]. rewrite (rs_ref _ _ Rx). destruct (dict_get _ _); exact Hl.
    - unfold add_strategy. rewrite N1, L3. destruct (w_epics w !! a) as [e|]; [|exact Hl]. destruct (w_strats w !! s) as [x|]; [|exact Hl]. destruct (dict_get _ _); [exact Hl|]. unfold ledger. simpl. congruence.
    - pose proof (F2_lookup _ _ _ f N2) as Hx. destruct (w_fsets w !! f) as [x|], (w_fsets v !! f) as [y|]; try easy. destruct (add_indicator x i), (add_indicator y i). exact Hl.
    - now apply twin_tick.
    - now apply ledger_cmd.
  Qed.
  Lemma echo_twin l l' : echo l l' -> Forall calendar_op l' -> forall w v, twin w v -> zones w -> clean silent w l' ->
    twin (run silent w l') (run silent v l) /\
    match l, l' with o :: l0, o' :: l0' => forall v1, twin (fst (step silent w o')) v1 -> twin (run silent (fst (step silent w o')) l0') (run silent v1 l0) | _, _ => True end.
  Proof.
    induction 1 as [|o l l' He IH|eid tk l l' He IH]; intros Hl w v Hn Hz Hc.
    - now split.
    - inversion Hl as [|? ? Ho Hl']; subst. destruct Hc as [_ Hc]. assert (forall v1, twin (fst (step silent w o)) v1 -> twin (run silent (fst (step silent w o)) l') (run silent v1 l)) as Hv.
      { intros v1 Hv. apply IH; auto. now apply zones_step. }
      split; [|exact Hv]. rewrite !run_cons. apply Hv. now apply twin_step.
    - assert (forall v1, twin (fst (step silent w (OTick eid tk))) v1 -> twin (run silent (fst (step silent w (OTick eid tk))) l') (run silent v1 (OTick eid tk :: l))) as Hv.
      { intros v1 Hv. rewrite run_cons. apply (IH Hl w v Hn Hz Hc). apply (twin_again w v1 eid tk); auto; [eapply near_sound; apply Hn|]. apply Hc. }
      split; [|exact Hv]. rewrite (run_cons silent w), (run_cons silent v (OTick eid tk)). apply Hv. now apply twin_step.
  Qed.
  Lemma echo_ledger l l' : echo l l' -> Forall calendar_op l' -> clean silent empty_world l' ->
    let w := run silent empty_world l in let w' := run silent empty_world l' in
    w_trades w = w_trades w' /\ w_provs w = w_provs w' /\ w_strats w = w_strats w' /\ w_epics w = w_epics w' /\ Forall2 fs_recounted (w_fsets w') (w_fsets w).
  Proof.
    intros He Hl Hc. destruct (echo_twin l l' He Hl empty_world empty_world) as [[_ L] _]; auto.
    - split; [|auto]. split; auto. constructor.
    - intros j e. simpl. now rewrite lookup_nil.
    - destruct (echo_charts LT silent silent l l' He Hl Hc) as [E1 E2]. apply ledger_inj in L as (L1 & L2 & L3). cbv zeta. repeat split; auto.
  Qed.
End proofs.
