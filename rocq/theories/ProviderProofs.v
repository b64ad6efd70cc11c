(** Ledgers, netting and revaluation: the statements of C11-C17 from the lemmas of the previous files. *)
From Verif Require Export ThreadProofs.
Open Scope Z_scope.

Section proofs.
  Context {F : Type} `{Num F}.
  Implicit Types (w : world F) (t : trade F).

  Lemma reach_increasing P w : reach P w -> (forall a p, w_provs w !! a = Some p -> increasing (pv_trades p)) /\ (forall sid s, w_strats w !! sid = Some s -> increasing (st_trades s)).
  Proof. intros Hr. pose proof (reach_wf _ _ Hr) as W. split; [intros a p Hp; apply (wf_prov _ W _ _ Hp)|intros sid s Hs; apply (wf_strat _ W _ _ Hs)]. Qed.
  Lemma registered_once P w a b i : reach P w -> registered w a i -> registered w b i -> a = b.
  Proof.
    intros Hr (p & Hp & Hi) (p' & Hp' & Hi'). pose proof (reach_wf _ _ Hr) as W. destruct (wf_prov _ W _ _ Hp) as [_ H1]. destruct (wf_prov _ W _ _ Hp') as [_ H2].
    destruct (H1 _ Hi) as (t & e & Ht & He & E). destruct (H2 _ Hi') as (t' & e' & Ht' & He' & E'). congruence.
  Qed.
  Lemma registered_exists P w a i : reach P w -> registered w a i -> exists t e, w_trades w !! i = Some t /\ w_epics w !! tr_epic t = Some e /\ ep_prov e = a.
  Proof.
    intros Hr (p & Hp & Hi). pose proof (reach_wf _ _ Hr) as W. destruct (wf_prov _ W _ _ Hp) as [_ H1]. destruct (H1 _ Hi) as (t & e & Ht & He & E). eauto 10.
  Qed.
  Lemma strategy_trades P w sid s i : reach P w -> w_strats w !! sid = Some s ->
    (i ∈ st_trades s <-> (exists t, w_trades w !! i = Some t /\ tr_strat t = Some sid) /\ exists a, registered w a i).
  Proof. intros Hr Hs. pose proof (reach_wf _ _ Hr) as W. apply (wf_strat _ W _ _ Hs). Qed.
  Lemma is_open_b w i : trade_open_b w i = true <-> is_open w i.
  Proof.
    unfold trade_open_b, is_open. destruct (w_trades w !! i) as [t|]; [|split; [discriminate|intros (t & E & _); discriminate]].
    unfold closed. rewrite negb_true_iff, Z.eqb_neq. split; [eauto|]. intros (t' & E & Hn). now injection E as ->.
  Qed.
  Lemma opened_trades_elem w p i : i ∈ opened_trades w p <-> i ∈ pv_trades p /\ is_open w i.
  Proof. unfold opened_trades. rewrite elem_of_filter_b, is_open_b, elem_of_reverse. auto. Qed.
  Lemma sorted_filter {A} (R : A -> A -> Prop) f (l : list A) : StronglySorted R l -> StronglySorted R (List.filter f l).
  Proof.
    induction 1 as [|x l Hl IH Hx]; simpl; [constructor|]. destruct (f x); [|auto]. constructor; [auto|]. apply Forall_forall. intros y Hy.
    apply elem_of_filter_b in Hy as [Hy _]. eapply Forall_forall in Hx; eauto.
  Qed.
  Lemma sorted_snoc {A} (R : A -> A -> Prop) l (x : A) : StronglySorted R l -> Forall (fun y => R y x) l -> StronglySorted R (l ++ [x]).
  Proof.
    induction 1 as [|y l Hl IH Hy]; intros Hx; simpl; [repeat constructor|]. apply Forall_cons in Hx as [H1 H2]. constructor; [auto|].
    apply Forall_app. split; [auto|]. constructor; [auto|constructor].
  Qed.
  Lemma sorted_reverse l : increasing l -> StronglySorted gt (reverse l).
  Proof.
    unfold increasing. induction 1 as [|x l Hl IH Hx]; [constructor|]. rewrite reverse_cons. apply sorted_snoc; [auto|].
    apply Forall_forall. intros y Hy. rewrite elem_of_reverse in Hy. eapply Forall_forall in Hx; eauto.
  Qed.
  Lemma opened_trades_sorted P w a p : reach P w -> w_provs w !! a = Some p -> StronglySorted gt (opened_trades w p).
  Proof. intros Hr Hp. apply sorted_filter, sorted_reverse. eapply reach_increasing; eauto. Qed.

  (** ** C12 in reachable states *)
  Lemma netting_outcome w eid e p d q s ref : reach sane_call w -> w_epics w !! eid = Some e -> w_provs w !! ep_prov e = Some p -> pv_kind p = PBacktests ->
    valid_id (w_strats w) s = true -> 0 < q ->
    let l := open_trades_of w p s (other d) in let a := map (open_qty w) l in let tid := length (w_trades w) in
    exists t w', epic_open_trade w eid (Dir d) q s ref = (w', Ok tid) /\
      open_from_tick (ep_last e) eid (Dir d) q s ref = Ok t /\
      (* the new trade *)
      w_trades w' !! tid = Some (set_oq t (Z.max 0 (q - total a))) /\ length (w_trades w') = S tid /\
      (registered w' (ep_prov e) tid <-> total a < q) /\
      (* the opposite open trades, newest first *)
      (forall k i o, l !! k = Some i -> w_trades w !! i = Some o -> exists eo o' c, w_epics w !! tr_epic o = Some eo /\
         close_from_tick o (ep_last eo) (Some (netted q (total (take k a)) (opened_quantities o))) ref = Ok (o', c) /\
         tc_qty c = netted q (total (take k a)) (opened_quantities o) /\
         opened_quantities o' = opened_quantities o - netted q (total (take k a)) (opened_quantities o) /\
         w_trades w' !! i = Some o') /\
      (* nothing else *)
      (forall i, (i < tid)%nat -> i ∉ l -> w_trades w' !! i = w_trades w !! i) /\
      (forall a0 i, i <> tid -> (registered w' a0 i <-> registered w a0 i)) /\
      w_epics w' = w_epics w /\ w_fsets w' = w_fsets w /\ w_log w' = w_log w.
  Proof.
    intros Hr He Hp Hk Hs Hq l a tid. pose proof (reach_wf _ _ Hr) as W.
    destruct (open_backtest w eid e p d q s ref W He Hp Hk Hs Hq) as (t & w' & Ho & E & T1 & T2 & T3 & T4 & T5 & _ & T6 & T7 & T8).
    { intros i Hi. eapply qinv_open_pos; eauto. now apply reach_qinv. }
    exists t, w'. fold l in T1, T3, T4, T5. fold a in T1, T3, T5. fold tid in E, T1, T2, T4, T5.
    assert (forall i, registered w' (ep_prov e) i <-> registered w (ep_prov e) i \/ (i = tid /\ total a < q)) as HR.
    { intros i. unfold registered. rewrite T5, Hp, list_lookup_insert by (eapply lookup_lt_Some; eauto). split.
      - intros (p' & E' & Hi). injection E' as <-. simpl in Hi. apply elem_of_app in Hi as [Hi|Hi]; [left; eauto|]. unfold reg_list in Hi.
        destruct (Z.ltb_spec (total a) q); [|inversion Hi]. apply elem_of_list_singleton in Hi. auto.
      - intros Hi. eexists. split; [reflexivity|]. simpl. apply elem_of_app. destruct Hi as [(p' & E' & Hi)|[-> Hi]]; [left; congruence|right].
        unfold reg_list. destruct (Z.ltb_spec (total a) q); [left|lia]. }
    split; [auto|]. split; [auto|]. split; [auto|]. split; [auto|]. split; [|split; [|split; [auto|split; [|auto]]]].
    - rewrite HR. split; [|auto]. intros [Hi|[_ Hi]]; [|auto]. apply (registered_lt (Pl:=increasing) w) in Hi; auto. unfold tid in Hi. lia.
    - intros k i o Hi Hio. destruct (T3 k i o Hi Hio) as (eo & o' & c & Heo & Hc & Hcq & Ho'). exists eo, o', c. split; [auto|]. split; [auto|]. split; [auto|]. split; [|auto].
      apply close_tick_qty in Hc as [_ ->]. now rewrite Hcq.
    - intros a0 i Hi. destruct (decide (a0 = ep_prov e)) as [->|Hne].
      + rewrite HR. split; [|auto]. intros [?|[? _]]; [auto|contradiction].
      + unfold registered. rewrite T5, list_lookup_insert_ne by auto. auto.
  Qed.

  (** ** Quantities along runs (C03, C04 for whole programs) *)
  Lemma evo_step_reach (P : cmd F -> Prop) pr w (o : op F) : (forall c, P c -> sane_call c) -> programs_ok P pr -> op_ok P o -> reach P w -> evo w (fst (step pr w o)).
  Proof.
    intros HP Hp Ho Hr.
    assert (forall w1 s, reach P w1 -> script_ok P s -> evo w1 (fst (run_script w1 s))) as Hscript.
    { intros w1 s. revert w1. induction s as [|x|c k IH]; intros w1 H1 H2; simpl; [reflexivity|reflexivity|]. destruct H2 as [H2 H3].
      pose proof (evo_call w1 c (reach_mono _ _ _ HP H1) (HP _ H2)) as E1. pose proof (reach_call P w1 c H1 H2) as R1. destruct (run_cmd w1 c) as [w2 r]. simpl in *.
      etransitivity; [exact E1|]. apply IH; auto. }
    assert (forall w1 sid cb eid, reach P w1 -> evo w1 (fst (run_callback pr sid cb eid w1))) as Hcb.
    { intros w1 sid cb eid H1. unfold run_callback. cbv zeta. etransitivity; [|apply Hscript; [now apply reach_log|apply Hp]]. now apply evo_same. }
    assert (forall w0 x (k : world F -> world F * res unit), reach P (fst x) -> evo w0 (fst x) -> (forall w1, reach P w1 -> evo w1 (fst (k w1))) -> evo w0 (fst (andthen x k))) as Hat.
    { intros w0 [w1 [u|x]] k H1 H2 H3; simpl in *; [|auto]. etransitivity; eauto. }
    destruct o as [k|ref|u q ref m|ref tz op cl ds hs pv|eid fid|eid sid|fid i|e tk|c]; try (apply evo_same, setup_trades; exact I; fail).
    - unfold step, epic_on_new_tick. destruct (w_epics w !! e) as [ep|] eqn:He; [|reflexivity]. cbv zeta. destruct (arrow_ltb _ _) eqn:Ea; [reflexivity|].
      set (ep' := ep_set_last ep _ _). set (w1 := upd_epics w _).
      assert (forall l, (forall x, x ∈ l -> x ∈ ep_fsets ep') -> let w2 := fst (forM (update_frame_set (tick_to (ep_tz ep) tk)) w1 l) in reach P w2 /\ evo w w2 /\ w_epics w2 !! e = Some ep') as Hfs.
      { intros l Hl. apply (forM_inv (fun w1 => reach P w1 /\ evo w w1 /\ w_epics w1 !! e = Some ep')).
        - intros w2 x Hx (H2 & H3 & H4). rewrite update_fset_epics. split; [apply (reach_fset P w2 e ep' x); auto|]. split; [|auto]. etransitivity; [exact H3|].
          apply evo_same. unfold update_frame_set. destruct (w_fsets w2 !! x.2) as [fs|]; [|auto]. destruct (fs_epic_state w2 fs); destruct (fs_on_new_tick _ _ _ _ _); auto.
        - split; [now apply reach_accept|]. split; [now apply evo_same|]. simpl. apply list_lookup_insert. eapply lookup_lt_Some; eauto. }
      destruct (Hfs (ep_fsets ep') ltac:(auto)) as (H1 & H2 & H3').
      assert (forall w0 x (k : world F -> world F * res unit), reach P (fst x) -> evo w0 (fst x) -> w_epics (fst x) !! e = Some ep' -> (forall w1, reach P w1 -> w_epics w1 !! e = Some ep' -> evo w1 (fst (k w1))) -> evo w0 (fst (andthen x k))) as Hat'.
      { intros w0 [w2 [u|x]] k G1 G2 G3 G4; simpl in *; [|auto]. etransitivity; eauto. }
      apply Hat'; [exact H1|exact H2|exact H3'|]. intros w2 H3 H3e.
      assert (forall l, reach P (fst (forM (execute_strategy pr e (ep_mopen ep)) (update_open_trades w2 (ep_prov ep) (tick_to (ep_tz ep) tk)) l)) /\
        evo w2 (fst (forM (execute_strategy pr e (ep_mopen ep)) (update_open_trades w2 (ep_prov ep) (tick_to (ep_tz ep) tk)) l))) as Hes; [|apply Hes].
      intros l. apply (forM_inv (fun w3 => reach P w3 /\ evo w2 w3)); [|split; [now apply (reach_value P w2 e ep')|apply evo_value]]. intros w3 x _ [H4 H5]. split; [now apply strategy_reach|].
      etransitivity; [exact H5|]. unfold execute_strategy. destruct (w_strats w3 !! x.2) as [s|] eqn:Es; [|reflexivity]. destruct (w_epics w3 !! e) as [e3|] eqn:He3; [|reflexivity].
      pose proof (reach_active P w3 x.2 s (tk_dt (ep_last e3)) H4 Es) as R1. destruct (is_active s (tk_dt (ep_last e3))) as [s' act]. cbn [fst] in R1.
      destruct act; [|now apply evo_same]. apply Hat.
      + destruct (eqb _ _); [exact R1|]. destruct (ep_mopen ep); now apply callback_reach.
      + destruct (eqb _ _); [now apply evo_same|]. destruct (ep_mopen ep); (etransitivity; [|apply Hcb; exact R1]); now apply evo_same.
      + intros w4 H6. apply Hat.
        * destruct (ep_mopen e3); [now apply callback_reach|exact H6].
        * destruct (ep_mopen e3); [now apply Hcb|reflexivity].
        * intros w5 H7. now apply Hcb.
    - simpl in Ho. apply evo_call; [now apply (reach_mono P)|auto].
  Qed.
  Lemma evo_run (P : cmd F -> Prop) pr l w : (forall c, P c -> sane_call c) -> programs_ok P pr -> Forall (op_ok P) l -> reach P w -> evo w (run pr w l).
  Proof.
    intros HP Hp Hl. revert w. induction Hl as [|o l Ho Hl IH]; intros w Hr; [reflexivity|]. cbn [run fold_left].
    etransitivity; [eapply evo_step_reach; eauto|]. apply IH. now apply step_reach.
  Qed.

  Lemma quantities_in_every_state w i t : reach sane_call w -> w_trades w !! i = Some t ->
    opened_quantities t + closed_quantities t = tr_oq t /\ 0 <= opened_quantities t <= tr_oq t /\
    (forall k c, tr_closes t !! k = Some c -> 0 <= tc_qty c <= tr_oq t - booked (take k (tr_closes t))).
  Proof.
    intros Hr Ht. destruct (reach_qinv w Hr i t Ht) as (_ & Hb & Hc). rewrite opened_booked, closed_quantities_booked in *. split; [lia|]. split; [lia|auto].
  Qed.

  (** ** C17 *)
  Lemma value_lookup w pid p tk i : NoDup (pv_trades p) -> w_provs w !! pid = Some p ->
    w_trades (update_open_trades w pid tk) !! i =
      (if bool_decide (i ∈ opened_trades w p) then (fun t => update_from_tick t tk) <$> w_trades w !! i else w_trades w !! i).
  Proof.
    intros Hnd Hp. unfold update_open_trades. rewrite Hp. simpl.
    assert (NoDup (opened_trades w p)) as Hnd' by (apply filter_nodup; now rewrite reverse_Permutation).
    revert Hnd'. generalize (opened_trades w p) as l, (w_trades w) as ts. induction l as [|j l IH]; intros ts Hn; simpl; [reflexivity|].
    apply NoDup_cons in Hn as [Hj Hn]. rewrite IH by auto. destruct (decide (j = i)) as [->|Hne].
    - rewrite bool_decide_eq_false_2 by auto. rewrite bool_decide_eq_true_2 by left. now rewrite list_lookup_alter.
    - rewrite list_lookup_alter_ne by auto. assert (bool_decide (i ∈ l) = bool_decide (i ∈ j :: l)) as ->; [|auto].
      apply bool_decide_ext. rewrite elem_of_cons. split; [auto|]. intros [->|?]; [congruence|auto].
  Qed.
  Lemma update_tick_cv t tk : opened_quantities t <> 0 -> tr_cv (update_from_tick t tk) = exit_price (tr_dir t) tk.
  Proof.
    intros Ho. unfold update_from_tick, update. assert (closed t = false) as ->.
    { unfold closed. now apply Z.eqb_neq. }
    destruct (update_min_max_same (set_cv t (match tr_dir t with BUY => tk_bid tk | SELL => tk_ask tk end))) as [_ E]. exact E.
  Qed.
  Lemma fsets_trades tk l w : w_trades (fst (forM (update_frame_set tk) w l)) = w_trades w /\ w_provs (fst (forM (update_frame_set tk) w l)) = w_provs w /\
    w_strats (fst (forM (update_frame_set tk) w l)) = w_strats w /\ w_epics (fst (forM (update_frame_set tk) w l)) = w_epics w /\ w_log (fst (forM (update_frame_set tk) w l)) = w_log w.
  Proof.
    apply (forM_inv (fun w1 => w_trades w1 = w_trades w /\ w_provs w1 = w_provs w /\ w_strats w1 = w_strats w /\ w_epics w1 = w_epics w /\ w_log w1 = w_log w)); [|auto].
    intros w1 x _ H1. unfold update_frame_set. destruct (w_fsets w1 !! x.2) as [fs|]; [|auto]. destruct (fs_epic_state w1 fs); destruct (fs_on_new_tick _ _ _ _ _); auto.
  Qed.
  Lemma revaluation P pr w eid e tk0 : reach P w -> w_epics w !! eid = Some e -> let tk := tick_to (ep_tz e) tk0 in
    arrow_ltb (tk_dt tk) (tk_dt (ep_last e)) = false ->
    (exists x, snd (epic_on_new_tick pr w eid tk0) = Err x /\ w_trades (fst (epic_on_new_tick pr w eid tk0)) = w_trades w) \/
    exists w3, epic_on_new_tick pr w eid tk0 = forM (execute_strategy pr eid (ep_mopen e)) w3 (ep_strats e) /\
      w_provs w3 = w_provs w /\ w_strats w3 = w_strats w /\ w_log w3 = w_log w /\
      forall i t, w_trades w !! i = Some t -> exists t', w_trades w3 !! i = Some t' /\
        (registered w (ep_prov e) i -> opened_quantities t <> 0 -> only_revalued t t' /\ tr_cv t' = exit_price (tr_dir t) tk) /\
        (~ registered w (ep_prov e) i \/ opened_quantities t = 0 -> t' = t).
  Proof.
    intros Hr He tk Hlt. unfold epic_on_new_tick. rewrite He. cbv zeta. fold tk. rewrite Hlt. set (e' := ep_set_last e tk (is_market_open e tk)). set (w1 := upd_epics w _).
    pose proof (fsets_trades tk (ep_fsets e') w1) as (T1 & T2 & T3 & T4 & T5). destruct (forM (update_frame_set tk) w1 (ep_fsets e')) as [w2 [u|x]]; cbn [fst snd andthen] in *.
    - right. exists (update_open_trades w2 (ep_prov e) tk). split; [reflexivity|]. pose proof (reach_wf _ _ Hr) as W.
      destruct (wf_epic _ W _ _ He) as ((p & Hp) & _). destruct (wf_prov _ W _ _ Hp) as [Hinc _].
      assert (w_provs w2 !! ep_prov e = Some p) as Hp2 by (rewrite T2; exact Hp).
      split; [unfold update_open_trades; now rewrite Hp2|]. split; [unfold update_open_trades; now rewrite Hp2|]. split; [unfold update_open_trades; now rewrite Hp2|].
      intros i t Ht. rewrite (value_lookup w2 (ep_prov e) p tk i) by (auto using increasing_nodup). rewrite T1. change (w_trades w1) with (w_trades w). rewrite Ht. simpl.
      assert (forall b, (b = true <-> i ∈ opened_trades w2 p) -> exists t', (if b then Some (update_from_tick t tk) else Some t) = Some t' /\
        (registered w (ep_prov e) i -> opened_quantities t <> 0 -> only_revalued t t' /\ tr_cv t' = exit_price (tr_dir t) tk) /\
        (~ registered w (ep_prov e) i \/ opened_quantities t = 0 -> t' = t)) as Hb; [|apply Hb; apply bool_decide_eq_true].
      intros b Hb. rewrite opened_trades_elem in Hb. unfold is_open in Hb. rewrite T1 in Hb. change (w_trades w1) with (w_trades w) in Hb. rewrite Ht in Hb.
      assert (b = true <-> registered w (ep_prov e) i /\ opened_quantities t <> 0) as Hb'.
      { rewrite Hb. unfold registered. rewrite Hp. split.
        - intros [Hi (t0 & E & Hn)]. injection E as <-. eauto.
        - intros [(p0 & E & Hi) Hn]. injection E as <-. eauto. }
      destruct b; eexists; (split; [reflexivity|]); split.
      + intros _ Hn. split; [apply update_from_tick_same|now apply update_tick_cv].
      + destruct (proj1 Hb' eq_refl) as [H1 H2]. intros [?|?]; contradiction.
      + intros H1 H2. exfalso. assert (false = true) by (apply Hb'; auto). discriminate.
      + auto.
    - left. exists x. split; [auto|]. now rewrite T1.
  Qed.
End proofs.
