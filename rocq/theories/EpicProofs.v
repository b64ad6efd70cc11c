(** What calls and ticks leave alone; callbacks of a tick. *)
From Verif Require Export SpecEpic ProviderProofs.
Open Scope Z_scope.

Section proofs.
  Context {F : Type} `{Num F}.
  Implicit Types (w : world F) (t : trade F) (e : epic F) (s : strategy).

  (** ** Calls leave epics, frame sets and the callback log alone *)
  Definition rest w := (w_epics w, w_fsets w, w_log w).
  Lemma close_from_epic_rest w tid q ref w' ci : close_from_epic w tid q ref = Ok (w', ci) -> rest w' = rest w /\ w_strats w' = w_strats w.
  Proof. intros E. apply close_from_epic_inv in E as (t & e & t' & c & _ & _ & _ & -> & _). auto. Qed.
  Lemma net_rest pid tid ref w l : rest (fst (forM (net_step pid tid ref) w l)) = rest w /\ w_strats (fst (forM (net_step pid tid ref) w l)) = w_strats w.
  Proof.
    apply (forM_inv (fun w1 => rest w1 = rest w /\ w_strats w1 = w_strats w)); [|auto]. intros w1 x _ [H1 H2]. rewrite <- H1, <- H2. clear.
    unfold net_step. destruct (w_trades w1 !! tid) as [t|]; [|auto]. destruct (w_trades w1 !! x) as [o|]; [|auto].
    destruct (dir_eqb _ _); [|auto]. destruct (bool_decide _); [|auto]. cbv zeta.
    destruct (close_from_epic _ _ _ _) as [[w2 ci]|e] eqn:E; [|auto]. apply close_from_epic_rest in E as [E1 E2]. simpl. split; [exact E1|exact E2].
  Qed.
  Lemma base_open_rest w pid tid : rest (base_open_trade w pid tid) = rest w.
  Proof. unfold base_open_trade. destruct (w_trades w !! tid) as [t|]; [|auto]. destruct (tr_strat t); auto. Qed.
  Lemma provider_open_rest w pid tid ref : rest (fst (provider_open_trade w pid tid ref)) = rest w.
  Proof.
    unfold provider_open_trade. destruct (w_provs w !! pid) as [p|] eqn:Ep; [|auto].
    destruct (pv_kind p); try apply base_open_rest. unfold backtest_open_trade. rewrite Ep.
    pose proof (net_rest pid tid ref w (opened_trades w p)) as [H1 _]. destruct (forM _ _ _) as [w1 [u|x]]; cbn [fst] in *; [|auto].
    destruct (w_trades w1 !! tid) as [t|]; [|auto]. destruct (tr_oq t <=? 0); cbn [fst]; [auto|]. now rewrite base_open_rest.
  Qed.
  Lemma strategy_close_rest w tid q ref : rest (fst (strategy_close_trade w tid q ref)) = rest w /\ w_strats (fst (strategy_close_trade w tid q ref)) = w_strats w.
  Proof.
    unfold strategy_close_trade. destruct (w_trades w !! tid); [|auto]. unfold epic_close_trade. destruct (w_epics w !! _); [|auto].
    destruct (close_from_epic _ _ _ _) as [[w1 ci]|] eqn:E; [|auto]. apply close_from_epic_rest in E. exact E.
  Qed.
  Lemma close_opened_rest q ref w l : rest (fst (forM (close_opened_step q ref) w l)) = rest w /\ w_strats (fst (forM (close_opened_step q ref) w l)) = w_strats w.
  Proof.
    apply (forM_inv (fun w1 => rest w1 = rest w /\ w_strats w1 = w_strats w)); [|auto]. intros w1 x _ [H1 H2]. rewrite <- H1, <- H2.
    unfold close_opened_step. destruct (trade_open_b w1 x); [apply strategy_close_rest|auto].
  Qed.
  Lemma cmd_rest w c : rest (fst (run_cmd w c)) = rest w.
  Proof.
    destruct c as [e d q s ref|t q ref|e t q ref|s q ref|t v|t|t v d q ref|t q ref|s u|s b|p k]; cbn [run_cmd fst]; auto.
    - assert (rest (fst (epic_open_trade w e d q s ref)) = rest w) as E; [|now destruct (epic_open_trade w e d q s ref)].
      unfold epic_open_trade. destruct (w_epics w !! e) as [ep|]; [|auto]. destruct (valid_id _ _); [|auto]. destruct (open_from_tick _ _ _ _ _ _) as [t|x]; [|auto]. cbv zeta.
      pose proof (provider_open_rest (upd_trades w (w_trades w ++ [t])) (ep_prov ep) (length (w_trades w)) ref) as E. destruct (provider_open_trade _ _ _ _) as [w' [u|x]]; exact E.
    - apply strategy_close_rest.
    - unfold epic_close_trade. destruct (w_epics w !! e) as [ep|]; [|auto]. destruct (close_from_epic _ _ _ _) as [[w1 ci]|] eqn:E; [|auto]. apply close_from_epic_rest in E as [E _]. exact E.
    - unfold close_opened_trades. destruct (w_strats w !! s); [|auto]. apply close_opened_rest.
    - destruct (w_trades w !! t) as [x|]; [|auto]. now destruct (w_epics w !! tr_epic x).
    - destruct (w_trades w !! t) as [x|]; [|auto]. now destruct (close x v d q ref) as [[x' c]|].
    - destruct (close_from_epic w t q ref) as [[w' ci]|] eqn:E; [|auto]. now apply close_from_epic_rest in E as [E _].
    - unfold run_thread. destruct (w_provs w !! p) as [p'|]; [|auto]. destruct (pv_threads p' !! k) as [th|]; [|auto]. now destruct (th_done th).
  Qed.
  Lemma script_rest w (sc : script F) : rest (fst (run_script w sc)) = rest w.
  Proof.
    revert w. induction sc as [|x|c k IH]; intros w; simpl; auto. pose proof (cmd_rest w c) as E. destruct (run_cmd w c) as [w' r]. simpl in E. now rewrite IH.
  Qed.

  (** ** Pauses and stops are only changed by the calls doing so *)
  Definition flags s := (st_paused s, st_stopped s).
  Lemma cmd_flags w c sid : spares sid c -> flags <$> w_strats (fst (run_cmd w c)) !! sid = flags <$> w_strats w !! sid.
  Proof.
    intros Hc. destruct c as [e d q s ref|t q ref|e t q ref|s q ref|t v|t|t v d q ref|t q ref|s u|s b|p k]; cbn [run_cmd fst]; auto.
    - assert (flags <$> w_strats (fst (epic_open_trade w e d q s ref)) !! sid = flags <$> w_strats w !! sid) as E; [|now destruct (epic_open_trade w e d q s ref)].
      unfold epic_open_trade. destruct (w_epics w !! e) as [ep|]; [|auto]. destruct (valid_id _ _); [|auto]. destruct (open_from_tick _ _ _ _ _ _) as [t|x]; [|auto]. cbv zeta.
      assert (forall w1 pid tid, flags <$> w_strats (base_open_trade w1 pid tid) !! sid = flags <$> w_strats w1 !! sid) as Hb.
      { intros w1 pid tid. destruct (w_trades w1 !! tid) as [t1|] eqn:Et; [|unfold base_open_trade; now rewrite Et].
        rewrite (register_strats _ _ _ _ _ Et). destruct (decide _); [|auto]. now destruct (w_strats w1 !! sid). }
      assert (flags <$> w_strats (fst (provider_open_trade (upd_trades w (w_trades w ++ [t])) (ep_prov ep) (length (w_trades w)) ref)) !! sid = flags <$> w_strats w !! sid) as E.
      { unfold provider_open_trade. destruct (w_provs _ !! ep_prov ep) as [p|] eqn:Ep; [|auto]. destruct (pv_kind p); try (cbn [fst]; rewrite Hb; reflexivity).
        unfold backtest_open_trade. rewrite Ep. match goal with |- context [forM ?f ?w0 ?l] => pose proof (net_rest (ep_prov ep) (length (w_trades w)) ref w0 l) as [_ H1] end.
        destruct (forM _ _ _) as [w1 [u|x]]; cbn [fst] in *; [|now rewrite H1].
        destruct (w_trades w1 !! _) as [t1|]; [|cbn [fst]; now rewrite H1]. destruct (tr_oq t1 <=? 0); cbn [fst]; [now rewrite H1|]. now rewrite Hb, H1. }
      destruct (provider_open_trade _ _ _ _) as [w' [u|x]]; exact E.
    - now rewrite (proj2 (strategy_close_rest w t q ref)).
    - unfold epic_close_trade. destruct (w_epics w !! e) as [ep|]; [|auto]. destruct (close_from_epic _ _ _ _) as [[w1 ci]|] eqn:E; [|auto]. apply close_from_epic_rest in E as [_ E]. cbn [fst]. simpl. now rewrite E.
    - unfold close_opened_trades. destruct (w_strats w !! s); [|auto]. now rewrite (proj2 (close_opened_rest q ref w _)).
    - destruct (w_trades w !! t) as [x|]; [|auto]. now destruct (w_epics w !! tr_epic x).
    - destruct (w_trades w !! t) as [x|]; [|auto]. now destruct (close x v d q ref) as [[x' c]|].
    - destruct (close_from_epic w t q ref) as [[w' ci]|] eqn:E; [|auto]. apply close_from_epic_rest in E as [_ E]. cbn [fst]. now rewrite E.
    - simpl in Hc. simpl. now rewrite list_lookup_alter_ne by auto.
    - simpl in Hc. simpl. now rewrite list_lookup_alter_ne by auto.
    - unfold run_thread. destruct (w_provs w !! p) as [p'|]; [|auto]. destruct (pv_threads p' !! k) as [th|]; [|auto]. now destruct (th_done th).
  Qed.
  Lemma script_flags w (sc : script F) sid : script_ok (spares sid) sc -> flags <$> w_strats (fst (run_script w sc)) !! sid = flags <$> w_strats w !! sid.
  Proof.
    revert w. induction sc as [|x|c k IH]; intros w Hs; simpl; auto. destruct Hs as [Hc Hk]. pose proof (cmd_flags w c sid Hc) as E. destruct (run_cmd w c) as [w' r]. simpl in E. now rewrite IH.
  Qed.
  (** ** Callbacks *)
  Lemma callback_rest pr sid cb eid w : let w' := fst (run_callback pr sid cb eid w) in
    w_log w' = w_log w ++ events_of sid eid [cb] /\ w_epics w' = w_epics w /\ w_fsets w' = w_fsets w.
  Proof.
    unfold run_callback. cbv zeta. match goal with |- context [run_script ?w0 ?sc] => pose proof (script_rest w0 sc) as E end.
    unfold rest in E. simpl in E. injection E as E1 E2 E3. rewrite E1, E2, E3. auto.
  Qed.
  Lemma callback_flags pr sid cb eid w k : programs_ok (spares k) pr -> flags <$> w_strats (fst (run_callback pr sid cb eid w)) !! k = flags <$> w_strats w !! k.
  Proof. intros Hp. unfold run_callback. cbv zeta. rewrite script_flags by apply Hp. auto. Qed.

  Lemma is_active_spec s d : snd (is_active s d) = takes_part s d /\
    flags (fst (is_active s d)) = if takes_part s d then (None, false) else flags s.
  Proof.
    unfold is_active, takes_part. destruct (st_stopped s) eqn:Es; [auto|]. destruct (st_paused s) as [u|] eqn:Eu; simpl.
    - destruct (arrow_ltb d u); simpl; [auto|]. unfold flags. simpl. now rewrite Es.
    - unfold flags. now rewrite Es, Eu.
  Qed.
  Lemma is_active_false s d : takes_part s d = false -> is_active s d = (s, false).
  Proof.
    unfold is_active, takes_part. destruct (st_stopped s); [auto|]. destruct (st_paused s); simpl; [|discriminate]. now destruct (arrow_ltb d _).
  Qed.
  Lemma upd_strats_id w sid s : w_strats w !! sid = Some s -> upd_strats w (<[sid := s]> (w_strats w)) = w.
  Proof. intros Hs. rewrite list_insert_id by auto. now destruct w. Qed.
  Lemma execute_inactive pr eid mo w x s e : w_strats w !! x.2 = Some s -> w_epics w !! eid = Some e ->
    takes_part s (tk_dt (ep_last e)) = false -> execute_strategy pr eid mo w x = (w, Ok ()).
  Proof.
    intros Hs He Hf. unfold execute_strategy. rewrite Hs, He, is_active_false by auto. now rewrite upd_strats_id.
  Qed.

  Lemma events_app sid eid l k : events_of sid eid (l ++ k) = events_of sid eid l ++ events_of sid eid k.
  Proof. apply map_app. Qed.

  (** The callbacks of one strategy that takes part. *)
  Lemma execute_active pr eid mo w x s e : w_strats w !! x.2 = Some s -> w_epics w !! eid = Some e ->
    takes_part s (tk_dt (ep_last e)) = true -> let '(w', r) := execute_strategy pr eid mo w x in
    w_epics w' = w_epics w /\ w_fsets w' = w_fsets w /\
    (exists l, w_log w' = w_log w ++ events_of x.2 eid l /\ l `prefix_of` callbacks_of mo (ep_mopen e) /\ (r = Ok () -> l = callbacks_of mo (ep_mopen e))) /\
    (forall k, programs_ok (spares k) pr -> flags <$> w_strats w' !! k = if decide (k = x.2) then Some (None, false) else flags <$> w_strats w !! k).
  Proof.
    intros Hs He Ht. unfold execute_strategy. rewrite Hs, He. destruct (is_active_spec s (tk_dt (ep_last e))) as [A1 A2].
    destruct (is_active s (tk_dt (ep_last e))) as [s' act]. cbn [fst snd] in *. rewrite Ht in A1, A2. subst act.
    set (w1 := upd_strats w _).
    set (G := fun (y : world F * res unit) (l0 cbs : list callback) => w_epics (fst y) = w_epics w /\ w_fsets (fst y) = w_fsets w /\
      (exists l, w_log (fst y) = w_log w ++ events_of x.2 eid l /\ l `prefix_of` l0 /\ (snd y = Ok () -> l = cbs)) /\
      (forall k, programs_ok (spares k) pr -> flags <$> w_strats (fst y) !! k = if decide (k = x.2) then Some (None, false) else flags <$> w_strats w !! k)).
    assert (forall w2 cb l0 cbs, G (w2, Ok ()) l0 cbs -> (cbs ++ [cb]) `prefix_of` l0 -> G (run_callback pr x.2 cb eid w2) l0 (cbs ++ [cb])) as Hcb.
    { intros w2 cb l0 cbs (G1 & G2 & (l & G3 & _ & G4) & G5) Hpre. simpl in *. rewrite (G4 eq_refl) in G3. destruct (callback_rest pr x.2 cb eid w2) as (B1 & B2 & B3).
      split; [congruence|]. split; [congruence|]. split.
      - exists (cbs ++ [cb]). split; [|auto]. rewrite B1, G3, events_app. now rewrite app_assoc.
      - intros k Hk. rewrite callback_flags by auto. auto. }
    assert (forall y (k : world F -> world F * res unit) l0 cbs cbs', G y l0 cbs -> (forall w2, G (w2, Ok ()) l0 cbs -> G (k w2) l0 cbs') -> G (andthen y k) l0 cbs') as Hat.
    { intros [w2 [[]|er]] k l0 cbs cbs' G1 Hk; simpl; [now apply Hk|]. destruct G1 as (G1 & G2 & (l & G3 & G4 & _) & G5). simpl in *. split; [auto|]. split; [auto|]. split; [|auto]. exists l. split; [auto|]. split; [auto|]. discriminate. }
    assert (forall l0, G (w1, Ok ()) l0 []) as G0.
    { intros l0. split; [auto|]. split; [auto|]. split; [exists []; simpl; rewrite app_nil_r; split; [auto|]; split; [apply prefix_nil|auto]|].
      intros k Hk. subst w1. simpl. destruct (decide (k = x.2)) as [->|Hne].
      - rewrite list_lookup_insert by (eapply lookup_lt_Some; eauto). simpl. now rewrite A2.
      - now rewrite list_lookup_insert_ne by auto. }
    match goal with |- let '(w', r) := ?y in _ => assert (G y (callbacks_of mo (ep_mopen e)) (callbacks_of mo (ep_mopen e))) as HG end.
    { destruct mo, (ep_mopen e); cbn [eqb callbacks_of].
      - apply (Hat _ _ _ []); [apply G0|]. intros w2 G2. apply (Hat _ _ _ [OnEveryTickMarketOpen]); [apply (Hcb _ _ _ []); [auto|now eexists]|].
        intros w3 G3. apply (Hcb _ _ _ [OnEveryTickMarketOpen]); [auto|now exists []].
      - apply (Hat _ _ _ [OnMarketClose]); [apply (Hcb _ _ _ []); [apply G0|now eexists]|]. intros w2 G2. apply (Hat _ _ _ [OnMarketClose]); [auto|].
        intros w3 G3. apply (Hcb _ _ _ [OnMarketClose]); [auto|now exists []].
      - apply (Hat _ _ _ [OnMarketOpen]); [apply (Hcb _ _ _ []); [apply G0|now eexists]|]. intros w2 G2.
        apply (Hat _ _ _ [OnMarketOpen; OnEveryTickMarketOpen]); [apply (Hcb _ _ _ [OnMarketOpen]); [auto|now eexists]|].
        intros w3 G3. apply (Hcb _ _ _ [OnMarketOpen; OnEveryTickMarketOpen]); [auto|now exists []].
      - apply (Hat _ _ _ []); [apply G0|]. intros w2 G2. apply (Hat _ _ _ []); [auto|]. intros w3 G3. apply (Hcb _ _ _ []); [auto|now exists []]. }
    match goal with |- let '(w', r) := ?y in _ => destruct y as [w' r] end. exact HG.
  Qed.
  (** ** All strategies of a tick; [K] selects strategies no callback pauses or stops *)
  Definition spares_all (K : nat -> bool) (c : cmd F) : Prop := forall sid, K sid = true -> spares sid c.
  Definition expected (K A : nat -> bool) eid (cbs : list callback) (l : list (string * nat)) : list event :=
    concat (map (fun x => if K x.2 && A x.2 then events_of x.2 eid cbs else []) l).
  Definition kept (K : nat -> bool) (l : list event) : list event := List.filter (fun ev => K (ev_strat ev)) l.
  Lemma kept_app K l k : kept K (l ++ k) = kept K l ++ kept K k.
  Proof. unfold kept. induction l as [|x l IH]; simpl; [auto|]. rewrite IH. now destruct (K (ev_strat x)). Qed.
  Lemma kept_events K sid eid l : kept K (events_of sid eid l) = if K sid then events_of sid eid l else [].
  Proof. unfold kept. induction l as [|c l IH]; simpl; [now destruct (K sid)|]. rewrite IH. now destruct (K sid). Qed.
  Lemma programs_spares K pr sid : programs_ok (spares_all K) pr -> K sid = true -> programs_ok (spares sid) pr.
  Proof.
    intros Hp Hk a b c w. specialize (Hp a b c w). revert Hp. generalize (pr a b c w). induction s as [|e|c0 k IH]; simpl; auto. intros [H1 H2]. split; [now apply H1|auto].
  Qed.
  Lemma prefix_of_app_l {X} (l k m : list X) : k `prefix_of` m -> l ++ k `prefix_of` l ++ m.
  Proof. apply prefix_app. Qed.
  Lemma prefix_of_trans_app {X} (l k m : list X) : l `prefix_of` k -> l `prefix_of` k ++ m.
  Proof. intros [z ->]. rewrite <- app_assoc. apply prefix_app_r. reflexivity. Qed.
  Lemma events_prefix sid eid l k : l `prefix_of` k -> events_of sid eid l `prefix_of` events_of sid eid k.
  Proof. intros [z ->]. rewrite events_app. apply prefix_app_r. reflexivity. Qed.

  Lemma execute_all K A pr eid mo e l w : programs_ok (spares_all K) pr -> w_epics w !! eid = Some e ->
    (forall sid s, K sid = true -> w_strats w !! sid = Some s -> takes_part s (tk_dt (ep_last e)) = A sid) ->
    let '(w', r) := forM (execute_strategy pr eid mo) w l in
    w_epics w' = w_epics w /\ w_fsets w' = w_fsets w /\
    (exists evs, w_log w' = w_log w ++ evs /\ kept K evs `prefix_of` expected K A eid (callbacks_of mo (ep_mopen e)) l /\
      (r = Ok () -> kept K evs = expected K A eid (callbacks_of mo (ep_mopen e)) l)) /\
    (forall k, K k = true -> (flags <$> w_strats w' !! k = flags <$> w_strats w !! k \/ (A k = true /\ flags <$> w_strats w' !! k = Some (None, false))) /\
       (r = Ok () -> A k = true -> k ∈ map snd l -> flags <$> w_strats w' !! k = Some (None, false))).
  Proof.
    intros Hp. revert w. induction l as [|x l IH]; intros w He HA.
    - simpl. split; [auto|]. split; [auto|]. split; [exists []; rewrite app_nil_r; simpl; auto|]. intros k Hk. split; [auto|]. intros _ _ Hin. simpl in Hin. now apply elem_of_nil in Hin.
    - cbn [forM]. destruct (w_strats w !! x.2) as [s|] eqn:Hs.
      2:{ unfold execute_strategy. rewrite Hs. split; [auto|]. split; [auto|]. split; [|intros k Hk; split; [auto|discriminate]].
          exists []. rewrite app_nil_r. split; [auto|]. split; [apply prefix_nil|discriminate]. }
      assert (exists cbs, let '(w1, r1) := execute_strategy pr eid mo w x in w_epics w1 = w_epics w /\ w_fsets w1 = w_fsets w /\
        w_log w1 = w_log w ++ events_of x.2 eid cbs /\ (K x.2 = true -> events_of x.2 eid cbs `prefix_of` (if A x.2 then events_of x.2 eid (callbacks_of mo (ep_mopen e)) else [])) /\
        (K x.2 = true -> r1 = Ok () -> events_of x.2 eid cbs = if A x.2 then events_of x.2 eid (callbacks_of mo (ep_mopen e)) else []) /\
        (forall k, K k = true -> flags <$> w_strats w1 !! k = if decide (k = x.2) then (if A k then Some (None, false) else flags <$> w_strats w !! k) else flags <$> w_strats w !! k)) as [cbs Hx].
      { destruct (takes_part s (tk_dt (ep_last e))) eqn:Et.
        - pose proof (execute_active pr eid mo w x s e Hs He Et) as Hx. destruct (execute_strategy pr eid mo w x) as [w1 r1].
          destruct Hx as (X1 & X2 & (cbs & X3 & X4 & X5) & X6). exists cbs. split; [auto|]. split; [auto|]. split; [auto|]. split; [|split].
          + intros Hk. rewrite <- (HA _ _ Hk Hs), Et. now apply events_prefix.
          + intros Hk Hr. rewrite <- (HA _ _ Hk Hs), Et. now rewrite X5.
          + intros k Hk. rewrite X6 by (eapply programs_spares; eauto). destruct (decide (k = x.2)) as [->|]; [|auto]. now rewrite <- (HA _ _ Hk Hs), Et.
        - rewrite (execute_inactive _ _ _ _ _ _ _ Hs He Et). exists []. simpl. rewrite app_nil_r. split; [auto|]. split; [auto|]. split; [auto|]. split; [|split].
          + intros Hk. apply prefix_nil.
          + intros Hk _. now rewrite <- (HA _ _ Hk Hs), Et.
          + intros k Hk. destruct (decide (k = x.2)) as [->|]; [|auto]. now rewrite <- (HA _ _ Hk Hs), Et. }
      assert (kept K (events_of x.2 eid cbs) = if K x.2 then events_of x.2 eid cbs else []) as Ek by apply kept_events.
      set (head := if K x.2 && A x.2 then events_of x.2 eid (callbacks_of mo (ep_mopen e)) else []).
      assert (expected K A eid (callbacks_of mo (ep_mopen e)) (x :: l) = head ++ expected K A eid (callbacks_of mo (ep_mopen e)) l) as Ex by reflexivity.
      destruct (execute_strategy pr eid mo w x) as [w1 [[]|er]].
      + destruct Hx as (X1 & X2 & X3 & _ & X5 & X6).
        assert (w_epics w1 !! eid = Some e) as He1 by now rewrite X1.
        assert (forall sid s, K sid = true -> w_strats w1 !! sid = Some s -> takes_part s (tk_dt (ep_last e)) = A sid) as HA1.
        { intros k s1 Hk Hs1. specialize (X6 k Hk). rewrite Hs1 in X6. simpl in X6. destruct (decide (k = x.2)) as [->|Hne].
          - destruct (A x.2) eqn:EA.
            + injection X6 as E1 E2. unfold takes_part. now rewrite E1, E2.
            + rewrite Hs in X6. simpl in X6. injection X6 as E1 E2. rewrite <- EA, <- (HA _ _ Hk Hs). unfold takes_part. now rewrite E1, E2.
          - destruct (w_strats w !! k) as [s2|] eqn:Hs2; [|discriminate]. simpl in X6. injection X6 as E1 E2. rewrite <- (HA _ _ Hk Hs2). unfold takes_part. now rewrite E1, E2. }
        specialize (IH w1 He1 HA1). destruct (forM (execute_strategy pr eid mo) w1 l) as [w' r]. destruct IH as (I1 & I2 & (evs & I3 & I4 & I5) & I6).
        assert (kept K (events_of x.2 eid cbs) = head) as Eh.
        { rewrite Ek. unfold head. destruct (K x.2) eqn:EK; [|auto]. rewrite X5 by auto. simpl. now destruct (A x.2). }
        split; [congruence|]. split; [congruence|]. split.
        * exists (events_of x.2 eid cbs ++ evs). rewrite I3, X3, app_assoc. split; [auto|]. rewrite kept_app, Ex, Eh. split; [now apply prefix_app|]. intros Hr. now rewrite I5.
        * intros k Hk. destruct (I6 k Hk) as [J1 J2]. specialize (X6 k Hk). split.
          -- destruct J1 as [J1|J1]; [|auto]. rewrite J1, X6. destruct (decide (k = x.2)) as [->|]; [|auto]. destruct (A x.2); auto.
          -- intros Hr Hak Hin. simpl in Hin. apply elem_of_cons in Hin as [Hin|Hin]; [|now apply J2].
             destruct J1 as [J1|[_ J1]]; [|auto]. rewrite J1, X6, decide_True by auto. now rewrite Hak.
      + destruct Hx as (X1 & X2 & X3 & X4 & _ & X6). split; [auto|]. split; [auto|]. split.
        * exists (events_of x.2 eid cbs). split; [auto|]. split; [|discriminate]. rewrite Ek, Ex. apply prefix_of_trans_app. unfold head. destruct (K x.2) eqn:EK; [|apply prefix_nil]. simpl. now apply X4.
        * intros k Hk. split; [|discriminate]. specialize (X6 k Hk). destruct (decide (k = x.2)) as [->|]; [|auto]. destruct (A x.2); auto.
  Qed.

  (** ** A whole tick *)
  Lemma fsets_rest tk l w : w_strats (fst (forM (update_frame_set tk) w l)) = w_strats w /\ w_epics (fst (forM (update_frame_set tk) w l)) = w_epics w /\
    w_log (fst (forM (update_frame_set tk) w l)) = w_log w.
  Proof.
    apply (forM_inv (fun w1 => w_strats w1 = w_strats w /\ w_epics w1 = w_epics w /\ w_log w1 = w_log w)); [|auto]. intros w1 x _ (H1 & H2 & H3). rewrite <- H1, <- H2, <- H3.
    unfold update_frame_set. destruct (w_fsets w1 !! x.2) as [fs|]; [|auto]. destruct (fs_epic_state w1 fs) as [mo lst]. now destruct (fs_on_new_tick _ _ _ _ _).
  Qed.
  Lemma value_rest w pid tk : w_strats (update_open_trades w pid tk) = w_strats w /\ w_epics (update_open_trades w pid tk) = w_epics w /\
    w_log (update_open_trades w pid tk) = w_log w /\ w_fsets (update_open_trades w pid tk) = w_fsets w.
  Proof. unfold update_open_trades. now destruct (w_provs w !! pid). Qed.

  Definition accepted_epic e tk0 : epic F := ep_set_last e (tick_to (ep_tz e) tk0) (is_market_open e (tick_to (ep_tz e) tk0)).
  Lemma tick_events K A pr w eid e tk0 : programs_ok (spares_all K) pr -> w_epics w !! eid = Some e -> ~ refused e tk0 ->
    (forall sid s, K sid = true -> w_strats w !! sid = Some s -> takes_part s (arrow_to (ep_tz e) (tk_dt tk0)) = A sid) ->
    let '(w', r) := epic_on_new_tick pr w eid tk0 in let e' := accepted_epic e tk0 in
    w_epics w' = <[eid := e']> (w_epics w) /\
    (exists evs, w_log w' = w_log w ++ evs /\ kept K evs `prefix_of` expected K A eid (callbacks_of (ep_mopen e) (ep_mopen e')) (ep_strats e) /\
      (r = Ok () -> kept K evs = expected K A eid (callbacks_of (ep_mopen e) (ep_mopen e')) (ep_strats e))) /\
    (forall k, K k = true -> (flags <$> w_strats w' !! k = flags <$> w_strats w !! k \/ (A k = true /\ flags <$> w_strats w' !! k = Some (None, false))) /\
       (r = Ok () -> A k = true -> k ∈ map snd (ep_strats e) -> flags <$> w_strats w' !! k = Some (None, false))).
  Proof.
    intros Hp He Hn HA. unfold epic_on_new_tick. rewrite He. cbv zeta. destruct (arrow_ltb _ _) eqn:Ea; [now elim Hn|]. change (ep_set_last e (tick_to (ep_tz e) tk0) (is_market_open e (tick_to (ep_tz e) tk0))) with (accepted_epic e tk0).
    set (w1 := upd_epics w _). destruct (fsets_rest (tick_to (ep_tz e) tk0) (ep_fsets (accepted_epic e tk0)) w1) as (S1 & S2 & S3).
    destruct (forM (update_frame_set _) w1 _) as [w2 [u|er]]; cbn [fst] in *; cbn [andthen].
    - destruct (value_rest w2 (ep_prov (accepted_epic e tk0)) (tick_to (ep_tz e) tk0)) as (V1 & V2 & V3 & _). set (w3 := update_open_trades w2 _ _) in *.
      pose proof (execute_all K A pr eid (ep_mopen e) (accepted_epic e tk0) (ep_strats (accepted_epic e tk0)) w3 Hp) as Hx.
      assert (w_epics w3 !! eid = Some (accepted_epic e tk0)) as He3.
      { rewrite V2, S2. subst w1. simpl. apply list_lookup_insert. eapply lookup_lt_Some; eauto. }
      assert (w_strats w3 = w_strats w) as Es by now rewrite V1, S1.
      specialize (Hx He3). rewrite Es in Hx. specialize (Hx HA). destruct (forM (execute_strategy _ _ _) w3 _) as [w' r]. destruct Hx as (X1 & X2 & X3 & X4).
      split; [rewrite X1, V2, S2; reflexivity|]. assert (w_log w3 = w_log w) as El by (rewrite V3, S3; reflexivity). rewrite <- El. split; [exact X3|]. exact X4.
    - split; [exact S2|]. split; [exists []; rewrite app_nil_r; split; [exact S3|]; split; [apply prefix_nil|discriminate]|]. intros k Hk. split; [|discriminate]. left. now rewrite S1.
  Qed.
End proofs.
