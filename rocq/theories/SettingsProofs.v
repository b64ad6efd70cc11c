(** C73: attributes of epics assigned in the course of the run. *)
From Verif Require Export SpecSettings HistoryProofs QuantityProofs.
Open Scope Z_scope.

Section proofs.
  Context {F : Type} `{Num F}.
  Implicit Types (w v : world F) (e : epic F).

  (** ** World.v is the case without assignments *)
  Lemma gembed_script w (s : script F) : run_gscript w (gembed s) = run_script w s.
  Proof. revert w. induction s as [|x|c k IH]; intros w; try reflexivity. cbn. destruct (run_cmd w c) as [w' r]. apply IH. Qed.
  Lemma forM_ext {A} (f g : world F -> A -> world F * res unit) l w : (forall w x, f w x = g w x) -> forM f w l = forM g w l.
  Proof. intros E. revert w. induction l as [|x l IH]; intros w; [auto|]. cbn. rewrite E. destruct (g w x) as [w' [u|y]]; auto. Qed.
  Lemma gembed_exec pr eid mo w x : gexecute (gembed_programs pr) eid mo w x = execute_strategy pr eid mo w x.
  Proof.
    assert (forall cb w, run_gcallback (gembed_programs pr) x.2 cb eid w = run_callback pr x.2 cb eid w) as Hc by (intros cb w'; apply gembed_script).
    unfold gexecute, execute_strategy. destruct (w_strats w !! x.2) as [s|]; [|auto]. destruct (w_epics w !! eid) as [e|]; [|auto].
    destruct (is_active _ _) as [s' [|]]; [|auto]. cbv zeta. rewrite !Hc. apply andthen_ext. intros u _. rewrite Hc. apply andthen_ext. intros u' _. apply Hc.
  Qed.
  Lemma gembed_tick pr w eid tk : gtick (gembed_programs pr) w eid tk = epic_on_new_tick pr w eid tk.
  Proof.
    unfold gtick, epic_on_new_tick. destruct (w_epics w !! eid) as [e|]; [|auto]. cbv zeta. destruct (arrow_ltb _ _); [auto|].
    apply andthen_ext. intros u _. apply forM_ext. intros. apply gembed_exec.
  Qed.
  Lemma gembed_step pr w o : gstep (gembed_programs pr) w (GOp o) = step pr w o.
  Proof. destruct o; try reflexivity. apply gembed_tick. Qed.
  Lemma gembed_run pr l w : grun (gembed_programs pr) w (map GOp l) = run pr w l.
  Proof. revert w. induction l as [|o l IH]; intros w; [auto|]. unfold grun, run in *. cbn [fold_left map]. rewrite gembed_step. apply IH. Qed.

  (** ** A property kept by every elementary step *)
  Section invariant.
    Context (P : gcall F -> Prop) (J : world F -> Prop).
    Context (J_call : forall w c, J w -> P c -> J (fst (run_gcall w c))).
    Context (J_accept : forall w eid e tk, J w -> w_epics w !! eid = Some e ->
        arrow_ltb (tk_dt (tick_to (ep_tz e) tk)) (tk_dt (ep_last e)) = false ->
        J (upd_epics w (<[eid := ep_set_last e (tick_to (ep_tz e) tk) (is_market_open e (tick_to (ep_tz e) tk))]> (w_epics w)))).
    Context (J_fset : forall w eid e x, J w -> w_epics w !! eid = Some e -> x ∈ ep_fsets e -> J (fst (update_frame_set (ep_last e) w x))).
    Context (J_value : forall w eid e, J w -> w_epics w !! eid = Some e -> J (update_open_trades w (ep_prov e) (ep_last e))).
    Context (J_active : forall w sid s d, J w -> w_strats w !! sid = Some s -> J (upd_strats w (<[sid := fst (is_active s d)]> (w_strats w)))).
    Context (J_log : forall w l, J w -> J (upd_log w l)).
    Fixpoint script_all (s : gscript F) : Prop := match s with GDone | GRaise _ => True | GCall c k => P c /\ forall w r, script_all (k w r) end.
    Context (pr : gprograms F) (pr_ok : forall sid cb eid w, script_all (pr sid cb eid w)).
    Lemma gscript_inv s w : script_all s -> J w -> J (fst (run_gscript w s)).
    Proof.
      revert w. induction s as [|x|c k IH]; intros w Hs Hw; cbn; auto. destruct Hs as [Hc Hk].
      pose proof (J_call w c Hw Hc) as H1. destruct (run_gcall w c) as [w' r]. apply IH; auto.
    Qed.
    Lemma gcallback_inv sid cb eid w : J w -> J (fst (run_gcallback pr sid cb eid w)).
    Proof. intros Hw. apply gscript_inv; [apply pr_ok|]. now apply J_log. Qed.
    Lemma gexecute_inv eid mo w x : J w -> J (fst (gexecute pr eid mo w x)).
    Proof.
      intros Hw. unfold gexecute. destruct (w_strats w !! x.2) as [s|] eqn:Es; [|auto]. destruct (w_epics w !! eid) as [e|] eqn:Ee; [|auto].
      pose proof (J_active w x.2 s (tk_dt (ep_last e)) Hw Es) as H1. destruct (is_active s (tk_dt (ep_last e))) as [s' act].
      cbn in H1. destruct act; [|exact H1].
      apply andthen_inv; [|intros w2 H2; apply andthen_inv; [|intros w3 H3; now apply gcallback_inv]].
      - destruct (eqb mo (ep_mopen e)); [exact H1|]. destruct mo; now apply gcallback_inv.
      - destruct (ep_mopen e); [now apply gcallback_inv|exact H2].
    Qed.
    Lemma gtick_inv w eid tk : J w -> J (fst (gtick pr w eid tk)).
    Proof.
      intros Hw. unfold gtick. destruct (w_epics w !! eid) as [e|] eqn:Ee; [|auto]. cbv zeta.
      destruct (arrow_ltb _ _) eqn:Ea; [auto|]. set (e' := ep_set_last e _ _). set (tk' := tick_to _ _).
      apply (andthen_inv' (fun w1 => J w1 /\ w_epics w1 !! eid = Some e')).
      - apply (forM_inv (fun w1 => J w1 /\ w_epics w1 !! eid = Some e')).
        + intros w1 x Hx [H1 H2]. rewrite update_fset_epics. split; [|auto]. now apply (J_fset w1 eid e' x).
        + split; [now apply J_accept|]. cbn. apply list_lookup_insert. eapply lookup_lt_Some; eauto.
      - intros w1 [H1 H2]. apply forM_inv; [|now apply (J_value w1 eid e')]. intros w2 x _ H3. now apply gexecute_inv.
      - now intros w1 [H1 _].
    Qed.
  End invariant.

  (** ** Trading does not depend on opening hours, market state or frame sets *)
  Definition dress w (es : list (epic F)) (fs : list (fset F)) : world F := upd_fsets (upd_epics w es) fs.
  Lemma alike_refl e : alike e e. Proof. repeat split. Qed.
  Lemma alike_lookup (l es : list (epic F)) i : Forall2 alike l es ->
    match l !! i, es !! i with Some e, Some e' => alike e e' | None, None => True | _, _ => False end.
  Proof. intros Hf. revert i. induction Hf as [|e e' l es H1 H2 IH]; intros [|i]; cbn; auto. apply IH. Qed.
  Section dressing.
    Context (es : list (epic F)) (fs : list (fset F)).
    Notation D w := (dress w es fs).
    Notation A w := (Forall2 alike (w_epics w) es).
    Lemma dress_close w tid q ref : A w ->
      close_from_epic (D w) tid q ref = match close_from_epic w tid q ref with Ok (w', i) => Ok (D w', i) | Err x => Err x end.
    Proof.
      intros HA. unfold close_from_epic. cbn [dress upd_fsets upd_epics w_trades w_epics]. destruct (w_trades w !! tid) as [t|]; [|auto].
      pose proof (alike_lookup _ _ (tr_epic t) HA) as Hl. destruct (w_epics w !! tr_epic t) as [e|], (es !! tr_epic t) as [e'|]; try easy.
      destruct Hl as (_ & _ & _ & -> & _). destruct (close_from_tick t (ep_last e) q ref) as [tc|x]; reflexivity.
    Qed.
    Lemma close_epics w tid q ref w' i : close_from_epic w tid q ref = Ok (w', i) -> w_epics w' = w_epics w.
    Proof.
      unfold close_from_epic. destruct (w_trades w !! tid) as [t|]; [|discriminate]. destruct (w_epics w !! tr_epic t) as [e|]; [|discriminate].
      destruct (close_from_tick t (ep_last e) q ref) as [tc|x]; [|discriminate]. cbn. now intros [= <- _].
    Qed.
    Definition Dr {B} (x : world F * res B) : world F * res B := (D (fst x), snd x).
    Lemma dress_net pid tid ref w oid : A w -> net_step pid tid ref (D w) oid = Dr (net_step pid tid ref w oid) /\ A (fst (net_step pid tid ref w oid)).
    Proof.
      intros HA. unfold net_step. cbn [dress upd_fsets upd_epics w_trades]. destruct (w_trades w !! tid) as [t|]; [|auto]. destruct (w_trades w !! oid) as [o|]; [|auto].
      destruct (dir_eqb _ _); [|auto]. destruct (bool_decide _); [|auto]. fold (D w). rewrite dress_close by auto.
      destruct (close_from_epic w oid _ ref) as [[w1 ci]|x] eqn:E; [|auto]. split; [reflexivity|]. cbn. now rewrite (close_epics _ _ _ _ _ _ E).
    Qed.
    Lemma dress_forM {B} (f : world F -> B -> world F * res unit) l :
      (forall w x, A w -> f (D w) x = Dr (f w x) /\ A (fst (f w x))) -> forall w, A w -> forM f (D w) l = Dr (forM f w l) /\ A (fst (forM f w l)).
    Proof.
      intros Hf. induction l as [|x l IH]; intros w HA; [auto|]. cbn. destruct (Hf w x HA) as [E HA'].
      rewrite E. destruct (f w x) as [w' [u|y]]; cbn in *; auto.
    Qed.
    Lemma dress_base w pid tid : base_open_trade (D w) pid tid = D (base_open_trade w pid tid).
    Proof. unfold base_open_trade. cbn [dress upd_fsets upd_epics w_trades]. destruct (w_trades w !! tid) as [t|]; [|auto]. destruct (tr_strat t); reflexivity. Qed.
    Lemma dress_popen w pid tid ref : A w -> provider_open_trade (D w) pid tid ref = Dr (provider_open_trade w pid tid ref).
    Proof.
      intros HA. unfold provider_open_trade, backtest_open_trade. cbn [dress upd_fsets upd_epics w_provs]. fold (D w).
      destruct (w_provs w !! pid) as [p|]; [|auto]. rewrite dress_base.
      destruct (pv_kind p); try reflexivity.
      change (opened_trades (D w) p) with (opened_trades w p).
      destruct (dress_forM (net_step pid tid ref) (opened_trades w p) ltac:(intros; now apply dress_net) w HA) as [E _]. rewrite E.
      destruct (forM _ w _) as [w1 [u|x]]; cbn; [|auto]. destruct (w_trades w1 !! tid) as [t|]; [|auto]. destruct (tr_oq t <=? 0); [auto|]. fold (D w1). now rewrite dress_base.
    Qed.
    Lemma dress_eclose w eid tid q ref : A w -> epic_close_trade (D w) eid tid q ref = Dr (epic_close_trade w eid tid q ref).
    Proof.
      intros HA. unfold epic_close_trade. rewrite dress_close by auto. cbn [dress upd_fsets upd_epics w_epics].
      pose proof (alike_lookup _ _ eid HA) as Hl. destruct (w_epics w !! eid) as [e|], (es !! eid) as [e'|]; try easy.
      destruct Hl as (_ & _ & -> & _). destruct (close_from_epic w tid q ref) as [[w1 ci]|x]; reflexivity.
    Qed.
    Lemma dress_cmd w c : A w -> run_cmd (D w) c = Dr (run_cmd w c).
    Proof.
      intros HA. destruct c as [eid d q so ref|tid q ref|eid tid q ref|sid q ref|tid x|tid|tid x d q ref|tid q ref|sid p|sid b|pid k]; cbn [run_cmd].
      - unfold epic_open_trade. cbn [dress upd_fsets upd_epics w_epics w_strats w_trades].
        pose proof (alike_lookup _ _ eid HA) as Hl. destruct (w_epics w !! eid) as [e|], (es !! eid) as [e'|]; try easy.
        destruct Hl as (_ & _ & -> & -> & _). destruct (valid_id _ _); [|auto]. destruct (open_from_tick _ _ _ _ _ _) as [t|x]; [|auto].
        match goal with |- context [match provider_open_trade ?x _ _ _ with _ => _ end] => change x with (D (upd_trades w (w_trades w ++ [t]))) end.
        rewrite dress_popen by exact HA. destruct (provider_open_trade _ _ _ _) as [w1 [u|x]]; reflexivity.
      - unfold strategy_close_trade. cbn [dress upd_fsets upd_epics w_trades]. destruct (w_trades w !! tid) as [t|]; [|auto]. now apply dress_eclose.
      - now apply dress_eclose.
      - unfold close_opened_trades. cbn [dress upd_fsets upd_epics w_strats]. destruct (w_strats w !! sid) as [s|]; [|auto].
        apply dress_forM; [|auto]. intros w1 i H1. unfold close_opened_step. change (trade_open_b (D w1) i) with (trade_open_b w1 i).
        destruct (trade_open_b w1 i); [|auto]. unfold strategy_close_trade. cbn [dress upd_fsets upd_epics w_trades]. destruct (w_trades w1 !! i) as [t|]; [|auto].
        split; [now apply dress_eclose|]. unfold epic_close_trade. destruct (w_epics w1 !! tr_epic t); [|auto].
        destruct (close_from_epic w1 i q ref) as [[w2 ci]|x] eqn:E; [|auto]. cbn. now rewrite (close_epics _ _ _ _ _ _ E).
      - reflexivity.
      - cbn [dress upd_fsets upd_epics w_trades w_epics]. destruct (w_trades w !! tid) as [t|]; [|auto].
        pose proof (alike_lookup _ _ (tr_epic t) HA) as Hl. destruct (w_epics w !! tr_epic t) as [e|], (es !! tr_epic t) as [e'|]; try easy.
        now destruct Hl as (_ & _ & _ & -> & _).
      - cbn [dress upd_fsets upd_epics w_trades]. destruct (w_trades w !! tid) as [t|]; [|auto]. destruct (close t x d q ref) as [[t' ?]|y]; reflexivity.
      - rewrite dress_close by auto. destruct (close_from_epic w tid q ref) as [[w1 ci]|x]; reflexivity.
      - reflexivity.
      - reflexivity.
      - unfold run_thread. cbn [dress upd_fsets upd_epics w_provs]. destruct (w_provs w !! pid) as [p|]; [|auto]. destruct (pv_threads p !! k) as [th|]; [|auto]. destruct (th_done th); reflexivity.
    Qed.
    Lemma dress_value w pid tk : update_open_trades (D w) pid tk = D (update_open_trades w pid tk).
    Proof. unfold update_open_trades. cbn [dress upd_fsets upd_epics w_provs]. destruct (w_provs w !! pid); reflexivity. Qed.
  End dressing.

  (** ** Runs with calendar assignments have the books of runs without *)
  Definition shadow (P : cmd F -> Prop) w : Prop :=
    exists es fs, reach P (dress w es fs) /\ Forall2 alike (w_epics w) es /\ Forall2 (fun f f' => fs_ref f' = fs_ref f) (w_fsets w) fs.
  Lemma alike_insert (l es : list (epic F)) i e e' : Forall2 alike l es -> alike e e' -> Forall2 alike (<[i := e]> l) (<[i := e']> es).
  Proof. intros. now apply Forall2_insert. Qed.
  Lemma shadow_cmd P w c : shadow P w -> P c -> shadow P (fst (run_cmd w c)).
  Proof.
    intros (es & fs & Hr & Ha & Hf) Hc. exists es, fs. pose proof (reach_call _ _ _ Hr Hc) as H1. rewrite dress_cmd in H1 by auto. cbn in H1.
    pose proof (cmd_rest w c) as E. unfold rest in E. injection E as E1 E2 E3. now rewrite E1, E2.
  Qed.
  Lemma shadow_assign P w eid s : shadow P w -> calendar s -> shadow P (fst (assign w eid s)).
  Proof.
    intros (es & fs & Hr & Ha & Hf) Hs. unfold assign. destruct (w_epics w !! eid) as [e|] eqn:Ee; [|now exists es, fs].
    destruct (match s with SProvider p => _ | _ => _ end); [|now exists es, fs].
    destruct (assign_epic e s) as [e'|x] eqn:Es; [|now exists es, fs]. exists es, fs. split; [exact Hr|]. split; [|exact Hf]. cbn.
    pose proof (alike_lookup _ _ eid Ha) as Hl. rewrite Ee in Hl. destruct (es !! eid) as [x|] eqn:Ex; [|easy].
    rewrite <- (list_insert_id es eid x Ex). apply alike_insert; [exact Ha|].
    destruct s as [?|?|?|?|?|?]; try easy; injection Es as <-; exact Hl.
  Qed.

  Lemma shadow_accept P w eid e tk : shadow P w -> w_epics w !! eid = Some e ->
    arrow_ltb (tk_dt (tick_to (ep_tz e) tk)) (tk_dt (ep_last e)) = false ->
    shadow P (upd_epics w (<[eid := ep_set_last e (tick_to (ep_tz e) tk) (is_market_open e (tick_to (ep_tz e) tk))]> (w_epics w))).
  Proof.
    intros (es & fs & Hr & Ha & Hf) Ee Ht. pose proof (alike_lookup _ _ eid Ha) as Hl. rewrite Ee in Hl. destruct (es !! eid) as [x|] eqn:Ex; [|easy].
    destruct Hl as (L1 & L2 & L3 & L4 & L5 & L6). rewrite <- L2, <- L4 in Ht.
    pose proof (reach_accept P _ eid x tk Hr Ex Ht) as H1. eexists _, fs. split; [exact H1|]. split; [|exact Hf]. cbn.
    apply alike_insert; [exact Ha|]. repeat split; cbn; congruence.
  Qed.
  Lemma shadow_fset P w tk x : shadow P w -> shadow P (fst (update_frame_set tk w x)).
  Proof.
    intros (es & fs & Hr & Ha & Hf). exists es, fs. unfold update_frame_set. destruct (w_fsets w !! x.2) as [f|] eqn:Ef; [|easy].
    destruct (fs_epic_state w f) as [mo la]. pose proof (fs_tick_conf (gap_fuel f tk) f tk mo la) as Hc. destruct (fs_on_new_tick _ _ _ _ _) as [f' r].
    split; [exact Hr|]. split; [exact Ha|]. cbn. destruct (Forall2_lookup_l _ _ _ _ _ Hf Ef) as (g & Eg & Hg).
    rewrite <- (list_insert_id fs x.2 g Eg). apply Forall2_insert; [exact Hf|]. unfold same_conf in Hc. cbn in Hc. intuition congruence.
  Qed.
  Lemma shadow_value P w eid e : shadow P w -> w_epics w !! eid = Some e -> shadow P (update_open_trades w (ep_prov e) (ep_last e)).
  Proof.
    intros (es & fs & Hr & Ha & Hf) Ee. pose proof (alike_lookup _ _ eid Ha) as Hl. rewrite Ee in Hl. destruct (es !! eid) as [x|] eqn:Ex; [|easy].
    destruct Hl as (L1 & L2 & L3 & L4 & L5 & L6). pose proof (reach_value P _ eid x Hr Ex) as H1. rewrite L3, L4, dress_value in H1.
    exists es, fs. split; [exact H1|]. unfold update_open_trades. now destruct (w_provs w !! ep_prov e).
  Qed.
  Lemma shadow_active P w sid s d : shadow P w -> w_strats w !! sid = Some s -> shadow P (upd_strats w (<[sid := fst (is_active s d)]> (w_strats w))).
  Proof. intros (es & fs & Hr & Ha & Hf) Es. exists es, fs. split; [exact (reach_active P _ sid s d Hr Es)|]. auto. Qed.
  Lemma shadow_log P w l : shadow P w -> shadow P (upd_log w l).
  Proof. intros (es & fs & Hr & Ha & Hf). exists es, fs. split; [exact (reach_log P _ l Hr)|]. auto. Qed.
  Lemma shadow_setup P pr w o : shadow P w -> setup o -> shadow P (fst (step pr w o)).
  Proof.
    intros (es & fs & Hr & Ha & Hf) Ho. pose proof (fun o' Hs' => reach_setup P pr _ o' Hr Hs') as H1.
    destruct o as [k|ref|u q ref m|ref z op cl ds hs p|eid fid|eid sid|fid i|eid tk|c]; try easy; cbn [step].
    - exists es, fs. split; [exact (H1 (ONewProvider k) I)|]. auto.
    - exists es, fs. split; [exact (H1 (ONewStrategy ref) I)|]. auto.
    - specialize (H1 (ONewFrameSet u q ref m) I). cbn [step] in H1. destruct (fset_init u q ref m) as [f|x]; [|now exists es, fs].
      exists es, (fs ++ [f]). split; [exact H1|]. split; [exact Ha|]. cbn. apply Forall2_app; [exact Hf|]. now repeat constructor.
    - specialize (H1 (ONewEpic ref z op cl ds hs p) I). cbn [step] in H1. unfold new_epic in *. destruct z as [z|]; [|now exists es, fs].
      cbn [dress upd_fsets upd_epics w_provs] in H1. destruct (valid_id (w_provs w) p); [|now exists es, fs].
      destruct p as [p|]; (eexists (es ++ _), fs; split; [exact H1|]; split; [|exact Hf]; cbn; apply Forall2_app; [exact Ha|]; repeat constructor).
    - specialize (H1 (OAddFrameSet eid fid) I). cbn [step] in H1. unfold add_frame_set in *. cbn [dress upd_fsets upd_epics w_epics w_fsets] in H1.
      pose proof (alike_lookup _ _ eid Ha) as Hl. destruct (w_epics w !! eid) as [e|] eqn:Ee; [|now exists es, fs]. destruct (es !! eid) as [x|] eqn:Ex; [|easy].
      destruct (w_fsets w !! fid) as [f|] eqn:Ef; [|now exists es, fs]. destruct (Forall2_lookup_l _ _ _ _ _ Hf Ef) as (g & Eg & Hg). rewrite Eg, Hg in H1.
      destruct Hl as (L1 & L2 & L3 & L4 & L5 & L6). rewrite L5 in H1. destruct (dict_get (ep_fsets e) (fs_ref f)); [now exists es, fs|].
      eexists _, _. split; [exact H1|]. split; cbn.
      + apply alike_insert; [exact Ha|]. now repeat split.
      + now apply Forall2_insert.
    - specialize (H1 (OAddStrategy eid sid) I). cbn [step] in H1. unfold add_strategy in *. cbn [dress upd_fsets upd_epics w_epics w_strats] in H1.
      pose proof (alike_lookup _ _ eid Ha) as Hl. destruct (w_epics w !! eid) as [e|] eqn:Ee; [|now exists es, fs]. destruct (es !! eid) as [x|] eqn:Ex; [|easy].
      destruct (w_strats w !! sid) as [s|] eqn:Es; [|now exists es, fs]. destruct Hl as (L1 & L2 & L3 & L4 & L5 & L6). rewrite L6 in H1.
      destruct (dict_get (ep_strats e) (st_ref s)); [now exists es, fs|]. rewrite L1 in H1.
      eexists _, _. split; [exact H1|]. split; cbn; [|exact Hf]. apply alike_insert; [exact Ha|]. now repeat split.
    - exists es, fs. destruct (w_fsets w !! fid) as [f|] eqn:Ef; [|easy]. assert (fs_ref (fst (add_indicator f i)) = fs_ref f) as Er by (unfold add_indicator; now destruct (in_kind i)). destruct (add_indicator f i) as [f' r]. cbn in *.
      split; [exact Hr|]. split; [exact Ha|]. destruct (Forall2_lookup_l _ _ _ _ _ Hf Ef) as (g & Eg & Hg).
      rewrite <- (list_insert_id fs fid g Eg). apply Forall2_insert; [exact Hf|]. congruence.
  Qed.
  Lemma shadow_step P pr w o : gprograms_ok P pr -> gop_ok P o -> shadow P w -> shadow P (fst (gstep pr w o)).
  Proof.
    intros Hp Ho Hw. destruct o as [o|eid s]; [|now apply shadow_assign].
    destruct o as [k|ref|u q ref m|ref z op cl ds hs p|eid fid|eid sid|fid i|eid tk|c]; cbn [gstep]; try (apply shadow_setup; [exact Hw|exact I]).
    - apply (gtick_inv (gcall_ok P)); auto.
      + intros w1 [c|e1 s1] H1 H2; [now apply shadow_cmd|now apply shadow_assign].
      + intros; apply shadow_accept; auto.
      + intros; now apply shadow_fset.
      + intros; eapply shadow_value; eauto.
      + intros; now apply shadow_active.
      + intros; now apply shadow_log.
      + assert (forall s, gscript_ok P s -> script_all (gcall_ok P) s) as Hs; [|intros; apply Hs, Hp]. clear. intros s. induction s as [|x|c k IH]; intros Hs; cbn in *; auto.
        destruct Hs as [Hc Hk]. auto.
    - now apply shadow_cmd.
  Qed.
  Lemma shadow_run P pr l w : gprograms_ok P pr -> Forall (gop_ok P) l -> shadow P w -> shadow P (grun pr w l).
  Proof.
    intros Hp Hl. revert w. induction Hl as [|o l Ho Hl IH]; intros w Hw; [auto|]. unfold grun. cbn [fold_left]. apply IH. now apply shadow_step.
  Qed.
  Lemma shadow_books P w : shadow P w -> exists v, reach P v /\ same_books w v.
  Proof.
    intros (es & fs & Hr & Ha & Hf). exists (dress w es fs). split; [exact Hr|]. repeat (split; [reflexivity|]). cbn.
    clear -Ha. induction Ha as [|e e' l l' (L1 & L2 & L3 & L4 & L5 & L6) H2 IH]; constructor; auto. now repeat split.
  Qed.
  Lemma settings_books P pr l : gprograms_ok P pr -> Forall (gop_ok P) l -> exists v, reach P v /\ same_books (grun pr empty_world l) v.
  Proof.
    intros Hp Hl. apply shadow_books, shadow_run; auto. exists [], []. split; [apply reach_empty|]. split; constructor.
  Qed.

  Lemma settings_one_dir (pr : gprograms F) l : gprograms_ok sane_call pr -> Forall (gop_ok sane_call) l ->
    let w := grun pr empty_world l in
    forall pid p i j ti tj, w_provs w !! pid = Some p -> pv_kind p = PBacktests -> i ∈ pv_trades p -> j ∈ pv_trades p ->
    w_trades w !! i = Some ti -> w_trades w !! j = Some tj -> tr_strat ti = tr_strat tj ->
    opened_quantities ti <> 0 -> opened_quantities tj <> 0 -> tr_dir ti = tr_dir tj.
  Proof. intros Hp Hl w. destruct (settings_books _ pr l Hp Hl) as (v & Hv & E1 & E2 & _). fold w in E1, E2. rewrite E1, E2. exact (reach_one_dir v Hv). Qed.

  (** ** The books are only ever added to, whatever is assigned *)
  Lemma remembered_books w w1 w2 : books_remembered w w1 -> remembered w1 w2 -> books_remembered w w2.
  Proof.
    intros (A1 & A2 & A3) Hr. unfold remembered in Hr. destruct Hr as (B1 & B2 & B3 & _). split; [|split].
    - eapply (kept_trans _ trade_kept_trans); eauto.
    - eapply (kept_trans _ provider_kept_trans); eauto.
    - eapply (kept_trans _ strategy_kept_trans); eauto.
  Qed.
  Lemma assign_same w eid s : w_trades (fst (assign w eid s)) = w_trades w /\ w_provs (fst (assign w eid s)) = w_provs w /\ w_strats (fst (assign w eid s)) = w_strats w.
  Proof. unfold assign. destruct (w_epics w !! eid) as [e|]; [|auto]. destruct (match s with SProvider p => _ | _ => _ end); [|auto]. destruct (assign_epic e s); auto. Qed.
  Lemma assign_books w w1 eid s : books_remembered w w1 -> books_remembered w (fst (assign w1 eid s)).
  Proof. unfold books_remembered. destruct (assign_same w1 eid s) as (-> & -> & ->). auto. Qed.
  Lemma any_gscript s : script_all (fun _ : gcall F => True) s.
  Proof. induction s as [|x|c k IH]; cbn; auto. Qed.
  Lemma gstep_books pr w w1 o : books_remembered w w1 -> books_remembered w (fst (gstep pr w1 o)).
  Proof.
    intros Hw. destruct o as [o|eid s]; [|now apply assign_books].
    destruct o as [k|ref|u q ref m|ref z op cl ds hs p|eid fid|eid sid|fid i|eid tk|c]; cbn [gstep]; try (eapply remembered_books; [exact Hw|now apply setup_kept]).
    - apply (gtick_inv (fun _ => True)); auto using any_gscript.
      + intros w2 [c|e1 s1] H1 _; [|now apply assign_books]. eapply remembered_books; [exact H1|apply cmd_kept].
      + intros w2 e1 e2 x H1 _ _. eapply remembered_books; [exact H1|apply fset_tick_kept].
      + intros w2 e1 e2 H1 _. eapply remembered_books; [exact H1|apply value_kept].
      + intros w2 sid s d H1 Hs. eapply remembered_books; [exact H1|now apply active_kept].
    - eapply remembered_books; [exact Hw|apply cmd_kept].
  Qed.
  Lemma grun_books pr l w : books_remembered w (grun pr w l).
  Proof.
    assert (forall w1, books_remembered w w1 -> books_remembered w (grun pr w1 l)) as Hg.
    { induction l as [|o l IH]; intros w1 H1; [auto|]. unfold grun. cbn [fold_left]. apply IH. now apply gstep_books. }
    apply Hg. repeat split; apply kept_refl; auto using trade_kept_refl, provider_kept_refl, strategy_kept_refl.
  Qed.

  (** ** Market state: decided at each tick with the settings of that moment *)
  Definition ticked eid tk b w : Prop := exists e, w_epics w !! eid = Some e /\ ep_last e = tk /\ ep_mopen e = b.
  Lemma assign_ticked eid tk b w (e1 : nat) s : ticked eid tk b w -> ticked eid tk b (fst (assign w e1 s)).
  Proof.
    intros (e & Ee & E1 & E2). unfold assign. destruct (w_epics w !! e1) as [x|] eqn:Ex; [|now exists e].
    destruct (match s with SProvider p => _ | _ => _ end); [|now exists e]. destruct (assign_epic x s) as [y|z] eqn:Ey; [|now exists e].
    cbn. destruct (decide (e1 = eid)) as [->|Hne].
    - exists y. cbn. split; [apply list_lookup_insert; eapply lookup_lt_Some; eauto|]. assert (x = e) as -> by congruence.
      destruct s as [[?|]|?|?|?|?|?]; try discriminate; injection Ey as <-; auto.
    - exists e. cbn. rewrite list_lookup_insert_ne by auto. auto.
  Qed.
  Lemma gtick_flag pr w eid e tk : w_epics w !! eid = Some e -> ~ refused e tk ->
    ticked eid (tick_to (ep_tz e) tk) (is_market_open e (tick_to (ep_tz e) tk)) (fst (gtick pr w eid tk)).
  Proof.
    intros Ee Ha. unfold gtick. rewrite Ee. cbv zeta. unfold refused in Ha.
    change (tk_dt (tick_to (ep_tz e) tk)) with (arrow_to (ep_tz e) (tk_dt tk)).
    destruct (arrow_ltb _ _); [easy|]. set (tk' := tick_to _ _). set (b := is_market_open e tk').
    apply andthen_inv.
    - apply forM_inv.
      + intros w1 x Hx (e1 & H1 & H2). exists e1. now rewrite update_fset_epics.
      + exists (ep_set_last e tk' b). cbn. split; [apply list_lookup_insert; eapply lookup_lt_Some; eauto|]. auto.
    - intros w1 H1. apply forM_inv.
      + intros w2 x _ H2. apply (gexecute_inv (fun _ => True)); auto using any_gscript.
        intros w3 [c|e1 s1] H3 _; [|now apply assign_ticked]. destruct H3 as (e3 & H3 & H4). exists e3. split; [|auto]. cbn [run_gcall].
        pose proof (cmd_rest w3 c) as E. unfold rest in E. injection E as E1 _ _. congruence.
      + destruct H1 as (e1 & H1 & H2). exists e1. split; [|auto]. unfold update_open_trades. destruct (w_provs w1 !! _); auto.
  Qed.
  Lemma settings_flag pr w eid e tk : w_epics w !! eid = Some e -> ~ refused e tk -> exists e', w_epics (fst (gtick pr w eid tk)) !! eid = Some e' /\
    ep_last e' = tick_to (ep_tz e) tk /\ (ep_mopen e' = true <-> market_hours e (tz_wall (ep_tz e) (ar_utc (tk_dt tk)))).
  Proof.
    intros Ee Ha. destruct (gtick_flag pr w eid e tk Ee Ha) as (e' & H1 & H2 & H3). exists e'. split; [exact H1|]. split; [exact H2|].
    rewrite H3, market_open_spec. reflexivity.
  Qed.

  (** ** Another time zone *)
  Lemma zone_assigned w eid e z : w_epics w !! eid = Some e -> exists e', assign w eid (SZone (Some z)) = (upd_epics w (<[eid := e']> (w_epics w)), Ok ()) /\
    ep_tz e' = z /\ ep_last e' = ep_last e /\ ep_mopen e' = ep_mopen e /\
    (tz_id z <> tz_id (ar_tz (tk_dt (ep_last e))) -> forall tk, refused e' tk <-> ar_utc (tk_dt tk) < ar_utc (tk_dt (ep_last e))).
  Proof.
    intros Ee. unfold assign. rewrite Ee. cbn. eexists. split; [reflexivity|]. cbn. repeat (split; [reflexivity|]). intros Hz tk.
    unfold refused, arrow_ltb. cbn. destruct (Nat.eqb_spec (tz_id z) (tz_id (ar_tz (tk_dt (ep_last e))))) as [E|_]; [easy|]. apply Z.ltb_lt.
  Qed.
  Lemma zone_refused w eid e : w_epics w !! eid = Some e -> assign w eid (SZone None) = (w, Err EpicException).
  Proof. intros Ee. unfold assign. now rewrite Ee. Qed.
  Lemma calendar_assigned w eid e s : w_epics w !! eid = Some e -> calendar s -> exists e', assign w eid s = (upd_epics w (<[eid := e']> (w_epics w)), Ok ()) /\
    alike e e' /\ ep_mopen e' = ep_mopen e /\ forall wall, market_hours e' wall <-> let day := wall / 86400000000 in
      match s with SOpen t => t | _ => ep_open e end <= wall mod 86400000000 <= match s with SClose t => t | _ => ep_close e end /\
      (day + 3) mod 7 ∈ match s with SDays l => l | _ => ep_days e end /\ ~ day ∈ match s with SHolidays l => l | _ => ep_holidays e end.
  Proof.
    intros Ee Hs. unfold assign. rewrite Ee. destruct s as [?|?|?|?|?|?]; try easy; cbn [assign_epic]; (eexists; split; [reflexivity|]; split; [repeat split|]; split; [reflexivity|]; intros; reflexivity).
  Qed.
  Lemma provider_assigned w eid e p : w_epics w !! eid = Some e -> (p < length (w_provs w))%nat -> exists e', assign w eid (SProvider p) = (upd_epics w (<[eid := e']> (w_epics w)), Ok ()) /\
    ep_prov e' = p /\ ep_ref e' = ep_ref e /\ ep_tz e' = ep_tz e /\ ep_last e' = ep_last e /\ ep_fsets e' = ep_fsets e /\ ep_strats e' = ep_strats e /\ ep_mopen e' = ep_mopen e /\
    forall wall, market_hours e' wall <-> market_hours e wall.
  Proof.
    intros Ee Hp. unfold assign. rewrite Ee. unfold valid_id. rewrite bool_decide_true by auto. cbn [assign_epic].
    eexists. split; [reflexivity|]. repeat (split; [reflexivity|]). intros; reflexivity.
  Qed.
End proofs.
