(** Re-entrant strategies: the model without them is a special case, every state is among those of [reach]. *)
From Verif Require Export SpecReentrant EpicApiProofs.
Open Scope Z_scope.

Section proofs.
  Context {F : Type} `{Num F}.
  Implicit Types (w : world F) (e : epic F).

  (** ** World.v is the case of callbacks that only make calls *)
  Lemma step_not_tick pr pr' w (o : op F) : (forall a tk, o <> OTick a tk) -> step pr w o = step pr' w o.
  Proof. intros Ho. destruct o; try reflexivity. now destruct (Ho epic tk). Qed.
  Lemma embed_script nested w (s : script F) : run_rscript nested w (embed s) = run_script w s.
  Proof. revert w. induction s as [|x|c k IH]; intros w; try reflexivity. simpl. destruct (run_cmd w c) as [w' r]. apply IH. Qed.
  Lemma embed_callback nested pr sid cb eid w : run_rcallback nested (embed_programs pr) sid cb eid w = run_callback pr sid cb eid w.
  Proof. apply embed_script. Qed.
  Lemma callback_epics pr sid cb eid w : w_epics (fst (run_callback pr sid cb eid w)) = w_epics w.
  Proof.
    unfold run_callback. cbv zeta. set (w1 := upd_log w _). pose proof (script_rest w1 (pr sid cb eid w)) as E. unfold rest in E.
    apply (f_equal (fun x => fst (fst x))) in E. exact E.
  Qed.
  Lemma exec_epics pr eid mo w x : w_epics (fst (execute_strategy pr eid mo w x)) = w_epics w.
  Proof.
    unfold execute_strategy. destruct (w_strats w !! x.2) as [s|]; [|auto]. destruct (w_epics w !! eid) as [e|]; [|auto].
    destruct (is_active _ _) as [s' [|]]; [|auto]. set (w1 := upd_strats w _). change (w_epics w) with (w_epics w1). generalize w1. clear. intros w1.
    apply (andthen_inv (fun w' => w_epics w' = w_epics w1)).
    - destruct (eqb _ _); [auto|]. destruct mo; apply callback_epics.
    - intros w2 E2. rewrite <- E2. apply (andthen_inv (fun w' => w_epics w' = w_epics w2)).
      + destruct (ep_mopen e); [apply callback_epics|auto].
      + intros w3 <-. apply callback_epics.
  Qed.
  Lemma andthen_ext (x : world F * res unit) k k' : (forall u, snd x = Ok u -> k (fst x) = k' (fst x)) -> andthen x k = andthen x k'.
  Proof. destruct x as [w [u|y]]; simpl; eauto. Qed.
  Lemma embed_exec nested pr eid mo w x : rexecute nested (embed_programs pr) eid mo w x = execute_strategy pr eid mo w x.
  Proof.
    unfold rexecute, execute_strategy. destruct (w_strats w !! x.2) as [s|]; [|auto]. destruct (w_epics w !! eid) as [e|] eqn:Ee; [|auto].
    destruct (is_active _ _) as [s' [|]]; [|auto]. cbv zeta. set (w1 := upd_strats w _).
    assert (w_epics w1 !! eid = Some e) as E1 by exact Ee. rewrite !embed_callback. apply andthen_ext. intros u _.
    match goal with |- context [fst ?a] => assert (w_epics (fst a) = w_epics w1) as E2; [|set (w2 := fst a) in *] end.
    { destruct (eqb _ _); [auto|]. destruct mo; apply callback_epics. }
    rewrite E2, E1, embed_callback. apply andthen_ext. intros v _. apply embed_callback.
  Qed.
  Lemma embed_turn nested pr eid mo e w x : w_epics w !! eid = Some e ->
    rturn nested (embed_programs pr) eid (length (ep_strats e)) mo w x = execute_strategy pr eid mo w x.
  Proof.
    intros He. unfold rturn. rewrite embed_exec. pose proof (exec_epics pr eid mo w x) as E. destruct (execute_strategy _ _ _ _ _) as [w' [[]|y]]; [|auto].
    simpl in *. unfold same_size. now rewrite E, He, Nat.eqb_refl.
  Qed.
  Lemma embed_turns nested pr eid mo e l w : w_epics w !! eid = Some e ->
    forM (rturn nested (embed_programs pr) eid (length (ep_strats e)) mo) w l = forM (execute_strategy pr eid mo) w l.
  Proof.
    revert w. induction l as [|x l IH]; intros w He; [auto|]. simpl. rewrite embed_turn by auto. pose proof (exec_epics pr eid mo w x) as E.
    destruct (execute_strategy _ _ _ _ _) as [w' [[]|y]]; [|auto]. simpl in E. apply IH. now rewrite E.
  Qed.
  Lemma fsets_epics tk w l : w_epics (fst (forM (update_frame_set tk) w l)) = w_epics w.
  Proof. apply (forM_inv (fun w1 => w_epics w1 = w_epics w)); [|auto]. intros w1 x _ E. now rewrite update_fset_epics. Qed.
  Lemma value_epics w p tk : w_epics (update_open_trades w p tk) = w_epics w.
  Proof. unfold update_open_trades. now destruct (w_provs w !! p). Qed.
  Lemma embed_on_tick nested pr w eid tk : ron_tick nested (embed_programs pr) w eid tk = epic_on_new_tick pr w eid tk.
  Proof.
    unfold ron_tick, epic_on_new_tick. destruct (w_epics w !! eid) as [e|] eqn:Ee; [|auto]. cbv zeta. destruct (arrow_ltb _ _); [auto|].
    apply andthen_ext. intros u _. apply embed_turns. rewrite value_epics, fsets_epics. simpl. apply list_lookup_insert. eapply lookup_lt_Some; eauto.
  Qed.
  Lemma embed_step d pr w o : rstep (S d) (embed_programs pr) w o = step pr w o.
  Proof. destruct o; try reflexivity. apply embed_on_tick. Qed.
  Lemma embed_run d pr l w : rrun (S d) (embed_programs pr) w l = run pr w l.
  Proof. revert w. induction l as [|o l IH]; intros w; [auto|]. unfold rrun, run in *. cbn [fold_left]. rewrite embed_step. apply IH. Qed.

  (** ** A property kept by every elementary step is kept by re-entrant programs *)
  Section invariant.
    Context (P : cmd F -> Prop) (J : world F -> Prop).
    Context (J_call : forall w c, J w -> P c -> J (fst (run_cmd w c))).
    Context (J_setup : forall pr w o, J w -> setup o -> J (fst (step pr w o))).
    Context (J_accept : forall w eid e tk, J w -> w_epics w !! eid = Some e ->
        arrow_ltb (tk_dt (tick_to (ep_tz e) tk)) (tk_dt (ep_last e)) = false ->
        J (upd_epics w (<[eid := ep_set_last e (tick_to (ep_tz e) tk) (is_market_open e (tick_to (ep_tz e) tk))]> (w_epics w)))).
    Context (J_fset : forall w eid e x, J w -> w_epics w !! eid = Some e -> x ∈ ep_fsets e -> J (fst (update_frame_set (ep_last e) w x))).
    Context (J_value : forall w eid e, J w -> w_epics w !! eid = Some e -> J (update_open_trades w (ep_prov e) (ep_last e))).
    Context (J_active : forall w sid s d, J w -> w_strats w !! sid = Some s -> J (upd_strats w (<[sid := fst (is_active s d)]> (w_strats w)))).
    Context (J_log : forall w l, J w -> J (upd_log w l)).
    Context (pr : rprograms F) (pr_ok : rprograms_ok P pr).
    Section level.
      Context (nested : world F -> nat -> tick F -> world F * res unit).
      Context (nested_inv : forall w eid tk, J w -> J (fst (nested w eid tk))).
      Lemma rop_inv w o : op_ok P o -> J w -> J (fst (rop nested w o)).
      Proof. intros Ho Hw. destruct o; try (apply J_setup; [auto|exact I]; fail); [now apply nested_inv|now apply J_call]. Qed.
      Lemma rscript_inv s w : rscript_ok P s -> J w -> J (fst (run_rscript nested w s)).
      Proof.
        revert w. induction s as [|x|o k IH]; intros w Hs Hw; simpl; auto. destruct Hs as [Ho Hk].
        pose proof (rop_inv w o Ho Hw) as H1. destruct (rop nested w o) as [w' r]. apply IH; auto.
      Qed.
      Lemma rcallback_inv sid cb eid w : J w -> J (fst (run_rcallback nested pr sid cb eid w)).
      Proof. intros Hw. apply rscript_inv; [apply pr_ok|]. now apply J_log. Qed.
      Lemma rexecute_inv eid mo w x : J w -> J (fst (rexecute nested pr eid mo w x)).
      Proof.
        intros Hw. unfold rexecute. destruct (w_strats w !! x.2) as [s|] eqn:Es; [|auto]. destruct (w_epics w !! eid) as [e|] eqn:Ee; [|auto].
        pose proof (J_active w x.2 s (tk_dt (ep_last e)) Hw Es) as H1. destruct (is_active s (tk_dt (ep_last e))) as [s' act].
        simpl in H1. destruct act; [|exact H1].
        apply andthen_inv; [|intros w2 H2; apply andthen_inv; [|intros w3 H3; now apply rcallback_inv]].
        - destruct (eqb mo (ep_mopen e)); [exact H1|]. destruct mo; now apply rcallback_inv.
        - destruct (w_epics w2 !! eid) as [e2|]; [|exact H2]. destruct (ep_mopen e2); [now apply rcallback_inv|exact H2].
      Qed.
      Lemma rturn_inv eid n mo w x : J w -> J (fst (rturn nested pr eid n mo w x)).
      Proof.
        intros Hw. unfold rturn. apply andthen_inv; [now apply rexecute_inv|]. intros w' H'. unfold same_size. destruct (w_epics w' !! eid) as [e|]; [|auto].
        now destruct (_ =? _)%nat.
      Qed.
      Lemma ron_tick_inv w eid tk : J w -> J (fst (ron_tick nested pr w eid tk)).
      Proof.
        intros Hw. unfold ron_tick. destruct (w_epics w !! eid) as [e|] eqn:Ee; [|auto]. cbv zeta.
        destruct (arrow_ltb _ _) eqn:Ea; [auto|]. set (e' := ep_set_last e _ _). set (tk' := tick_to _ _).
        apply (andthen_inv' (fun w1 => J w1 /\ w_epics w1 !! eid = Some e')).
        - apply (forM_inv (fun w1 => J w1 /\ w_epics w1 !! eid = Some e')).
          + intros w1 x Hx [H1 H2]. rewrite update_fset_epics. split; [|auto]. now apply (J_fset w1 eid e' x).
          + split; [now apply J_accept|]. simpl. apply list_lookup_insert. eapply lookup_lt_Some; eauto.
        - intros w1 [H1 H2]. apply forM_inv; [|now apply (J_value w1 eid e')]. intros w2 x _ H3. now apply rturn_inv.
        - now intros w1 [H1 _].
      Qed.
    End level.
    Lemma rtick_inv d w eid tk : J w -> J (fst (rtick d pr w eid tk)).
    Proof. revert w eid tk. induction d as [|d IH]; intros w eid tk Hw; [exact Hw|]. apply ron_tick_inv; auto. Qed.
    Lemma rstep_inv d w o : op_ok P o -> J w -> J (fst (rstep d pr w o)).
    Proof. intros Ho. apply rop_inv; [|auto]. intros. now apply rtick_inv. Qed.
    Lemma rrun_inv d l w : Forall (op_ok P) l -> J w -> J (rrun d pr w l).
    Proof. intros Hl. revert w. induction Hl as [|o l Ho Hl IH]; intros w Hw; [exact Hw|]. apply IH. now apply rstep_inv. Qed.
  End invariant.

  (** ** Every state is among those of [reach] *)
  Lemma rtick_reach P pr d w eid tk : rprograms_ok P pr -> reach P w -> reach P (fst (rtick d pr w eid tk)).
  Proof. intros Hp. apply (rtick_inv P); auto; intros; econstructor; eauto. Qed.
  Lemma rstep_reach P pr d w o : rprograms_ok P pr -> op_ok P o -> reach P w -> reach P (fst (rstep d pr w o)).
  Proof. intros Hp. apply (rstep_inv P); auto; intros; econstructor; eauto. Qed.
  Lemma rrun_reach P pr d l w : rprograms_ok P pr -> Forall (op_ok P) l -> reach P w -> reach P (rrun d pr w l).
  Proof. intros Hp. apply (rrun_inv P); auto; intros; econstructor; eauto. Qed.

  (** ** The last tick never goes back *)
  Lemma forward_refl w : forward w w.
  Proof. intros eid e E T. exists e. split; [auto|]. split; [auto|]. split; [auto|]. lia. Qed.
  Lemma forward_trans w w' w'' : forward w w' -> forward w' w'' -> forward w w''.
  Proof.
    intros H1 H2 eid e E T. destruct (H1 eid e E T) as (e1 & E1 & T1 & Z1 & L1). destruct (H2 eid e1 E1 T1) as (e2 & E2 & T2 & Z2 & L2).
    exists e2. split; [auto|]. split; [auto|]. split; [congruence|lia].
  Qed.
  Lemma forward_same w w' : w_epics w' = w_epics w -> forward w w'.
  Proof. intros E eid e. rewrite <- E. apply forward_refl. Qed.
  Lemma forward_step w w' : (forall eid e, w_epics w !! eid = Some e -> has_ticked e ->
      exists e', w_epics w' !! eid = Some e' /\ has_ticked e' /\ ep_tz e' = ep_tz e /\ ar_wall (tk_dt (ep_last e)) <= ar_wall (tk_dt (ep_last e'))) -> forward w w'.
  Proof. auto. Qed.
  Lemma cmd_epics w c : w_epics (fst (run_cmd w c)) = w_epics w.
  Proof. pose proof (cmd_rest w c) as E. apply (f_equal (fun x => fst (fst x))) in E. exact E. Qed.
  Lemma accept_forward w eid e tk : w_epics w !! eid = Some e -> arrow_ltb (tk_dt (tick_to (ep_tz e) tk)) (tk_dt (ep_last e)) = false ->
    forward w (upd_epics w (<[eid := ep_set_last e (tick_to (ep_tz e) tk) (is_market_open e (tick_to (ep_tz e) tk))]> (w_epics w))).
  Proof.
    intros He Ha k x Hx Tx. cbn [w_epics upd_epics]. destruct (decide (k = eid)) as [->|Hn].
    - assert (x = e) as -> by congruence. rewrite list_lookup_insert by (eapply lookup_lt_Some; eauto). eexists. split; [reflexivity|].
      split; [reflexivity|]. split; [reflexivity|].
      assert (~ refused e tk) as Hr by (unfold refused; intros Hr; simpl in Ha; congruence). rewrite refused_wall in Hr by auto. simpl. lia.
    - rewrite list_lookup_insert_ne by auto. now apply (forward_refl w k x).
  Qed.
  Lemma any_ok (o : op F) : op_ok any_call o.
  Proof. destruct o; exact I. Qed.
  Lemma rany_ok (pr : rprograms F) : rprograms_ok any_call pr.
  Proof. intros sid cb eid w. induction (pr sid cb eid w); simpl; auto using any_ok. Qed.
  Lemma rrun_forward (pr : rprograms F) d l w : forward w (rrun d pr w l).
  Proof.
    apply (rrun_inv any_call (forward w)); auto using rany_ok, forward_refl.
    - intros w1 c H1 _. eapply forward_trans; [exact H1|]. apply forward_same, cmd_epics.
    - intros q w1 o H1 _. eapply forward_trans; [exact H1|]. intros eid e. apply step_forward.
    - intros w1 eid e tk H1 He Ha. eapply forward_trans; [exact H1|]. now apply accept_forward.
    - intros w1 eid e x H1 _ _. eapply forward_trans; [exact H1|]. apply forward_same, update_fset_epics.
    - intros w1 eid e H1 _. eapply forward_trans; [exact H1|]. apply forward_same, value_epics.
    - apply Forall_forall. auto using any_ok.
  Qed.
  Lemma rtick_refused (pr : rprograms F) d w eid e tk : w_epics w !! eid = Some e -> refused e tk -> rtick (S d) pr w eid tk = (w, Err EpicException).
  Proof. intros He Hr. simpl. unfold ron_tick. rewrite He. cbv zeta. unfold refused in Hr. simpl in *. now rewrite Hr. Qed.
  (** The last tick is at least the accepted one, later if a callback sent later ticks. *)
  Lemma rtick_accepted (pr : rprograms F) d w eid e tk : w_epics w !! eid = Some e -> ~ refused e tk ->
    exists e', w_epics (fst (rtick (S d) pr w eid tk)) !! eid = Some e' /\ has_ticked e' /\ ep_tz e' = ep_tz e /\
      tz_wall (ep_tz e) (ar_utc (tk_dt tk)) <= ar_wall (tk_dt (ep_last e')).
  Proof.
    intros He Hr. simpl. unfold ron_tick. rewrite He. cbv zeta. destruct (arrow_ltb _ _) eqn:Ea; [now destruct Hr|].
    set (e1 := ep_set_last e _ _). set (w1 := upd_epics w _).
    assert (w_epics w1 !! eid = Some e1) as E1 by (simpl; apply list_lookup_insert; eapply lookup_lt_Some; eauto).
    assert (forward w1 (fst (andthen (forM (update_frame_set (tick_to (ep_tz e) tk)) w1 (ep_fsets e1))
      (fun w2 => forM (rturn (rtick d pr) pr eid (length (ep_strats e1)) (ep_mopen e)) (update_open_trades w2 (ep_prov e1) (tick_to (ep_tz e) tk)) (ep_strats e1))))) as Hf.
    { apply andthen_inv; [apply forward_same, fsets_epics|]. intros w2 H2. apply (forM_inv (forward w1)).
      2:{ eapply forward_trans; [exact H2|]. apply forward_same, value_epics. }
      intros w3 x _ H3. apply (rturn_inv any_call (forward w1)); auto using rany_ok.
      - intros w4 c H4 _. eapply forward_trans; [exact H4|]. apply forward_same, cmd_epics.
      - intros q w4 o H4 _. eapply forward_trans; [exact H4|]. intros ? ?. apply step_forward.
      - intros w4 a t H4. eapply forward_trans; [exact H4|]. apply (rrun_forward pr d [OTick a t] w4). }
    destruct (Hf eid e1 E1 eq_refl) as (e' & E' & T' & Z' & L'). exists e'. split; [exact E'|]. split; [auto|]. split; [exact Z'|exact L'].
  Qed.

  (** ** Properties of every state *)
  Lemma rrun_quantities pr d l w i t : rprograms_ok sane_call pr -> Forall (op_ok sane_call) l -> reach sane_call w ->
    w_trades (rrun d pr w l) !! i = Some t -> opened_quantities t + closed_quantities t = tr_oq t /\ 0 <= opened_quantities t <= tr_oq t.
  Proof.
    intros Hp Hl Hw Ht. pose proof (rrun_reach sane_call pr d l w Hp Hl Hw) as Hr.
    destruct (quantities_in_every_state _ i t Hr Ht) as (H1 & H2 & _). auto.
  Qed.
  Lemma rrun_direction pr d l w : rprograms_ok sane_call pr -> Forall (op_ok sane_call) l -> reach sane_call w ->
    forall pid p i j t u, w_provs (rrun d pr w l) !! pid = Some p -> pv_kind p = PBacktests -> i ∈ pv_trades p -> j ∈ pv_trades p ->
    w_trades (rrun d pr w l) !! i = Some t -> w_trades (rrun d pr w l) !! j = Some u -> tr_strat t = tr_strat u ->
    opened_quantities t <> 0 -> opened_quantities u <> 0 -> tr_dir t = tr_dir u.
  Proof. intros Hp Hl Hw. apply reach_one_dir. now apply rrun_reach. Qed.
  Lemma rrun_flag P pr d l w eid e : rprograms_ok P pr -> Forall (op_ok P) l -> reach P w -> w_epics (rrun d pr w l) !! eid = Some e ->
    (ep_last e = fake_tick /\ ep_mopen e = false) \/ (ep_mopen e = true <-> market_hours e (ar_wall (tk_dt (ep_last e)))).
  Proof. intros Hp Hl Hw. apply (market_flag_always P). now apply rrun_reach. Qed.
  Lemma rrun_refs P pr d l w eid e : rprograms_ok P pr -> Forall (op_ok P) l -> reach P w -> w_epics (rrun d pr w l) !! eid = Some e ->
    (forall k i, (k, i) ∈ ep_strats e -> exists s, w_strats (rrun d pr w l) !! i = Some s /\ st_ref s = k) /\ NoDup (map fst (ep_strats e)) /\
    (forall k i, (k, i) ∈ ep_fsets e -> exists fs, w_fsets (rrun d pr w l) !! i = Some fs /\ fs_ref fs = k) /\ NoDup (map fst (ep_fsets e)).
  Proof. intros Hp Hl Hw. apply (reach_refs P). now apply rrun_reach. Qed.
End proofs.
