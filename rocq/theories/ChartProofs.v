(** Charts depend on the ticks only. *)
From Verif Require Export SpecCharts EpicHistProofs.
Open Scope Z_scope.

Section proofs.
  Context {F : Type} `{Num F}.
  Implicit Types (w : world F) (e : epic F) (fs : fset F).

  Lemma charts_inj w w' : charts w = charts w' -> w_epics w = w_epics w' /\ w_fsets w = w_fsets w'.
  Proof. intros E. now injection E. Qed.
  Lemma cast_inj w w' : cast w = cast w' -> length (w_provs w) = length (w_provs w') /\ st_ref <$> w_strats w = st_ref <$> w_strats w'.
  Proof. intros E. now injection E. Qed.
  Lemma cast_eq w w' : length (w_provs w) = length (w_provs w') -> st_ref <$> w_strats w = st_ref <$> w_strats w' -> cast w = cast w'.
  Proof. intros E1 E2. unfold cast. f_equal; [exact E1|exact E2]. Qed.

  (** ** Calls *)
  Lemma keeps_cast w w' : keeps w w' -> cast w' = cast w.
  Proof.
    intros [_ Kp Ks _ _]. apply cast_eq.
    - apply (f_equal length) in Kp. now rewrite !fmap_length in Kp.
    - revert Ks. generalize (w_strats w). generalize (w_strats w'). induction l as [|s l IH]; intros [|s' l'] Ks; try discriminate Ks; [auto|].
      injection Ks as E1 E2. simpl. f_equal; [|now apply IH]. congruence.
  Qed.
  Lemma base_open_cast w pid tid : cast (base_open_trade w pid tid) = cast w.
  Proof.
    unfold base_open_trade. destruct (w_trades w !! tid) as [t|]; [|auto]. apply cast_eq.
    - destruct (tr_strat t); cbn [add_thread w_provs upd_provs upd_strats]; now rewrite !alter_length.
    - destruct (tr_strat t); [|auto]. cbn [add_thread w_strats upd_provs upd_strats]. now apply fmap_alter_same.
  Qed.
  Lemma cmd_cast w c : cast (fst (run_cmd w c)) = cast w.
  Proof.
    destruct (is_open_call c) eqn:Ec; [|now apply keeps_cast, keeps_cmd]. destruct c as [e d q s ref| | | | | | | | | |]; try discriminate Ec. cbn [run_cmd].
    assert (cast (fst (epic_open_trade w e d q s ref)) = cast w) as E; [|now destruct (epic_open_trade w e d q s ref)].
    apply (open_scheme (fun w1 => cast w1 = cast w)); auto.
    - intros ep w1 oid _ _ <-. apply keeps_cast, keeps_net_step.
    - intros ep t w1 _ _ _ <-. apply base_open_cast.
  Qed.
  Lemma cmd_charts w c : charts (fst (run_cmd w c)) = charts w.
  Proof. pose proof (cmd_rest w c) as E. unfold rest in E. unfold charts. congruence. Qed.
  Lemma script_cast w (s : script F) : cast (fst (run_script w s)) = cast w.
  Proof. revert w. induction s as [|x|c k IH]; intros w; simpl; auto. pose proof (cmd_cast w c) as E. destruct (run_cmd w c) as [w' r]. simpl in E. now rewrite IH. Qed.
  Lemma callback_cast pr sid cb eid w : cast (fst (run_callback pr sid cb eid w)) = cast w.
  Proof. unfold run_callback. cbv zeta. now rewrite script_cast. Qed.
  Lemma active_ref s d : st_ref (fst (is_active s d)) = st_ref s.
  Proof. unfold is_active. destruct (st_stopped s); [auto|]. destruct (st_paused s); [|auto]. now destruct (arrow_ltb _ _). Qed.
  Lemma exec_cast pr eid mo w x : cast (fst (execute_strategy pr eid mo w x)) = cast w.
  Proof.
    unfold execute_strategy. destruct (w_strats w !! x.2) as [s|] eqn:Es; [|auto]. destruct (w_epics w !! eid) as [e|]; [|auto].
    pose proof (active_ref s (tk_dt (ep_last e))) as Ea. destruct (is_active s _) as [s' act]. simpl in Ea. set (w1 := upd_strats w _).
    assert (cast w1 = cast w) as E1.
    { apply cast_eq; [auto|]. simpl. eapply fmap_insert_same; eauto. }
    destruct act; [|exact E1]. rewrite <- E1. generalize w1. clear. intros w1.
    apply (andthen_inv (fun w' => cast w' = cast w1)).
    - destruct (eqb _ _); [auto|]. destruct mo; apply callback_cast.
    - intros w2 E2. rewrite <- E2. apply (andthen_inv (fun w' => cast w' = cast w2)).
      + destruct (ep_mopen e); [apply callback_cast|auto].
      + intros w3 <-. apply callback_cast.
  Qed.
  Lemma execs_cast pr eid mo l w : cast (fst (forM (execute_strategy pr eid mo) w l)) = cast w.
  Proof. apply (forM_inv (fun w1 => cast w1 = cast w)); [|auto]. intros w1 x _ <-. apply exec_cast. Qed.

  (** ** Ticks *)
  Lemma fsets_same tk l w w' : charts w = charts w' ->
    charts (fst (forM (update_frame_set tk) w l)) = charts (fst (forM (update_frame_set tk) w' l)) /\
    snd (forM (update_frame_set tk) w l) = snd (forM (update_frame_set tk) w' l).
  Proof.
    revert w w'. induction l as [|x l IH]; intros w w' E; [auto|]. cbn [forM]. pose proof (charts_inj _ _ E) as [E1 E2].
    unfold update_frame_set at 1 3 5 7. unfold fs_epic_state. rewrite <- E1, <- E2. destruct (w_fsets w !! x.2) as [fs|]; [|auto].
    destruct (match fs_epic fs with Some _ => _ | None => _ end) as [mo lst]. destruct (fs_on_new_tick _ fs tk mo lst) as [fs' [[]|er]].
    - apply IH. unfold charts. simpl. congruence.
    - unfold charts. simpl. split; congruence.
  Qed.
  Lemma fsets_cast tk l w : cast (fst (forM (update_frame_set tk) w l)) = cast w.
  Proof. apply (forM_inv (fun w1 => cast w1 = cast w)); [|auto]. intros w1 x _ <-. apply keeps_cast, keeps_fset. Qed.
  Lemma tick_same pr pr' w w' eid tk : charts w = charts w' -> cast w = cast w' ->
    charts (fst (epic_on_new_tick pr w eid tk)) = charts (fst (epic_on_new_tick pr' w' eid tk)) /\
    cast (fst (epic_on_new_tick pr w eid tk)) = cast (fst (epic_on_new_tick pr' w' eid tk)).
  Proof.
    intros E C. pose proof (charts_inj _ _ E) as [E1 E2]. unfold epic_on_new_tick. rewrite <- E1. destruct (w_epics w !! eid) as [e|] eqn:Ee; [|auto].
    cbv zeta. destruct (arrow_ltb _ _); [auto|]. set (e' := ep_set_last e _ _). set (tk' := tick_to _ _).
    set (a := upd_epics w _). set (b := upd_epics w' _).
    assert (charts a = charts b) as Eab by (unfold charts; simpl; congruence). assert (cast a = cast b) as Cab by exact C.
    pose proof (fsets_same tk' (ep_fsets e') a b Eab) as [F1 F2]. pose proof (fsets_cast tk' (ep_fsets e') a) as F3. pose proof (fsets_cast tk' (ep_fsets e') b) as F4.
    destruct (forM (update_frame_set tk') a _) as [a1 ra]. destruct (forM (update_frame_set tk') b _) as [b1 rb]. cbn [fst snd] in *. subst rb.
    destruct ra as [[]|er]; cbn [andthen fst]; [|split; congruence].
    rewrite !execs_cast, !(keeps_cast _ _ (keeps_value _ _ _)). split; [|congruence].
    destruct (execute_fsets pr eid (ep_mopen e) (ep_strats e') (update_open_trades a1 (ep_prov e') tk')) as [X1 X2].
    destruct (execute_fsets pr' eid (ep_mopen e) (ep_strats e') (update_open_trades b1 (ep_prov e') tk')) as [Y1 Y2].
    destruct (value_rest a1 (ep_prov e') tk') as (_ & V1 & _ & V2). destruct (value_rest b1 (ep_prov e') tk') as (_ & V3 & _ & V4).
    apply charts_inj in F1 as [F1 F1']. unfold charts. congruence.
  Qed.

  (** ** Other operations *)
  Lemma cast_valid w w' p : cast w = cast w' -> valid_id (w_provs w) p = valid_id (w_provs w') p.
  Proof. intros C. apply cast_inj in C as [C _]. unfold valid_id. destruct p; [|auto]. now rewrite C. Qed.
  Lemma step_same pr pr' w w' o : no_call_op o = true -> charts w = charts w' -> cast w = cast w' ->
    charts (fst (step pr w o)) = charts (fst (step pr' w' o)) /\ cast (fst (step pr w o)) = cast (fst (step pr' w' o)).
  Proof.
    intros Ho E C. pose proof (charts_inj _ _ E) as [E1 E2]. pose proof (cast_inj _ _ C) as [C1 C2].
    destruct o as [k|ref|u q ref m|ref tz op cl ds hs p|a f|a s|f i|a tk|c]; cbn [step].
    - split; [exact E|]. apply cast_eq; [simpl; rewrite !app_length; congruence|exact C2].
    - split; [exact E|]. apply cast_eq; [exact C1|]. cbn [fst w_strats upd_strats]. rewrite !fmap_app. congruence.
    - destruct (fset_init u q ref m); [|auto]. split; [|exact C]. unfold charts. simpl. congruence.
    - unfold new_epic. destruct tz as [z|]; [|auto]. rewrite <- (cast_valid w w' p C). destruct (valid_id _ _); [|auto].
      destruct p as [p|]; cbn [fst]; (split; [unfold charts; simpl; rewrite E1, E2, ?C1; reflexivity|]); (apply cast_eq; [|exact C2]); [exact C1|].
      simpl. rewrite !app_length. congruence.
    - unfold add_frame_set. rewrite <- E1, <- E2. destruct (w_epics w !! a) as [e|]; [|auto]. destruct (w_fsets w !! f) as [fs|]; [|auto].
      destruct (dict_get _ _); [auto|]. split; [unfold charts; simpl; congruence|exact C].
    - unfold add_strategy. rewrite <- E1. destruct (w_epics w !! a) as [e|]; [|auto].
      assert (st_ref <$> w_strats w !! s = st_ref <$> w_strats w' !! s) as Es by (rewrite <- !list_lookup_fmap; now rewrite C2).
      destruct (w_strats w !! s) as [x|] eqn:Ex, (w_strats w' !! s) as [y|] eqn:Ey; try discriminate Es; [|auto]. apply (inj Some) in Es. rewrite <- Es.
      destruct (dict_get _ _); [auto|]. split; [unfold charts; simpl; rewrite E2; congruence|]. apply cast_eq; [exact C1|]. cbn [fst w_strats upd_strats upd_epics].
      etransitivity; [eapply fmap_insert_same; [exact Ex|reflexivity]|]. etransitivity; [exact C2|]. symmetry. eapply fmap_insert_same; [exact Ey|reflexivity].
    - rewrite <- E2. destruct (w_fsets w !! f) as [fs|]; [|auto]. destruct (add_indicator fs i). split; [unfold charts; simpl; congruence|exact C].
    - now apply tick_same.
    - discriminate Ho.
  Qed.
  Lemma run_cons pr w o l : run pr w (o :: l) = run pr (fst (step pr w o)) l.
  Proof. reflexivity. Qed.
  Lemma calls_same pr w o : no_call_op o = false -> charts (fst (step pr w o)) = charts w /\ cast (fst (step pr w o)) = cast w.
  Proof. intros Ho. destruct o; try discriminate Ho. split; [apply cmd_charts|apply cmd_cast]. Qed.
  Lemma run_same pr pr' l l' w w' : charts w = charts w' -> cast w = cast w' -> List.filter no_call_op l = List.filter no_call_op l' ->
    charts (run pr w l) = charts (run pr' w' l') /\ cast (run pr w l) = cast (run pr' w' l').
  Proof.
    (* skip the calls of the left run, then those of the right one *)
    revert l' w w'. induction l as [|o l IH]; intros l' w w' E C Hl.
    - clear - E C Hl. revert w' E C. induction l' as [|o l' IH']; intros w' E C; [auto|]. rewrite run_cons. simpl in Hl. destruct (no_call_op o) eqn:Ho; [discriminate Hl|].
      destruct (calls_same pr' w' o Ho) as [X Y]. apply IH'; [exact Hl|congruence|congruence].
    - simpl in Hl. destruct (no_call_op o) eqn:Ho.
      + revert w' E C. induction l' as [|o' l' IH']; intros w' E C; [discriminate Hl|]. simpl in Hl. rewrite (run_cons pr' w' o' l'). destruct (no_call_op o') eqn:Ho'.
        * injection Hl as <- Hl. destruct (step_same pr pr' w w' o Ho E C) as [X Y]. rewrite run_cons. apply IH; auto.
        * destruct (calls_same pr' w' o' Ho') as [X Y]. apply IH'; [exact Hl|congruence|congruence].
      + rewrite run_cons. destruct (calls_same pr w o Ho) as [X Y]. apply IH; [congruence|congruence|exact Hl].
  Qed.

  (** ** Charts of one epic *)
  Definition next_fs (eid fid : nat) e fs (o : op F) : fset F :=
    match o with
    | OTick a tk => if decide (a = eid) then if decide (refused e tk) then fs else
                      let tk' := tick_to (ep_tz e) tk in fst (fs_on_new_tick (gap_fuel fs tk') fs tk' (is_market_open e tk') (Some (tk_dt tk')))
                    else fs
    | OAddIndicator f i => if decide (f = fid) then fst (add_indicator fs i) else fs
    | _ => fs
    end.
  Lemma add_indicator_epic fs i : fs_epic (fst (add_indicator fs i)) = fs_epic fs.
  Proof. unfold add_indicator. now destruct (in_kind i). Qed.
  Lemma next_epic eid fid e fs o : fs_epic (next_fs eid fid e fs o) = fs_epic fs.
  Proof.
    unfold next_fs. destruct o as [| | | | | |f i|a tk|]; auto.
    - destruct (decide _); [apply add_indicator_epic|auto].
    - destruct (decide _); [|auto]. destruct (decide _); [auto|]. cbv zeta. set (tk' := tick_to _ _).
      pose proof (fs_tick_conf (gap_fuel fs tk') fs tk' (is_market_open e tk') (Some (tk_dt tk'))) as C.
      destruct (fs_on_new_tick _ fs tk' _ _) as [fs' r]. destruct C as (_ & _ & _ & _ & C & _). exact C.
  Qed.
  Lemma step_next P pr w o eid e fid fs : reach P w -> clean pr w [o] -> not_attaching fid o -> w_epics w !! eid = Some e -> attached_only w fid eid -> w_fsets w !! fid = Some fs ->
    w_fsets (fst (step pr w o)) !! fid = Some (next_fs eid fid e fs o) /\ attached_only (fst (step pr w o)) fid eid.
  Proof.
    intros Hr Hcl Hna He ((e0 & k & He0 & Hk) & (fs0 & Hf0 & Hfe) & Hat) Hf. assert (e0 = e) as -> by congruence. assert (fs0 = fs) as -> by congruence.
    assert (w_fsets (fst (step pr w o)) !! fid = Some (next_fs eid fid e fs o)) as Hfs.
    { destruct o as [k0|ref|u0 q0 ref m|ref tz op cl ds hs p|a0 f|a0 s|f i|a0 tk|c]; cbn [step next_fs]; try exact Hf.
      - destruct (fset_init u0 q0 ref m); [|exact Hf]. cbn [fst w_fsets upd_fsets]. now apply lookup_app_l_Some.
      - unfold new_epic. destruct tz as [z|]; [|exact Hf]. destruct (valid_id _ _); [|exact Hf]. destruct p; exact Hf.
      - simpl in Hna. unfold add_frame_set. destruct (w_epics w !! a0); [|exact Hf]. destruct (w_fsets w !! f); [|exact Hf]. destruct (dict_get _ _); [exact Hf|].
        cbn [fst w_fsets upd_fsets upd_epics]. now rewrite list_lookup_insert_ne by auto.
      - unfold add_strategy. destruct (w_epics w !! a0); [|exact Hf]. destruct (w_strats w !! s); [|exact Hf]. destruct (dict_get _ _); exact Hf.
      - destruct (decide (f = fid)) as [->|Hne].
        + rewrite Hf. destruct (add_indicator fs i) as [fs' r]. cbn [fst w_fsets upd_fsets]. apply list_lookup_insert. eapply lookup_lt_Some; eauto.
        + destruct (w_fsets w !! f) as [ff|]; [|exact Hf]. destruct (add_indicator ff i) as [ff' r]. cbn [fst w_fsets upd_fsets]. now rewrite list_lookup_insert_ne by auto.
      - destruct (decide (a0 = eid)) as [->|Hne].
        + destruct (decide (refused e tk)) as [Hre|Hre]; [now rewrite (tick_refused _ _ _ _ _ He Hre)|]. destruct Hcl as [[Hok|Hok] _]; [|elim Hre; auto].
          destruct (tick_fset P pr w eid e tk fid fs k Hr He Hre Hok Hk Hf Hfe) as (fs' & F1 & F2). cbv zeta. now rewrite F1.
        + destruct (w_epics w !! a0) as [ea|] eqn:Ea; [|unfold epic_on_new_tick; now rewrite Ea]. rewrite (tick_other_fset pr w a0 ea tk fid Ea); [exact Hf|].
          intros k1 Hk1. elim Hne. eapply Hat; eauto.
      - pose proof (cmd_charts w c) as E. apply charts_inj in E as [_ E]. now rewrite E. }
    split; [exact Hfs|]. split; [|split].
    - destruct (step_epic pr w o eid e He) as (e1 & E1 & (_ & _ & _ & _ & _ & _ & _ & [z Kz] & _) & _). exists e1, k. split; [auto|]. rewrite Kz. apply elem_of_app. now left.
    - eexists. split; [exact Hfs|]. now rewrite next_epic.
    - intros a b' k1 Hb' Hk1. destruct (step_attached_back pr w o fid a b' k1 Hna Hb' Hk1) as (b & Hb & Hkb). eapply Hat; eauto.
  Qed.
  Definition next_market (eid : nat) e (o : op F) :=
    match o with
    | OTick a tk => if decide (a = eid) then if decide (refused e tk) then market e else market (accepted_epic e tk) else market e
    | _ => market e
    end.
  Lemma step_market pr w o eid e : w_epics w !! eid = Some e -> exists e', w_epics (fst (step pr w o)) !! eid = Some e' /\ market e' = next_market eid e o.
  Proof.
    intros He. destruct (step_epic pr w o eid e He) as (e' & E1 & K & [(L1 & L2 & L3)|(tk & -> & Hn & ->)]); eexists; (split; [eauto|]).
    - assert (market e' = market e) as -> by (destruct K as (_ & K1 & K2 & K3 & K4 & K5 & _); unfold market; congruence).
      unfold next_market. destruct o as [| | | | | | |a tk|]; auto. destruct (decide (a = eid)) as [->|]; [|auto]. destruct (decide (refused e tk)) as [|Hx]; [auto|]. elim Hx. now apply L3.
    - unfold next_market. now rewrite decide_True, decide_False by auto.
  Qed.
  Lemma market_refused e e' tk : market e = market e' -> refused e tk <-> refused e' tk.
  Proof. intros E. assert (ep_tz e = ep_tz e' /\ ep_last e = ep_last e') as [E1 E2] by (unfold market in E; split; congruence). unfold refused. now rewrite E1, E2. Qed.
  Lemma market_is_open e e' tk : market e = market e' -> is_market_open e tk = is_market_open e' tk.
  Proof.
    intros E. unfold is_market_open, in_market_hours. assert (ep_open e = ep_open e' /\ ep_close e = ep_close e' /\ ep_days e = ep_days e' /\ ep_holidays e = ep_holidays e') as (-> & -> & -> & ->) by (unfold market in E; repeat split; congruence). reflexivity.
  Qed.
  Lemma market_tz e e' : market e = market e' -> ep_tz e = ep_tz e'.
  Proof. unfold market. congruence. Qed.
  Lemma next_fs_market eid fid e e' fs o : market e = market e' -> next_fs eid fid e fs o = next_fs eid fid e' fs o.
  Proof.
    intros E. destruct o as [| | | | | | |a tk|]; try reflexivity. simpl. destruct (decide (a = eid)); [|auto].
    pose proof (market_refused e e' tk E) as Hr. destruct (decide (refused e tk)), (decide (refused e' tk)); try tauto. now rewrite (market_tz _ _ E), (market_is_open _ _ _ E).
  Qed.
  Lemma next_market_market eid e e' o : market e = market e' -> next_market eid e o = next_market eid e' o.
  Proof.
    intros E. destruct o as [| | | | | | |a tk|]; try exact E. simpl. destruct (decide (a = eid)); [|auto].
    pose proof (market_refused e e' tk E) as Hr. destruct (decide (refused e tk)), (decide (refused e' tk)); try tauto.
    unfold market. cbn [accepted_epic ep_set_last ep_tz ep_open ep_close ep_days ep_holidays ep_last ep_mopen]. rewrite (market_tz _ _ E), (market_is_open _ _ _ E).
    unfold market in E. congruence.
  Qed.
  Lemma next_other eid fid e fs o : concerns eid fid o = false -> next_fs eid fid e fs o = fs /\ next_market eid e o = market e.
  Proof. destruct o as [| | | | | |f i|a tk|]; simpl; auto; intros Ho; apply Nat.eqb_neq in Ho; rewrite ?decide_False by auto; auto. Qed.

  (** A run during which the frame set keeps being attached to this epic only and no tick raises. *)
  Record tidy (P : cmd F -> Prop) pr w (l : list (op F)) (eid fid : nat) : Prop := {
    tidy_reach : reach P w; tidy_pr : programs_ok P pr; tidy_ops : Forall (op_ok P) l; tidy_clean : clean pr w l;
    tidy_na : Forall (not_attaching fid) l; tidy_at : attached_only w fid eid }.
  Lemma tidy_next P pr w o l eid fid : tidy P pr w (o :: l) eid fid -> exists e fs, w_epics w !! eid = Some e /\ w_fsets w !! fid = Some fs /\
    tidy P pr (fst (step pr w o)) l eid fid /\ w_fsets (fst (step pr w o)) !! fid = Some (next_fs eid fid e fs o) /\
    market <$> w_epics (fst (step pr w o)) !! eid = Some (next_market eid e o).
  Proof.
    intros [Hr Hp Ho Hc Hn Ha]. inversion_clear Ho as [|? ? Ho1 Ho2]. inversion_clear Hn as [|? ? Hn1 Hn2]. destruct Hc as [Hc1 Hc2].
    pose proof Ha as ((e & k & He & _) & (fs & Hf & _) & _). exists e, fs. split; [auto|]. split; [auto|].
    destruct (step_next P pr w o eid e fid fs Hr (conj Hc1 I) Hn1 He Ha Hf) as [F1 F2]. destruct (step_market pr w o eid e He) as (e' & E1 & E2).
    split; [constructor; auto; now apply step_reach|]. split; [auto|]. rewrite E1. simpl. now f_equal.
  Qed.
  Lemma tidy_skip P pr w o l eid fid : tidy P pr w (o :: l) eid fid -> concerns eid fid o = false ->
    tidy P pr (fst (step pr w o)) l eid fid /\ same_chart eid fid (fst (step pr w o)) w.
  Proof.
    intros Ht Ho. destruct (tidy_next _ _ _ _ _ _ _ Ht) as (e & fs & He & Hf & Ht' & F1 & F2). destruct (next_other eid fid e fs o Ho) as [N1 N2].
    split; [auto|]. unfold same_chart. rewrite F1, F2, He, Hf, N1, N2. auto.
  Qed.
  Lemma tidy_both P P' pr pr' w w' o l l' eid fid : tidy P pr w (o :: l) eid fid -> tidy P' pr' w' (o :: l') eid fid -> same_chart eid fid w w' ->
    same_chart eid fid (fst (step pr w o)) (fst (step pr' w' o)).
  Proof.
    intros Ht Ht' [S1 S2]. destruct (tidy_next _ _ _ _ _ _ _ Ht) as (e & fs & He & Hf & _ & F1 & F2).
    destruct (tidy_next _ _ _ _ _ _ _ Ht') as (e' & fs' & He' & Hf' & _ & F1' & F2'). unfold same_chart.
    assert (fs' = fs) as -> by congruence. rewrite He, He' in S2. apply (inj Some) in S2.
    rewrite F1, F1', F2, F2', (next_fs_market eid fid e e' fs o S2), (next_market_market eid e e' o S2). auto.
  Qed.
  Lemma same_chart_trans eid fid w1 w2 w3 : same_chart eid fid w1 w2 -> same_chart eid fid w2 w3 -> same_chart eid fid w1 w3.
  Proof. intros [A1 A2] [B1 B2]. split; congruence. Qed.
  Lemma same_chart_sym eid fid w1 w2 : same_chart eid fid w1 w2 -> same_chart eid fid w2 w1.
  Proof. intros [A1 A2]. split; congruence. Qed.
  Lemma run_own P P' pr pr' eid fid l l' w w' : tidy P pr w l eid fid -> tidy P' pr' w' l' eid fid -> same_chart eid fid w w' ->
    List.filter (concerns eid fid) l = List.filter (concerns eid fid) l' -> same_chart eid fid (run pr w l) (run pr' w' l').
  Proof.
    revert l' w w'. induction l as [|o l IH]; intros l' w w' T T' S Hl.
    - clear T. revert w' T' S. induction l' as [|o l' IH']; intros w' T' S; [auto|]. rewrite run_cons. simpl in Hl. destruct (concerns eid fid o) eqn:Ho; [discriminate Hl|].
      destruct (tidy_skip _ _ _ _ _ _ _ T' Ho) as [X Y]. apply IH'; [exact Hl|exact X|]. eapply same_chart_trans; [exact S|]. now apply same_chart_sym.
    - simpl in Hl. destruct (concerns eid fid o) eqn:Ho.
      + revert w' T' S. induction l' as [|o' l' IH']; intros w' T' S; [discriminate Hl|]. simpl in Hl. rewrite (run_cons pr' w' o' l'). destruct (concerns eid fid o') eqn:Ho'.
        * injection Hl as <- Hl. pose proof (tidy_both _ _ _ _ _ _ _ _ _ _ _ T T' S) as X. destruct (tidy_next _ _ _ _ _ _ _ T) as (e & fs & _ & _ & T1 & _).
          destruct (tidy_next _ _ _ _ _ _ _ T') as (e' & fs' & _ & _ & T2 & _). rewrite run_cons. now apply IH.
        * destruct (tidy_skip _ _ _ _ _ _ _ T' Ho') as [X Y]. apply IH'; [exact Hl|exact X|]. eapply same_chart_trans; [exact S|]. now apply same_chart_sym.
      + rewrite run_cons. destruct (tidy_skip _ _ _ _ _ _ _ T Ho) as [X Y]. apply IH; [exact X|exact T'| |exact Hl]. eapply same_chart_trans; eauto.
  Qed.
  Lemma run_own_spec P P' pr pr' eid fid l l' w w' : reach P w -> programs_ok P pr -> Forall (op_ok P) l -> clean pr w l -> Forall (not_attaching fid) l -> attached_only w fid eid ->
    reach P' w' -> programs_ok P' pr' -> Forall (op_ok P') l' -> clean pr' w' l' -> Forall (not_attaching fid) l' -> attached_only w' fid eid ->
    same_chart eid fid w w' -> List.filter (concerns eid fid) l = List.filter (concerns eid fid) l' -> same_chart eid fid (run pr w l) (run pr' w' l').
  Proof. intros. apply (run_own P P'); auto; constructor; auto. Qed.
End proofs.
