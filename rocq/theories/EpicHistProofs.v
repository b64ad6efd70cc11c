(** Failed calls, history of a frame set, dates of trades. *)
From Verif Require Export EpicFinalProofs.
From Verif Require Import FramesProofs.
Open Scope Z_scope.

Section proofs.
  Context {F : Type} `{Num F}.
  Implicit Types (w : world F) (t : trade F) (e : epic F) (s : strategy) (fs : fset F).

  (** ** C49: failed calls *)
  Lemma net_never_fails pid tid ref w l : wfw w -> is_Some (w_trades w !! tid) -> (forall i, i ∈ l -> is_Some (w_trades w !! i)) ->
    exists w', forM (net_step pid tid ref) w l = (w', Ok ()).
  Proof.
    intros W Ht Hl. revert w W Ht Hl. induction l as [|oid l IH]; intros w W [t Ht] Hl; [eexists; reflexivity|]. cbn [forM].
    pose proof (keeps_net_step pid tid ref w oid) as K. destruct (Hl oid) as [o Ho]; [left|].
    assert (exists w1, net_step pid tid ref w oid = (w1, Ok ())) as [w1 E1].
    { unfold net_step. rewrite Ht, Ho. destruct (dir_eqb _ _); [|eauto]. destruct (bool_decide _); [|eauto]. cbv zeta. destruct (wf_trade _ W _ _ Ho) as [(e & He) _].
      destruct (close_from_epic_ok w oid (Some (Z.min (opened_quantities o) (tr_oq t))) ref o e Ho He) as (t' & c & _ & ->). eauto. }
    rewrite E1 in *. simpl in K. apply IH.
    - eapply wfw_keeps; eauto.
    - destruct (keeps_t _ _ _ _ K Ht) as (t' & -> & _). eauto.
    - intros i Hi. destruct (Hl i) as [x Hx]; [now right|]. destruct (keeps_t _ _ _ _ K Hx) as (x' & -> & _). eauto.
  Qed.
  Lemma open_succeeds w eid e d q (sid : option nat) ref : wfw w -> w_epics w !! eid = Some e -> valid_id (w_strats w) sid = true ->
    exists w', epic_open_trade w eid (Dir d) q sid ref = (w', Ok (length (w_trades w))).
  Proof.
    intros W He Hv. unfold epic_open_trade. rewrite He, Hv.
    destruct (open_from_tick (ep_last e) eid (Dir d) q sid ref) as [t|y] eqn:Eo; [|destruct d; discriminate]. cbv zeta.
    destruct (open_fields _ _ _ _ _ _ _ Eo) as (d' & _ & E1 & E2 & _). set (w0 := upd_trades w (w_trades w ++ [t])).
    assert (wfw w0) as W0.
    { apply wfw_append; auto; rewrite ?E1, ?E2; eauto. intros k ->. simpl in Hv. apply bool_decide_eq_true in Hv. now apply lookup_lt_is_Some_2. }
    assert (w_trades w0 !! length (w_trades w) = Some t) as Ht by (subst w0; simpl; now rewrite lookup_app_r, Nat.sub_diag by lia).
    destruct (wf_epic _ W _ _ He) as ((p & Hp) & _).
    assert (exists w1, provider_open_trade w0 (ep_prov e) (length (w_trades w)) ref = (w1, Ok ())) as [w1 ->]; [|eauto].
    unfold provider_open_trade. change (w_provs w0) with (w_provs w). rewrite Hp. destruct (pv_kind p); eauto. unfold backtest_open_trade. change (w_provs w0) with (w_provs w). rewrite Hp.
    destruct (net_never_fails (ep_prov e) (length (w_trades w)) ref w0 (opened_trades w0 p) W0) as [w1 E].
    - eauto.
    - intros i Hi. apply opened_trades_elem in Hi as [_ (ti & Hti & _)]. eauto.
    - rewrite E. pose proof (keeps_net (ep_prov e) (length (w_trades w)) ref w0 (opened_trades w0 p)) as K. rewrite E in K. cbn [fst] in K. destruct (keeps_t _ _ _ _ K Ht) as (t' & -> & _). destruct (tr_oq t' <=? 0); eauto.
  Qed.
  Lemma open_fails w eid d q (sid : option nat) ref w' x : wfw w -> epic_open_trade w eid d q sid ref = (w', Err x) -> w' = w.
  Proof.
    intros W. destruct (w_epics w !! eid) as [e|] eqn:He; [|unfold epic_open_trade; rewrite He; congruence]. destruct (valid_id (w_strats w) sid) eqn:Hv; [|unfold epic_open_trade; rewrite He, Hv; congruence].
    destruct d as [d|]; [|unfold epic_open_trade; rewrite He, Hv; simpl; congruence]. destruct (open_succeeds w eid e d q sid ref W He Hv) as [w1 ->]. discriminate.
  Qed.
  Lemma close_all_never_fails w sid s q ref : wfw w -> w_strats w !! sid = Some s -> exists w', close_opened_trades w sid q ref = (w', Ok ()).
  Proof.
    intros W Hs. unfold close_opened_trades. rewrite Hs. generalize (reverse (st_trades s)). clear Hs. intros l. revert w W. induction l as [|i l IH]; intros w W; [eexists; reflexivity|]. cbn [forM].
    assert (exists w1, close_opened_step q ref w i = (w1, Ok ()) /\ keeps w w1) as (w1 & -> & K).
    { unfold close_opened_step, trade_open_b. destruct (w_trades w !! i) as [t|] eqn:Ht; [|eexists; split; [reflexivity|reflexivity]]. destruct (negb (closed t)); [|eexists; split; [reflexivity|reflexivity]].
      pose proof (keeps_strategy_close w i q ref) as K. unfold strategy_close_trade in *. rewrite Ht in *. unfold epic_close_trade in *. destruct (wf_trade _ W _ _ Ht) as [(e & He) _]. rewrite He in *.
      destruct (close_from_epic_ok w i q ref t e Ht He) as (t' & c & _ & E). rewrite E in *. eexists. split; [reflexivity|exact K]. }
    apply IH. eapply wfw_keeps; eauto.
  Qed.
  Lemma cmd_fails P w c w' x : reach P w -> run_cmd w c = (w', Err x) -> w' = w.
  Proof.
    intros Hr. pose proof (reach_wf _ _ Hr) as W. destruct c as [e d q s ref|t q ref|e t q ref|s q ref|t v|t|t v d q ref|t q ref|s u|s b|p k]; cbn [run_cmd]; try congruence.
    - destruct (epic_open_trade w e d q s ref) as [w1 [i|y]] eqn:E; cbn [rmap]; [discriminate|]. intros [= <- _]. eapply open_fails; eauto.
    - unfold strategy_close_trade, epic_close_trade. destruct (w_trades w !! t); [|congruence]. destruct (w_epics w !! _); [|congruence]. destruct (close_from_epic _ _ _ _) as [[w1 ci]|]; congruence.
    - unfold epic_close_trade. destruct (w_epics w !! _); [|congruence]. destruct (close_from_epic _ _ _ _) as [[w1 ci]|]; congruence.
    - destruct (w_strats w !! s) as [s0|] eqn:Hs; [|unfold close_opened_trades; rewrite Hs; congruence]. destruct (close_all_never_fails w s s0 q ref W Hs) as [w1 ->]. discriminate.
    - destruct (w_trades w !! t) as [y|]; [|congruence]. destruct (w_epics w !! _); congruence.
    - destruct (w_trades w !! t) as [y|]; [|congruence]. destruct (close y v d q ref) as [[x' c]|]; congruence.
    - destruct (close_from_epic w t q ref) as [[w1 ci]|]; congruence.
  Qed.
  Lemma op_fails P pr w (o : op F) w' x : reach P w -> match o with OTick _ _ | OAddIndicator _ _ => False | _ => True end -> step pr w o = (w', Err x) -> w' = w.
  Proof.
    intros Hr Ho. destruct o as [k|ref|u q ref m|ref tz op cl ds hs p|a f|a s|f i|a tk|c]; try (exfalso; exact Ho); cbn [step]; try congruence.
    - destruct (fset_init u q ref m); congruence.
    - unfold new_epic. destruct tz as [z|]; [|congruence]. destruct (valid_id _ _); [|congruence]. destruct p; discriminate.
    - unfold add_frame_set. destruct (w_epics w !! a); [|congruence]. destruct (w_fsets w !! f); [|congruence]. destruct (dict_get _ _); [congruence|discriminate].
    - unfold add_strategy. destruct (w_epics w !! a); [|congruence]. destruct (w_strats w !! s); [|congruence]. destruct (dict_get _ _); [congruence|discriminate].
    - intros E. eapply cmd_fails; eauto.
  Qed.
  (** Which openings and closes fail. *)
  Lemma open_fails_iff (P : cmd F -> Prop) w eid e d q (sid : option nat) ref : reach P w -> w_epics w !! eid = Some e -> valid_id (w_strats w) sid = true ->
    ((exists x, snd (run_cmd w (COpen eid d q sid ref)) = Err x) <-> d = BadDir).
  Proof.
    intros Hr He Hv. cbn [run_cmd]. destruct d as [d|].
    - destruct (open_succeeds w eid e d q sid ref (reach_wf _ _ Hr) He Hv) as [w1 ->]. simpl. split; [intros [x E]; discriminate|discriminate].
    - unfold epic_open_trade. rewrite He, Hv. simpl. split; eauto.
  Qed.
  Lemma close_all_ok P w sid s q ref : reach P w -> w_strats w !! sid = Some s -> snd (run_cmd w (CCloseAll sid q ref)) = Ok ().
  Proof. intros Hr Hs. cbn [run_cmd]. destruct (close_all_never_fails w sid s q ref (reach_wf _ _ Hr) Hs) as [w' ->]. reflexivity. Qed.
  Lemma close_ok P w i t q ref : reach P w -> w_trades w !! i = Some t -> snd (run_cmd w (CClose i q ref)) = Ok () /\ snd (run_cmd w (CTradeCloseEpic i q ref)) = Ok ().
  Proof.
    intros Hr Ht. destruct (wf_trade _ (reach_wf _ _ Hr) _ _ Ht) as [(e & He) _]. cbn [run_cmd]. unfold strategy_close_trade, epic_close_trade. rewrite Ht, He.
    destruct (close_from_epic_ok w i q ref t e Ht He) as (t' & c & _ & ->). auto.
  Qed.

  (** ** History of a frame set attached to one epic *)
  Lemma fset_once tk w l fid fs k : NoDup (map fst l) -> (forall k1 k2, (k1, fid) ∈ l -> (k2, fid) ∈ l -> k1 = k2) -> (k, fid) ∈ l -> w_fsets w !! fid = Some fs ->
    let '(w', r) := forM (update_frame_set tk) w l in r = Ok () ->
    exists fs', fs_on_new_tick (gap_fuel fs tk) fs tk (fst (fs_epic_state w fs)) (snd (fs_epic_state w fs)) = (fs', Ok ()) /\ w_fsets w' !! fid = Some fs'.
  Proof.
    revert w. induction l as [|[a i] l IH]; intros w Hn Hu Hi Hf; [now apply elem_of_nil in Hi|]. cbn [map fst] in Hn. apply NoDup_cons in Hn as [Hn1 Hn2]. cbn [forM].
    destruct (decide (i = fid)) as [->|Hne].
    - assert (forall x, x ∈ l -> x.2 <> fid) as Hno.
      { intros [k1 j] Hx E. simpl in E. subst j. assert (a = k1) as -> by (apply Hu; [left|now right]). elim Hn1. apply elem_of_list_fmap. now exists (k1, fid). }
      unfold update_frame_set at 1. cbn [snd]. rewrite Hf. destruct (fs_epic_state w fs) as [mo lst]. cbn [fst snd]. destruct (fs_on_new_tick (gap_fuel fs tk) fs tk mo lst) as [fs' [[]|x]] eqn:E; [|discriminate].
      pose proof (fsets_other tk l (upd_fsets w (<[fid:=fs']> (w_fsets w))) fid Hno) as Ho. destruct (forM _ _ l) as [w' r]. cbn [fst] in Ho. intros _. exists fs'. split; [auto|]. rewrite Ho. simpl.
      apply list_lookup_insert. eapply lookup_lt_Some; eauto.
    - apply elem_of_cons in Hi as [Hi|Hi]; [congruence|]. pose proof (fsets_rest tk [(a, i)] w) as (_ & Ee & _). pose proof (fsets_other tk [(a, i)] w fid) as Ho. cbn [forM] in Ee, Ho.
      destruct (update_frame_set tk w (a, i)) as [w1 [[]|x]] eqn:E; [|discriminate]. cbn [fst] in Ee, Ho.
      assert (fs_epic_state w1 fs = fs_epic_state w fs) as Es by (unfold fs_epic_state; now rewrite Ee). rewrite <- Es.
      apply IH; auto; [intros k1 k2 H1 H2; apply Hu; now right|]. rewrite Ho; [auto|]. intros x Hx. apply elem_of_list_singleton in Hx as ->. auto.
  Qed.
  (** The frame sets of the epic raise nothing on the tick. *)
  Definition frames_ok w (o : op F) : Prop :=
    match o with
    | OTick a tk => forall e, w_epics w !! a = Some e -> ~ refused e tk ->
        snd (forM (update_frame_set (tick_to (ep_tz e) tk)) (upd_epics w (<[a := accepted_epic e tk]> (w_epics w))) (ep_fsets e)) = Ok ()
    | _ => True
    end.
  Fixpoint frames_fine pr w (l : list (op F)) : Prop := match l with [] => True | o :: l' => frames_ok w o /\ frames_fine pr (fst (step pr w o)) l' end.
  Lemma tick_fset_fine P pr w eid e tk fid fs k : reach P w -> w_epics w !! eid = Some e -> ~ refused e tk -> frames_ok w (OTick eid tk) ->
    (k, fid) ∈ ep_fsets e -> w_fsets w !! fid = Some fs -> fs_epic fs = Some eid -> let tk' := tick_to (ep_tz e) tk in
    exists fs', fs_on_new_tick (gap_fuel fs tk') fs tk' (is_market_open e tk') (Some (tk_dt tk')) = (fs', Ok ()) /\
      w_fsets (fst (epic_on_new_tick pr w eid tk)) !! fid = Some fs'.
  Proof.
    intros Hr He Hn Hok Hk Hf Hfe. cbv zeta. specialize (Hok e He Hn). revert Hok. unfold epic_on_new_tick. rewrite He. cbv zeta. destruct (arrow_ltb _ _) eqn:Ea; [now elim Hn|].
    change (ep_set_last e (tick_to (ep_tz e) tk) (is_market_open e (tick_to (ep_tz e) tk))) with (accepted_epic e tk). set (w1 := upd_epics w _).
    destruct (reach_refs P w eid e Hr He) as (_ & _ & R1 & R2).
    pose proof (fset_once (tick_to (ep_tz e) tk) w1 (ep_fsets e) fid fs k R2) as Ho. change (ep_fsets (accepted_epic e tk)) with (ep_fsets e).
    destruct (forM (update_frame_set _) w1 (ep_fsets e)) as [w2 [[]|er]]; cbn [andthen snd]; [|discriminate]. intros _.
    destruct Ho as (fs' & E1 & E2); auto.
    { intros k1 k2 H1 H2. destruct (R1 _ _ H1) as (f1 & F1 & F2). destruct (R1 _ _ H2) as (f2 & F3 & F4). congruence. }
    assert (fs_epic_state w1 fs = (is_market_open e (tick_to (ep_tz e) tk), Some (tk_dt (tick_to (ep_tz e) tk)))) as Es.
    { unfold fs_epic_state. rewrite Hfe. subst w1. cbn [w_epics upd_epics]. rewrite list_lookup_insert by (eapply lookup_lt_Some; eauto). reflexivity. }
    rewrite Es in E1. cbn [fst snd] in E1. exists fs'. split; [auto|]. rewrite (proj1 (execute_fsets _ _ _ _ _)).
    destruct (value_rest w2 (ep_prov (accepted_epic e tk)) (tick_to (ep_tz e) tk)) as (_ & _ & _ & V). now rewrite V.
  Qed.
  Lemma tick_frames_ok pr w eid tk : snd (epic_on_new_tick pr w eid tk) = Ok () -> frames_ok w (OTick eid tk).
  Proof.
    intros Hok e He Hn. revert Hok. unfold epic_on_new_tick. rewrite He. cbv zeta. destruct (arrow_ltb _ _) eqn:Ea; [now elim Hn|].
    change (ep_set_last e (tick_to (ep_tz e) tk) (is_market_open e (tick_to (ep_tz e) tk))) with (accepted_epic e tk). change (ep_fsets (accepted_epic e tk)) with (ep_fsets e).
    destruct (forM (update_frame_set _) _ (ep_fsets e)) as [w2 [[]|er]]; cbn [andthen snd]; [auto|discriminate].
  Qed.
  Lemma clean_frames pr l : forall w, clean pr w l -> frames_fine pr w l.
  Proof.
    induction l as [|o l IH]; intros w; [auto|]. intros [Ho Hl]. split; [|now apply IH]. destruct o as [| | | | | | |a tk|]; try exact Logic.I. destruct Ho as [Ho|Ho]; [now apply tick_frames_ok in Ho|].
    intros e He Hn. elim Hn. now apply Ho.
  Qed.
  Lemma tick_fset P pr w eid e tk fid fs k : reach P w -> w_epics w !! eid = Some e -> ~ refused e tk -> snd (epic_on_new_tick pr w eid tk) = Ok () ->
    (k, fid) ∈ ep_fsets e -> w_fsets w !! fid = Some fs -> fs_epic fs = Some eid -> let tk' := tick_to (ep_tz e) tk in
    exists fs', fs_on_new_tick (gap_fuel fs tk') fs tk' (is_market_open e tk') (Some (tk_dt tk')) = (fs', Ok ()) /\
      w_fsets (fst (epic_on_new_tick pr w eid tk)) !! fid = Some fs'.
  Proof. intros Hr He Hn Hok. apply (tick_fset_fine P); auto. now apply tick_frames_ok in Hok. Qed.
  Lemma accepts_none w (o : op F) eid : (forall tk, o <> OTick eid tk) -> accepts w o eid = [].
  Proof. intros Ho. unfold accepts. destruct o as [| | | | | | |a tk|]; auto. destruct (decide (a = eid)) as [->|]; [|auto]. now elim (Ho tk). Qed.

  (** Epics of the next state keep their frame sets, except the one to which another frame set is attached. *)
  Lemma step_attached_back pr w (o : op F) fid a b' k1 : not_attaching fid o -> w_epics (fst (step pr w o)) !! a = Some b' -> (k1, fid) ∈ ep_fsets b' ->
    exists b, w_epics w !! a = Some b /\ (k1, fid) ∈ ep_fsets b.
  Proof.
    intros Hna. revert a b' k1. intros a b' k1 Hb' Hk1. destruct (w_epics w !! a) as [b|] eqn:Eb.
      - exists b. split; [auto|]. destruct (step_epic pr w o a b Eb) as (b1 & B1 & B2 & B3). assert (b1 = b') as -> by congruence.
        destruct B3 as [_|(tk & -> & _ & ->)]; [|exact Hk1].
        destruct o as [k0|ref|u0 q0 ref m|ref tz op cl ds hs p|a0 f|a0 s|f i|a0 tk|c]; cbn [step fst] in Hb'; try (assert (b' = b) as -> by (cbn [w_epics upd_provs upd_strats] in Hb'; congruence); exact Hk1).
        + destruct (fset_init u0 q0 ref m); assert (b' = b) as -> by (cbn [fst w_epics upd_fsets] in Hb'; congruence); exact Hk1.
        + unfold new_epic in Hb'. destruct tz as [z|]; [|cbn [fst] in Hb'; congruence]. destruct (valid_id _ _); [|cbn [fst] in Hb'; congruence].
          destruct p; cbn [fst w_epics upd_epics upd_provs] in Hb'; rewrite (lookup_app_l_Some _ _ _ _ Eb) in Hb'; congruence.
        + unfold add_frame_set in Hb'. destruct (w_epics w !! a0) as [ea|] eqn:Ea; [|cbn [fst] in Hb'; congruence]. destruct (w_fsets w !! f) as [ff|] eqn:Ef; [|cbn [fst] in Hb'; congruence].
          destruct (dict_get _ _) eqn:Eg; [cbn [fst] in Hb'; congruence|]. cbn [fst w_epics upd_epics] in Hb'. apply insert_lookup_inv in Hb' as [(-> & -> & _)|[Hb' _]]; [|congruence].
          assert (ea = b) as -> by congruence. cbn [ep_fsets ep_set_fsets] in Hk1. apply dict_set_elem in Hk1 as [Hk1|Hk1]; [auto|]. injection Hk1 as _ Hk1. simpl in Hna. congruence.
        + unfold add_strategy in Hb'. destruct (w_epics w !! a0) as [ea|] eqn:Ea; [|cbn [fst] in Hb'; congruence]. destruct (w_strats w !! s) as [ff|] eqn:Ef; [|cbn [fst] in Hb'; congruence].
          destruct (dict_get _ _) eqn:Eg; [cbn [fst] in Hb'; congruence|]. cbn [fst w_epics upd_epics upd_strats] in Hb'. apply insert_lookup_inv in Hb' as [(-> & -> & _)|[Hb' _]]; [|congruence].
          assert (ea = b) as -> by congruence. exact Hk1.
        + destruct (w_fsets w !! f) as [ff|]; [|cbn [fst] in Hb'; congruence]. destruct (add_indicator ff i). cbn [fst w_epics upd_fsets] in Hb'. congruence.
        + destruct (w_epics w !! a0) as [ea|] eqn:Ea; [|unfold epic_on_new_tick in Hb'; rewrite Ea in Hb'; cbn [fst] in Hb'; congruence].
          destruct (refused_dec ea tk) as [Hre|Hre]; [rewrite (tick_refused _ _ _ _ _ Ea Hre) in Hb'; cbn [fst] in Hb'; congruence|].
          rewrite (tick_epics _ _ _ _ _ Ea Hre) in Hb'. apply insert_lookup_inv in Hb' as [(-> & -> & _)|[Hb' _]]; [|congruence]. assert (ea = b) as -> by congruence. exact Hk1.
        + pose proof (cmd_rest w c) as E. injection E as E _ _. rewrite E in Hb'. congruence.
      - exfalso. assert (setup o \/ (exists a tk, o = OTick a tk) \/ exists c, o = OCmd c) as [Ho|[(a0 & tk & ->)|(c & ->)]] by (destruct o; simpl; eauto).
        + destruct o as [k0|ref|u0 q0 ref m|ref tz op cl ds hs p|a0 f|a0 s|f i|a0 tk|c]; try (exfalso; exact Ho); cbn [step fst] in Hb'; try (cbn [w_epics upd_provs upd_strats] in Hb'; congruence).
          * destruct (fset_init u0 q0 ref m); cbn [fst w_epics upd_fsets] in Hb'; congruence.
          * unfold new_epic in Hb'. destruct tz as [z|]; [|cbn [fst] in Hb'; congruence]. destruct (valid_id _ _); [|cbn [fst] in Hb'; congruence].
            destruct p; cbn [fst w_epics upd_epics upd_provs] in Hb'; (rewrite lookup_app_r in Hb' by now apply lookup_ge_None); apply list_lookup_singleton_Some in Hb' as [_ <-]; now apply elem_of_nil in Hk1.
          * unfold add_frame_set in Hb'. destruct (w_epics w !! a0) as [ea|] eqn:Ea; [|cbn [fst] in Hb'; congruence]. destruct (w_fsets w !! f) as [ff|] eqn:Ef; [|cbn [fst] in Hb'; congruence].
            destruct (dict_get _ _) eqn:Eg; [cbn [fst] in Hb'; congruence|]. cbn [fst w_epics upd_epics] in Hb'. apply insert_lookup_inv in Hb' as [(-> & -> & _)|[Hb' _]]; congruence.
          * unfold add_strategy in Hb'. destruct (w_epics w !! a0) as [ea|] eqn:Ea; [|cbn [fst] in Hb'; congruence]. destruct (w_strats w !! s) as [ff|] eqn:Ef; [|cbn [fst] in Hb'; congruence].
            destruct (dict_get _ _) eqn:Eg; [cbn [fst] in Hb'; congruence|]. cbn [fst w_epics upd_epics upd_strats] in Hb'. apply insert_lookup_inv in Hb' as [(-> & -> & _)|[Hb' _]]; congruence.
          * destruct (w_fsets w !! f) as [ff|]; [|cbn [fst] in Hb'; congruence]. destruct (add_indicator ff i). cbn [fst w_epics upd_fsets] in Hb'. congruence.
        + cbn [step] in Hb'. destruct (w_epics w !! a0) as [ea|] eqn:Ea; [|unfold epic_on_new_tick in Hb'; rewrite Ea in Hb'; cbn [fst] in Hb'; congruence].
          destruct (refused_dec ea tk) as [Hre|Hre]; [rewrite (tick_refused _ _ _ _ _ Ea Hre) in Hb'; cbn [fst] in Hb'; congruence|].
          rewrite (tick_epics _ _ _ _ _ Ea Hre) in Hb'. apply insert_lookup_inv in Hb' as [(-> & -> & _)|[Hb' _]]; congruence.
        + cbn [step] in Hb'. pose proof (cmd_rest w c) as E. injection E as E _ _. rewrite E in Hb'. congruence.
  Qed.
  (** An operation other than a tick keeps the epic's attachments of [fid]. *)
  Section fset_hist.
  (** A predicate of frame sets and the ticks they received, when ticks come with the market flag [M]. *)
  Context (R : list (tick F) -> fset F -> Prop) (I : indicator F -> Prop) (M : tick F -> bool).
  Context (R_ind : forall ts fs i, I i -> R ts fs -> R ts (fst (add_indicator fs i))).
  Context (R_tick : forall ts fs tk fs', R ts fs -> fs_on_new_tick (gap_fuel fs tk) fs tk (M tk) (Some (tk_dt tk)) = (fs', Ok ()) -> R (ts ++ [tk]) fs').
  Definition adds_only (fid : nat) (o : op F) : Prop := forall i, o = OAddIndicator fid i -> I i.
  Lemma step_fset_rel P pr w (o : op F) eid e fid fs ts : reach P w -> frames_ok w o -> not_attaching fid o -> adds_only fid o -> w_epics w !! eid = Some e ->
    (forall tk, is_market_open e tk = M tk) -> attached_only w fid eid -> w_fsets w !! fid = Some fs -> R ts fs ->
    exists fs', w_fsets (fst (step pr w o)) !! fid = Some fs' /\ R (ts ++ accepts w o eid) fs' /\ attached_only (fst (step pr w o)) fid eid.
  Proof.
    intros Hr Hcl Hna Hadd He HM ((e0 & k & He0 & Hk) & (fs0 & Hf0 & Hfe) & Hat) Hf Hrun. assert (e0 = e) as -> by congruence. assert (fs0 = fs) as -> by congruence.
    pose proof (fun a b' k1 => step_attached_back pr w o fid a b' k1 Hna) as Hback.
    cut (exists fs', w_fsets (fst (step pr w o)) !! fid = Some fs' /\ R (ts ++ accepts w o eid) fs' /\ fs_epic fs' = Some eid).
    { intros (fs' & F1 & F2 & F3). exists fs'. split; [auto|]. split; [auto|]. split; [|split; [eauto|]].
      - destruct (step_epic pr w o eid e He) as (e1 & E1 & (_ & _ & _ & _ & _ & _ & _ & [z Kz] & _) & _). exists e1, k. split; [auto|]. rewrite Kz. apply elem_of_app. now left.
      - intros a b' k1 Hb' Hk1. destruct (Hback a b' k1 Hb' Hk1) as (b & Hb & Hkb). eapply Hat; eauto. }
    assert (setup o \/ (exists a tk, o = OTick a tk) \/ exists c, o = OCmd c) as [Ho|[(a0 & tk & ->)|(c & ->)]] by (destruct o; simpl; eauto).
    - rewrite accepts_none by (intros tk ->; exact Ho). rewrite app_nil_r.
      destruct o as [k0|ref|u0 q0 ref m|ref tz op cl ds hs p|a0 f|a0 s|f i|a0 tk|c]; try (exfalso; exact Ho); cbn [step fst]; try (exists fs; auto; fail).
      + destruct (fset_init u0 q0 ref m); exists fs; [|auto]. cbn [fst w_fsets upd_fsets]. now rewrite (lookup_app_l_Some _ _ _ _ Hf).
      + exists fs. unfold new_epic. destruct tz as [z|]; [|auto]. destruct (valid_id _ _); [|auto]. destruct p; auto.
      + simpl in Hna. exists fs. unfold add_frame_set. destruct (w_epics w !! a0); [|auto]. destruct (w_fsets w !! f); [|auto]. destruct (dict_get _ _); [auto|]. cbn [fst w_fsets upd_fsets upd_epics]. rewrite list_lookup_insert_ne by auto. auto.
      + exists fs. unfold add_strategy. destruct (w_epics w !! a0); [|auto]. destruct (w_strats w !! s); [|auto]. destruct (dict_get _ _); auto.
      + destruct (w_fsets w !! f) as [ff|] eqn:Ef; [|exists fs; auto]. destruct (add_indicator ff i) as [ff' r] eqn:Ei. cbn [fst w_fsets upd_fsets]. destruct (decide (fid = f)) as [->|Hne].
        * assert (ff = fs) as -> by congruence. exists ff'. split; [apply list_lookup_insert; eapply lookup_lt_Some; eauto|]. pose proof (R_ind _ _ i (Hadd i eq_refl) Hrun) as Hi. rewrite Ei in Hi. split; [exact Hi|].
          assert (fs_epic (fst (add_indicator fs i)) = fs_epic fs) as E by (unfold add_indicator; now destruct (in_kind i)). rewrite Ei in E. simpl in E. congruence.
        * exists fs. rewrite list_lookup_insert_ne by auto. auto.
    - cbn [step]. destruct (w_epics w !! a0) as [ea|] eqn:Ea.
      2:{ exists fs. unfold epic_on_new_tick. rewrite Ea. rewrite accepts_none by (intros tk' [= -> _]; congruence). rewrite app_nil_r. auto. }
      destruct (refused_dec ea tk) as [Hre|Hre].
      { exists fs. rewrite (tick_refused _ _ _ _ _ Ea Hre). unfold accepts. destruct (decide (a0 = eid)) as [->|]; [rewrite Ea, decide_True by auto|]; rewrite app_nil_r; auto. }
      unfold accepts. destruct (decide (a0 = eid)) as [->|Hne].
      + assert (ea = e) as -> by congruence. rewrite Ea, decide_False by auto. destruct (tick_fset_fine P pr w eid e tk fid fs k Hr Ea Hre Hcl Hk Hf Hfe) as (fs' & F1 & F2). exists fs'. split; [auto|]. split.
        * rewrite HM in F1. eapply R_tick; eauto.
        * pose proof (fs_tick_conf (gap_fuel fs (tick_to (ep_tz e) tk)) fs (tick_to (ep_tz e) tk) (is_market_open e (tick_to (ep_tz e) tk)) (Some (tk_dt (tick_to (ep_tz e) tk)))) as C. rewrite F1 in C. destruct C as (_ & _ & _ & _ & C & _). simpl in C. congruence.
      + exists fs. rewrite app_nil_r. split; [|auto]. rewrite (tick_other_fset pr w a0 ea tk fid Ea); [auto|]. intros k1 Hk1. elim Hne. eapply Hat; eauto.
    - cbn [step]. pose proof (cmd_rest w c) as E. injection E as _ E _. exists fs. rewrite E. rewrite accepts_none by discriminate. rewrite app_nil_r. auto.
  Qed.
  Lemma run_fset_rel (P : cmd F -> Prop) pr l : forall w eid e fid fs ts, reach P w -> programs_ok P pr -> Forall (op_ok P) l -> frames_fine pr w l -> Forall (not_attaching fid) l ->
    Forall (adds_only fid) l -> w_epics w !! eid = Some e -> (forall tk, is_market_open e tk = M tk) -> attached_only w fid eid -> w_fsets w !! fid = Some fs -> R ts fs ->
    exists fs', w_fsets (run pr w l) !! fid = Some fs' /\ R (ts ++ accepted pr w l eid) fs'.
  Proof.
    induction l as [|o l IH]; intros w eid e fid fs ts Hr Hp Hl Hcl Hna Had He HM Hat Hf Hrun.
    - exists fs. simpl. rewrite app_nil_r. auto.
    - apply Forall_cons in Hl as [Ho Hl]. apply Forall_cons in Hna as [Hn1 Hna]. apply Forall_cons in Had as [Ha1 Had]. destruct Hcl as [Hc1 Hc2].
      destruct (step_fset_rel P pr w o eid e fid fs ts Hr Hc1 Hn1 Ha1 He HM Hat Hf Hrun) as (fs1 & F1 & F2 & F3). destruct (step_epic pr w o eid e He) as (e1 & E1 & K1 & _).
      assert (forall tk, is_market_open e1 tk = M tk) as HM1.
      { intros tk. rewrite <- HM. destruct K1 as (_ & _ & K3 & K4 & K5 & K6 & _). unfold is_market_open, in_market_hours. now rewrite K3, K4, K5, K6. }
      destruct (IH (fst (step pr w o)) eid e1 fid fs1 (ts ++ accepts w o eid)) as (fs' & G1 & G2); auto; [now apply step_reach|]. exists fs'. cbn [run fold_left accepted]. split; [exact G1|]. now rewrite app_assoc.
  Qed.
  End fset_hist.
  Lemma run_fset (P : cmd F -> Prop) pr l : forall w eid e fid fs u q mx ts, reach P w -> programs_ok P pr -> Forall (op_ok P) l -> frames_fine pr w l -> Forall (not_attaching fid) l ->
    w_epics w !! eid = Some e -> attached_only w fid eid -> w_fsets w !! fid = Some fs -> fs_run_epic u q mx ts fs ->
    exists fs', w_fsets (run pr w l) !! fid = Some fs' /\ fs_run_epic u q mx (ts ++ accepted pr w l eid) fs'.
  Proof.
    intros w eid e fid fs u q mx ts Hr Hp Hl Hcl Hna He Hat Hf Hrun. apply (run_fset_rel (fs_run_epic u q mx) (fun _ => True) (is_market_open e)) with (P := P) (e := e) (fs := fs); auto.
    - intros. now apply rep_indicator.
    - intros. econstructor; eauto.
    - apply Forall_forall. intros o _ i _. exact Logic.I.
  Qed.
  Lemma run_fset_clean (P : cmd F -> Prop) pr l : forall w eid e fid fs u q mx ts, reach P w -> programs_ok P pr -> Forall (op_ok P) l -> clean pr w l -> Forall (not_attaching fid) l ->
    w_epics w !! eid = Some e -> attached_only w fid eid -> w_fsets w !! fid = Some fs -> fs_run_epic u q mx ts fs ->
    exists fs', w_fsets (run pr w l) !! fid = Some fs' /\ fs_run_epic u q mx (ts ++ accepted pr w l eid) fs'.
  Proof. intros w eid e fid fs u q mx ts Hr Hp Hl Hcl. exact (run_fset P pr l w eid e fid fs u q mx ts Hr Hp Hl (clean_frames pr l w Hcl)). Qed.
  Lemma accepted_order pr l : forall w eid e, w_epics w !! eid = Some e -> has_ticked e ->
    in_order (ep_tz e) (accepted pr w l eid) /\ Forall (fun tk => ar_wall (tk_dt (ep_last e)) <= tk_wall tk) (accepted pr w l eid).
  Proof.
    induction l as [|o l IH]; intros w eid e He Ht; [split; [split; constructor|constructor]|]. cbn [accepted].
    destruct (step_forward pr w o eid e He Ht) as (e1 & E1 & T1 & Z1 & L1). destruct (IH _ _ _ E1 T1) as [[I1 I2] I3]. rewrite Z1 in I1.
    assert (Forall (fun tk => ar_wall (tk_dt (ep_last e)) <= tk_wall tk) (accepted pr (step pr w o).1 l eid)) as Hge by (eapply Forall_impl; [exact I3|]; simpl; intros; lia).
    destruct (accepts w o eid) as [|tk [|]] eqn:Ea; cbn [app]; [split; [split; auto|auto]| |].
    - destruct o as [| | | | | | |a tk0|]; try discriminate. unfold accepts in Ea. destruct (decide (a = eid)) as [->|]; [|discriminate]. rewrite He in Ea. destruct (decide (refused e tk0)) as [|Hn]; [discriminate|]. injection Ea as <-.
      cbn [step] in E1. rewrite (tick_epics _ _ _ _ _ He Hn) in E1. rewrite list_lookup_insert in E1 by (eapply lookup_lt_Some; eauto). injection E1 as <-.
      rewrite refused_wall in Hn by auto. split; [split|].
      + constructor; auto.
      + constructor; auto.
      + constructor; [unfold tk_wall; simpl; lia|auto].
    - destruct o as [| | | | | | |a tk0|]; try discriminate. unfold accepts in Ea. destruct (decide (a = eid)) as [->|]; [|discriminate]. rewrite He in Ea. destruct (decide (refused e tk0)); discriminate.
  Qed.
  Lemma accepted_order' pr l : forall w eid e, w_epics w !! eid = Some e -> in_order (ep_tz e) (accepted pr w l eid).
  Proof.
    induction l as [|o l IH]; intros w eid e He; [split; constructor|]. cbn [accepted]. destruct (step_epic pr w o eid e He) as (e1 & E1 & K1 & [(_ & _ & Hno)|(tk & -> & Hn & ->)]).
    - assert (accepts w o eid = []) as ->; [|cbn [app]; assert (ep_tz e1 = ep_tz e) as <- by apply K1; eapply IH; eauto].
      destruct o as [| | | | | | |a tk0|]; auto. unfold accepts. destruct (decide (a = eid)) as [->|]; [|auto]. rewrite He, decide_True by auto. auto.
    - assert (accepts w (OTick eid tk) eid = [tick_to (ep_tz e) tk]) as -> by (unfold accepts; rewrite decide_True by auto; now rewrite He, decide_False by auto).
      destruct (accepted_order pr l _ eid _ E1 (accepted_has_ticked e tk)) as [[I1 I2] I3]. cbn [app]. split; constructor; auto.
  Qed.
  (** ** Dates of trades *)
  Definition dates_ok w : Prop :=
    (forall i t e, w_trades w !! i = Some t -> w_epics w !! tr_epic t = Some e -> ar_tz (tr_dt t) = ep_tz e -> has_ticked e /\ ar_wall (tr_dt t) <= ar_wall (tk_dt (ep_last e))) /\
    (forall i j t u e, (i < j)%nat -> w_trades w !! i = Some t -> w_trades w !! j = Some u -> tr_epic t = tr_epic u -> w_epics w !! tr_epic t = Some e ->
       ar_tz (tr_dt t) = ep_tz e -> ar_tz (tr_dt u) = ep_tz e -> ar_wall (tr_dt t) <= ar_wall (tr_dt u)).
  Lemma dates_keeps w w' : wfw w -> dates_ok w -> (forall i t', w_trades w' !! i = Some t' -> exists t, w_trades w !! i = Some t /\ fixed t t') ->
    (forall eid e, w_epics w !! eid = Some e -> exists e', w_epics w' !! eid = Some e' /\ ep_tz e' = ep_tz e /\ (has_ticked e -> has_ticked e' /\ ar_wall (tk_dt (ep_last e)) <= ar_wall (tk_dt (ep_last e')))) -> dates_ok w'.
  Proof.
    intros W [D1 D2] Ht He. split.
    - intros i t' e' Hi' He' Hz. destruct (Ht _ _ Hi') as (t & Hi & (F1 & _ & _ & _ & F5 & _)). destruct (wf_trade _ W _ _ Hi) as [(e & Hee) _]. destruct (He _ _ Hee) as (e2 & E1 & E2 & E3).
      assert (e2 = e') as -> by congruence. destruct (D1 i t e Hi Hee) as [H1 H2]; [congruence|]. destruct (E3 H1) as [H3 H4]. split; [auto|]. rewrite F5. lia.
    - intros i j t' u' e' Hij Hi' Hj' Etu He' Hz1 Hz2. destruct (Ht _ _ Hi') as (t & Hi & (F1 & _ & _ & _ & F5 & _)). destruct (Ht _ _ Hj') as (u & Hj & (G1 & _ & _ & _ & G5 & _)).
      destruct (wf_trade _ W _ _ Hi) as [(e & Hee) _]. destruct (He _ _ Hee) as (e2 & E1 & E2 & E3). assert (e2 = e') as -> by congruence. rewrite F5, G5. apply (D2 i j t u e); auto; congruence.
  Qed.
  Lemma keeps_back w w' i t' : keeps w w' -> w_trades w' !! i = Some t' -> exists t, w_trades w !! i = Some t /\ fixed t t'.
  Proof.
    intros K Hi. destruct (keeps_t _ _ _ _ (keeps_sym _ _ K) Hi) as (t & Ht & (F1 & F2 & F3 & F4 & F5 & F6)). exists t. split; [auto|]. repeat split; congruence.
  Qed.
  Lemma same_epics_ok w w' : w_epics w' = w_epics w -> forall eid e, w_epics w !! eid = Some e -> exists e', w_epics w' !! eid = Some e' /\ ep_tz e' = ep_tz e /\ (has_ticked e -> has_ticked e' /\ ar_wall (tk_dt (ep_last e)) <= ar_wall (tk_dt (ep_last e'))).
  Proof. intros E eid e He. exists e. rewrite E. split; [auto|]. split; [auto|]. intros Ht. split; [auto|lia]. Qed.
  Lemma reach_dates P w : reach P w -> dates_ok w.
  Proof.
    intros Hr. induction Hr as [|w c Hr IH Hc|pr w o Hr IH Ho|w eid e tk Hr IH He Ha|w eid e x Hr IH He Hx|w eid e Hr IH He|w sid s d Hr IH Hs|w l Hr IH]; try pose proof (reach_wf _ _ Hr) as W.
    - split; [intros i t e E; discriminate|intros i j t u e _ E; discriminate].
    - pose proof (cmd_rest w c) as Er. injection Er as Ee _ _. destruct (is_open_call c) eqn:Eo.
      + destruct c as [eid d q s ref| | | | | | | | | |]; try discriminate. cbn [run_cmd] in *. destruct (epic_open_trade w eid d q s ref) as [w' r] eqn:E. cbn [fst] in *.
        apply open_inv in E as [[-> _]|(e & t & wn & He & Hopen & Hsx & K & C)]; [auto|]. destruct (open_fields _ _ _ _ _ _ _ Hopen) as (d' & _ & E1 & E2 & _).
        assert (tr_dt t = tk_dt (ep_last e)) as Edt by (destruct d as [[|]|]; [injection Hopen as <-; reflexivity|injection Hopen as <-; reflexivity|discriminate]).
        set (w0 := upd_trades w (w_trades w ++ [t])) in *.
        assert (wfw w0) as W0 by (apply wfw_append; auto; [rewrite E1; eauto|intros k; rewrite E2; apply Hsx]).
        assert (w_trades w' = w_trades wn) as Et by (destruct C as [->| ->]; [reflexivity|apply register_rest]).
        assert (dates_ok w0) as D0; [|apply (dates_keeps w0); [auto|auto|intros i t'; rewrite Et; now apply keeps_back|apply same_epics_ok; exact Ee]].
        destruct IH as [D1 D2]. split.
        * intros i t1 e1. subst w0. cbn [w_trades w_epics upd_trades]. intros Hi He1 Hz. apply lookup_app_Some in Hi as [Hi|[_ Hi]]; [eauto|]. apply list_lookup_singleton_Some in Hi as [_ <-].
          assert (e1 = e) as -> by congruence. rewrite Edt in *. split; [exact Hz|lia].
        * intros i j t1 u e1 Hij. subst w0. cbn [w_trades w_epics upd_trades]. intros Hi Hj Etu He1 Hz1 Hz2. apply lookup_app_Some in Hj as [Hj|[Hj1 Hj]].
          -- rewrite lookup_app_l in Hi by (apply lookup_lt_Some in Hj; lia). eauto.
          -- apply list_lookup_singleton_Some in Hj as [Hj2 <-]. rewrite lookup_app_l in Hi by lia. assert (e1 = e) as -> by congruence. rewrite Edt. eapply D1; eauto.
      + apply (dates_keeps w); auto; [|now apply same_epics_ok]. intros i t'. apply keeps_back. now apply keeps_cmd.
    - apply (dates_keeps w); auto; [intros i t'; rewrite setup_trades by auto; intros Hi; exists t'; split; [auto|repeat split]|].
      intros a b Hb. destruct (setup_epic pr w o a b Ho Hb) as (b' & B1 & B2 & B3 & B4). exists b'. split; [auto|]. assert (ep_tz b' = ep_tz b) as Ez by apply B2. split; [auto|]. unfold has_ticked. rewrite B3, Ez. intros Ht. split; [auto|lia].
    - apply (dates_keeps w); auto; [intros i t' Hi; exists t'; split; [auto|repeat split]|]. intros a b Hb. cbn [w_epics upd_epics]. destruct (decide (a = eid)) as [->|Hne].
      + assert (b = e) as -> by congruence. eexists. split; [apply list_lookup_insert; eapply lookup_lt_Some; eauto|]. split; [auto|]. intros Ht. split; [reflexivity|]. unfold has_ticked in Ht. unfold arrow_ltb in Ha. rewrite Ht in Ha.
        cbn [tick_to tk_dt arrow_to arrow_of_utc ar_tz] in Ha. rewrite Nat.eqb_refl, Z.ltb_ge in Ha. exact Ha.
      + exists b. rewrite list_lookup_insert_ne by auto. split; [auto|]. split; [auto|]. intros Ht. split; [auto|lia].
    - apply (dates_keeps w); auto; [intros i t'; apply keeps_back, keeps_fset|]. apply same_epics_ok. apply update_fset_epics.
    - apply (dates_keeps w); auto; [intros i t'; apply keeps_back, keeps_value|]. apply same_epics_ok. apply value_rest.
    - apply (dates_keeps w); auto; [intros i t' Hi; exists t'; split; [auto|repeat split]|]. now apply same_epics_ok.
    - apply (dates_keeps w); auto; [intros i t' Hi; exists t'; split; [auto|repeat split]|]. now apply same_epics_ok.
  Qed.
End proofs.
