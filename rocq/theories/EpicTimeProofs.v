(** Time order, market flag, registration, lookups and failed calls (C22, C23, C25-C27, C47-C49). *)
From Verif Require Export EpicMoreProofs.
Open Scope Z_scope.

Section proofs.
  Context {F : Type} `{Num F}.
  Implicit Types (w : world F) (t : trade F) (e : epic F) (s : strategy) (fs : fset F).

  (** ** Market hours *)
  Lemma existsb_elem (x : Z) l : existsb (Z.eqb x) l = true <-> x ∈ l.
  Proof.
    rewrite existsb_exists. split; [intros (y & Hy & E); apply Z.eqb_eq in E as ->; now apply elem_of_list_In|].
    intros Hx. exists x. split; [now apply elem_of_list_In|apply Z.eqb_refl].
  Qed.
  Lemma market_open_spec e tk : is_market_open e tk = true <-> market_hours e (ar_wall (tk_dt tk)).
  Proof.
    unfold is_market_open, market_hours, in_market_hours. cbv zeta. change (w_tod (ar_wall (tk_dt tk))) with (ar_wall (tk_dt tk) mod 86400000000). change (w_days (ar_wall (tk_dt tk))) with (ar_wall (tk_dt tk) / 86400000000).
    change (w_weekday (ar_wall (tk_dt tk))) with ((ar_wall (tk_dt tk) / 86400000000 + 3) mod 7).
    generalize (ar_wall (tk_dt tk) mod 86400000000) (ar_wall (tk_dt tk) / 86400000000). intros a d. rewrite <- !existsb_elem.
    destruct (Z.ltb_spec a (ep_open e)); [split; [discriminate|lia]|]. destruct (Z.ltb_spec (ep_close e) a); [split; [discriminate|lia]|]. simpl.
    destruct (existsb _ (ep_days e)); simpl; [|split; [discriminate|intros (_ & E & _); discriminate]].
    destruct (existsb _ (ep_holidays e)); simpl; (split; [intros E|intros (_ & _ & E)]); [discriminate|now elim E| |auto].
    split; [lia|]. split; [auto|discriminate].
  Qed.

  (** ** Ticks and the epics *)
  Lemma refused_dec e tk : {refused e tk} + {~ refused e tk}.
  Proof. unfold refused. destruct (arrow_ltb _ _); [now left|now right]. Qed.
  Lemma tick_refused pr w eid e tk : w_epics w !! eid = Some e -> refused e tk -> epic_on_new_tick pr w eid tk = (w, Err EpicException).
  Proof. intros He Hr. unfold epic_on_new_tick. rewrite He. cbv zeta. unfold refused in Hr. cbn [tick_to tk_dt]. now rewrite Hr. Qed.
  Lemma tick_epics pr w eid e tk : w_epics w !! eid = Some e -> ~ refused e tk -> w_epics (fst (epic_on_new_tick pr w eid tk)) = <[eid := accepted_epic e tk]> (w_epics w).
  Proof.
    intros He Hn. pose proof (tick_events (fun _ => false) (fun _ => false) pr w eid e tk) as Hx. destruct (epic_on_new_tick pr w eid tk) as [w' r].
    apply Hx; auto; [|discriminate]. intros a b c w0. generalize (pr a b c w0). induction s as [| |cc k IH]; simpl; auto. split; [intros i Hi; discriminate|auto].
  Qed.

  (** What an operation does to an epic. *)
  Definition kept_epic e e' : Prop :=
    ep_ref e' = ep_ref e /\ ep_tz e' = ep_tz e /\ ep_open e' = ep_open e /\ ep_close e' = ep_close e /\ ep_days e' = ep_days e /\
    ep_holidays e' = ep_holidays e /\ ep_prov e' = ep_prov e /\ ep_fsets e `prefix_of` ep_fsets e' /\ ep_strats e `prefix_of` ep_strats e'.
  Lemma kept_epic_refl e : kept_epic e e.
  Proof. repeat split; reflexivity. Qed.
  Lemma kept_epic_trans e1 e2 e3 : kept_epic e1 e2 -> kept_epic e2 e3 -> kept_epic e1 e3.
  Proof. intros (A1 & A2 & A3 & A4 & A5 & A6 & A7 & A8 & A9) (B1 & B2 & B3 & B4 & B5 & B6 & B7 & B8 & B9). repeat split; try congruence; etransitivity; eauto. Qed.
  Lemma setup_epic pr w (o : op F) eid e : setup o -> w_epics w !! eid = Some e ->
    exists e', w_epics (fst (step pr w o)) !! eid = Some e' /\ kept_epic e e' /\ ep_last e' = ep_last e /\ ep_mopen e' = ep_mopen e.
  Proof.
    intros Ho He. assert (w_epics w !! eid = Some e /\ kept_epic e e /\ ep_last e = ep_last e /\ ep_mopen e = ep_mopen e) as Hsame by (split; [auto|split; [apply kept_epic_refl|auto]]).
    destruct o as [k|ref|u q ref m|ref tz op cl ds hs p|a f|a s|f i|a tk|c]; try (exfalso; exact Ho); cbn [step fst]; [exists e; exact Hsame|exists e; exact Hsame|..].
    - exists e. destruct (fset_init u q ref m); exact Hsame.
    - exists e. unfold new_epic. destruct tz as [z|]; [|exact Hsame]. destruct (valid_id _ _); [|exact Hsame]. cbv zeta.
      destruct p; cbn [fst w_epics upd_epics upd_provs]; rewrite (lookup_app_l_Some _ _ _ _ He); apply Hsame || (split; [auto|apply Hsame]).
    - unfold add_frame_set. destruct (w_epics w !! a) as [ep|] eqn:Ea; [|exists e; exact Hsame]. destruct (w_fsets w !! f) as [fs|]; [|exists e; exact Hsame].
      destruct (dict_get _ _) eqn:Eg; [exists e; exact Hsame|]. cbn [fst w_epics upd_epics]. destruct (decide (eid = a)) as [->|Hn].
      + assert (ep = e) as -> by congruence. eexists. split; [apply list_lookup_insert; eapply lookup_lt_Some; eauto|]. cbn [ep_last ep_mopen ep_set_fsets]. split; [|auto].
        repeat split; try reflexivity. cbn [ep_fsets ep_set_fsets]. rewrite dict_set_new by auto. now eexists.
      + exists e. rewrite list_lookup_insert_ne by auto. exact Hsame.
    - unfold add_strategy. destruct (w_epics w !! a) as [ep|] eqn:Ea; [|exists e; exact Hsame]. destruct (w_strats w !! s) as [st|]; [|exists e; exact Hsame].
      destruct (dict_get _ _) eqn:Eg; [exists e; exact Hsame|]. cbn [fst w_epics upd_epics upd_strats]. destruct (decide (eid = a)) as [->|Hn].
      + assert (ep = e) as -> by congruence. eexists. split; [apply list_lookup_insert; eapply lookup_lt_Some; eauto|]. cbn [ep_last ep_mopen ep_set_strats]. split; [|auto].
        repeat split; try reflexivity. cbn [ep_strats ep_set_strats]. rewrite dict_set_new by auto. now eexists.
      + exists e. rewrite list_lookup_insert_ne by auto. exact Hsame.
    - exists e. destruct (w_fsets w !! f) as [fs|]; [|exact Hsame]. destruct (add_indicator fs i). exact Hsame.
  Qed.
  Lemma step_epic pr w (o : op F) eid e : w_epics w !! eid = Some e ->
    exists e', w_epics (fst (step pr w o)) !! eid = Some e' /\ kept_epic e e' /\
      ((ep_last e' = ep_last e /\ ep_mopen e' = ep_mopen e /\ forall tk, o = OTick eid tk -> refused e tk) \/
       exists tk, o = OTick eid tk /\ ~ refused e tk /\ e' = accepted_epic e tk).
  Proof.
    intros He. assert (setup o \/ (exists a tk, o = OTick a tk) \/ exists c, o = OCmd c) as [Ho|[(a & tk & ->)|(c & ->)]] by (destruct o; simpl; eauto).
    - destruct (setup_epic pr w o eid e Ho He) as (e' & E1 & E2 & E3 & E4). exists e'. split; [auto|]. split; [auto|]. left. split; [auto|]. split; [auto|]. intros tk ->. destruct Ho.
    - cbn [step]. destruct (w_epics w !! a) as [ea|] eqn:Ea.
      2:{ exists e. unfold epic_on_new_tick. rewrite Ea. split; [auto|]. split; [apply kept_epic_refl|]. left. split; [auto|]. split; [auto|]. intros tk' [= -> ->]. congruence. }
      destruct (refused_dec ea tk) as [Hr|Hr].
      + rewrite (tick_refused _ _ _ _ _ Ea Hr). exists e. split; [auto|]. split; [apply kept_epic_refl|]. left. split; [auto|]. split; [auto|]. intros tk' [= -> ->]. congruence.
      + rewrite (tick_epics _ _ _ _ _ Ea Hr). destruct (decide (eid = a)) as [->|Hn].
        * assert (ea = e) as -> by congruence. eexists. split; [apply list_lookup_insert; eapply lookup_lt_Some; eauto|]. split; [repeat split; reflexivity|]. right. exists tk. auto.
        * exists e. rewrite list_lookup_insert_ne by auto. split; [auto|]. split; [apply kept_epic_refl|]. left. split; [auto|]. split; [auto|]. intros tk' [= -> ->]. congruence.
    - exists e. cbn [step]. pose proof (cmd_rest w c) as E. injection E as E _ _. rewrite E. split; [auto|]. split; [apply kept_epic_refl|]. left. split; [auto|]. split; [auto|]. discriminate.
  Qed.
  Lemma run_kept pr l w eid e : w_epics w !! eid = Some e -> exists e', w_epics (run pr w l) !! eid = Some e' /\ kept_epic e e'.
  Proof.
    revert w e. induction l as [|o l IH]; intros w e He; simpl; [exists e; split; [auto|apply kept_epic_refl]|].
    destruct (step_epic pr w o eid e He) as (e1 & E1 & K1 & _). destruct (IH _ _ E1) as (e' & E' & K'). exists e'. split; [auto|]. eapply kept_epic_trans; eauto.
  Qed.

  (** ** C22: the last tick never goes back *)
  Lemma accepted_has_ticked e tk : has_ticked (accepted_epic e tk).
  Proof. reflexivity. Qed.
  Lemma refused_wall e tk : has_ticked e -> (refused e tk <-> tz_wall (ep_tz e) (ar_utc (tk_dt tk)) < ar_wall (tk_dt (ep_last e))).
  Proof. intros Ht. unfold refused, arrow_ltb. rewrite Ht. simpl. rewrite Nat.eqb_refl, Z.ltb_lt. auto. Qed.
  Lemma step_forward pr w (o : op F) eid e : w_epics w !! eid = Some e -> has_ticked e ->
    exists e', w_epics (fst (step pr w o)) !! eid = Some e' /\ has_ticked e' /\ ep_tz e' = ep_tz e /\ ar_wall (tk_dt (ep_last e)) <= ar_wall (tk_dt (ep_last e')).
  Proof.
    intros He Ht. destruct (step_epic pr w o eid e He) as (e' & E1 & K & [(L1 & L2 & _)|(tk & -> & Hn & ->)]); eexists; (split; [eauto|]).
    - destruct K as (_ & K & _). unfold has_ticked. rewrite L1, K. split; [auto|]. split; [auto|]. lia.
    - split; [apply accepted_has_ticked|]. split; [auto|]. rewrite refused_wall in Hn by auto. simpl. lia.
  Qed.
  Lemma run_forward pr l w eid e : w_epics w !! eid = Some e -> has_ticked e ->
    exists e', w_epics (run pr w l) !! eid = Some e' /\ has_ticked e' /\ ep_tz e' = ep_tz e /\ ar_wall (tk_dt (ep_last e)) <= ar_wall (tk_dt (ep_last e')).
  Proof.
    revert w e. induction l as [|o l IH]; intros w e He Ht; simpl; [exists e; split; [auto|]; split; [auto|]; split; [auto|lia]|].
    destruct (step_forward pr w o eid e He Ht) as (e1 & E1 & T1 & Z1 & L1). destruct (IH _ _ E1 T1) as (e' & E' & T' & Z' & L'). exists e'. split; [auto|]. split; [auto|]. split; [congruence|lia].
  Qed.
  Lemma accepted_tick pr w eid e tk : w_epics w !! eid = Some e -> ~ refused e tk ->
    exists e', w_epics (fst (epic_on_new_tick pr w eid tk)) !! eid = Some e' /\ ep_last e' = tick_to (ep_tz e) tk.
  Proof.
    intros He Hn. rewrite (tick_epics _ _ _ _ _ He Hn). exists (accepted_epic e tk). split; [|auto]. apply list_lookup_insert. eapply lookup_lt_Some; eauto.
  Qed.

  (** ** Epics of reachable states *)
  Definition epic_ok e : Prop :=
    (ep_last e = fake_tick /\ ep_mopen e = false) \/
    (ar_tz (tk_dt (ep_last e)) = ep_tz e /\ ar_wall (tk_dt (ep_last e)) = tz_wall (ep_tz e) (ar_utc (tk_dt (ep_last e))) /\ ep_mopen e = is_market_open e (ep_last e)).
  Lemma kept_ok e e' : kept_epic e e' -> ep_last e' = ep_last e -> ep_mopen e' = ep_mopen e -> epic_ok e -> epic_ok e'.
  Proof.
    intros (K1 & K2 & K3 & K4 & K5 & K6 & K7 & _) L1 L2 [[O1 O2]|(O1 & O2 & O3)]; [left|right]; rewrite L1, L2; [auto|]. rewrite K2. split; [auto|]. split; [auto|].
    rewrite O3. unfold is_market_open, in_market_hours. now rewrite K3, K4, K5, K6.
  Qed.
  Lemma accepted_ok e tk : epic_ok (accepted_epic e tk).
  Proof. right. repeat split. Qed.
  Lemma new_epics pr w (o : op F) eid e : setup o -> w_epics w !! eid = None -> w_epics (fst (step pr w o)) !! eid = Some e -> ep_last e = fake_tick /\ ep_mopen e = false.
  Proof.
    intros Ho Hn. destruct o as [k|ref|u q ref m|ref tz op cl ds hs p|a f|a s|f i|a tk|c]; try (exfalso; exact Ho); cbn [step fst]; try (intros E; cbn [w_epics upd_provs upd_strats] in E; rewrite Hn in E; discriminate E).
    - destruct (fset_init u q ref m); cbn [fst w_epics upd_fsets]; rewrite Hn; discriminate.
    - unfold new_epic. destruct tz as [z|]; [|cbn [fst]; rewrite Hn; discriminate]. destruct (valid_id _ _); [|cbn [fst]; rewrite Hn; discriminate]. cbv zeta.
      destruct p; cbn [fst w_epics upd_epics upd_provs]; (rewrite lookup_app_r by now apply lookup_ge_None); intros E; apply list_lookup_singleton_Some in E as [_ <-]; auto.
    - unfold add_frame_set. destruct (w_epics w !! a) as [ep|] eqn:Ea; [|cbn [fst]; rewrite Hn; discriminate]. destruct (w_fsets w !! f) as [fs|]; [|cbn [fst]; rewrite Hn; discriminate].
      destruct (dict_get _ _); [cbn [fst]; rewrite Hn; discriminate|]. cbn [fst w_epics upd_epics]. rewrite list_lookup_insert_ne by congruence. rewrite Hn. discriminate.
    - unfold add_strategy. destruct (w_epics w !! a) as [ep|] eqn:Ea; [|cbn [fst]; rewrite Hn; discriminate]. destruct (w_strats w !! s) as [fs|]; [|cbn [fst]; rewrite Hn; discriminate].
      destruct (dict_get _ _); [cbn [fst]; rewrite Hn; discriminate|]. cbn [fst w_epics upd_epics upd_strats]. rewrite list_lookup_insert_ne by congruence. rewrite Hn. discriminate.
    - destruct (w_fsets w !! f) as [fs|]; [|cbn [fst]; rewrite Hn; discriminate]. destruct (add_indicator fs i). cbn [fst w_epics upd_fsets]. rewrite Hn. discriminate.
  Qed.
  Lemma reach_epic_ok P w : reach P w -> forall eid e, w_epics w !! eid = Some e -> epic_ok e.
  Proof.
    intros Hr. induction Hr as [|w c Hr IH Hc|pr w o Hr IH Ho|w eid e tk Hr IH He Ha|w eid e x Hr IH He Hx|w eid e Hr IH He|w sid s d Hr IH Hs|w l Hr IH]; intros a b Hb.
    - discriminate.
    - pose proof (cmd_rest w c) as E. injection E as E _ _. rewrite E in Hb. eauto.
    - destruct (w_epics w !! a) as [b0|] eqn:E.
      + destruct (setup_epic pr w o a b0 Ho E) as (b' & B1 & B2 & B3 & B4). assert (b' = b) as -> by congruence. eapply kept_ok; eauto.
      + left. eapply new_epics; eauto.
    - cbn [w_epics upd_epics] in Hb. apply insert_lookup_inv in Hb as [(-> & -> & _)|[Hb _]]; [|eauto]. apply accepted_ok.
    - rewrite update_fset_epics in Hb. eauto.
    - destruct (value_rest w (ep_prov e) (ep_last e)) as (_ & V & _). rewrite V in Hb. eauto.
    - simpl in Hb. eauto.
    - simpl in Hb. eauto.
  Qed.
  (** C23 *)
  Lemma market_flag P w eid e : reach P w -> w_epics w !! eid = Some e -> has_ticked e -> ep_last e <> fake_tick ->
    (ep_mopen e = true <-> market_hours e (ar_wall (tk_dt (ep_last e)))).
  Proof.
    intros Hr He Ht Hf. destruct (reach_epic_ok P w Hr _ _ He) as [[O1 _]|(_ & _ & ->)]; [congruence|]. apply market_open_spec.
  Qed.
  Lemma market_flag_tick pr w eid e tk : w_epics w !! eid = Some e -> ~ refused e tk ->
    exists e', w_epics (fst (epic_on_new_tick pr w eid tk)) !! eid = Some e' /\
      (ep_mopen e' = true <-> market_hours e (tz_wall (ep_tz e) (ar_utc (tk_dt tk)))).
  Proof.
    intros He Hn. rewrite (tick_epics _ _ _ _ _ He Hn). exists (accepted_epic e tk). split; [apply list_lookup_insert; eapply lookup_lt_Some; eauto|]. cbn [ep_mopen accepted_epic ep_set_last].
    now rewrite market_open_spec.
  Qed.
  Lemma new_epic_hours pr w ref tz op cl days hol prov w' : step pr w (ONewEpic ref tz op cl days hol prov) = (w', Ok ()) ->
    exists e, w_epics w' = w_epics w ++ [e] /\ ep_ref e = ref /\ tz = Some (ep_tz e) /\ ep_mopen e = false /\
      forall wall, market_hours e wall <-> op <= wall mod 86400000000 <= cl /\
        (match days with
         | Some (d :: l) => (wall / 86400000000 + 3) mod 7 ∈ d :: l
         | _ => 0 <= (wall / 86400000000 + 3) mod 7 < 5
         end) /\ (forall l, hol = Some l -> ~ wall / 86400000000 ∈ l).
  Proof.
    cbn [step]. unfold new_epic. intros E. destruct tz as [z|]; [|discriminate E]. destruct (valid_id (w_provs w) prov); [|discriminate E].
    set (ds := match days with None | Some [] => [0; 1; 2; 3; 4] | Some l => l end) in E.
    assert (forall wall, (wall / 86400000000 + 3) mod 7 ∈ ds <-> match days with Some (d :: l) => (wall / 86400000000 + 3) mod 7 ∈ d :: l | _ => 0 <= (wall / 86400000000 + 3) mod 7 < 5 end) as Hd.
    { intros wall. assert ((wall / 86400000000 + 3) mod 7 ∈ [0; 1; 2; 3; 4] <-> 0 <= (wall / 86400000000 + 3) mod 7 < 5) as Hw.
      { rewrite !elem_of_cons, elem_of_nil. lia. }
      unfold ds. destruct days as [[|d l]|]; [exact Hw|reflexivity|exact Hw]. }
    assert (forall wall, ~ (wall / 86400000000) ∈ (match hol with None => [] | Some l => l end) <-> (forall l, hol = Some l -> ~ wall / 86400000000 ∈ l)) as Hh.
    { intros wall. destruct hol as [l|]; split.
      - intros Hn l' [= <-]. exact Hn. - intros Hn. now apply Hn. - intros _ l' [=]. - intros _. apply not_elem_of_nil. }
    destruct prov as [p|]; apply (f_equal fst) in E; cbn [fst] in E; subst w'; (eexists; split; [reflexivity|]; split; [reflexivity|]; split; [reflexivity|]; split; [reflexivity|]);
      intros wall; unfold market_hours; cbn [ep_open ep_close ep_days ep_holidays]; now rewrite Hd, Hh.
  Qed.
  Lemma market_closed_first P w eid e : reach P w -> w_epics w !! eid = Some e -> ep_last e = fake_tick -> ep_tz e <> tz_UTC -> ep_mopen e = false.
  Proof. intros Hr He Hf Hz. destruct (reach_epic_ok P w Hr _ _ He) as [[_ O2]|(O1 & _ & _)]; [auto|]. rewrite Hf in O1. simpl in O1. congruence. Qed.

  (** ** C25: ticks in UTC order *)
  Definition last_utc e : Z := ar_utc (tk_dt (ep_last e)).
  Lemma not_refused_utc e tk : epic_ok e -> (forall u v, u <= v -> tz_wall (ep_tz e) u <= tz_wall (ep_tz e) v) -> (tz_id (ep_tz e) = 0%nat -> ep_tz e = tz_UTC) ->
    last_utc e <= ar_utc (tk_dt tk) -> ~ refused e tk.
  Proof.
    intros Hok Hm Hz Hu. unfold refused, arrow_ltb. unfold last_utc in Hu. destruct Hok as [[O1 _]|(O1 & O2 & _)].
    - rewrite O1 in *. cbn [ar_tz arrow_to arrow_of_utc tk_dt fake_tick tz_UTC tz_id ar_wall ar_utc tz_wall] in *. destruct (Nat.eqb_spec (tz_id (ep_tz e)) 0) as [E|E].
      + rewrite (Hz E). cbn [tz_wall tz_UTC]. rewrite Z.ltb_lt. lia.
      + rewrite Z.ltb_lt. lia.
    - rewrite O1. cbn [ar_tz arrow_to arrow_of_utc]. rewrite Nat.eqb_refl. cbn [ar_wall]. rewrite O2, Z.ltb_lt. specialize (Hm _ _ Hu). cbn [ar_wall arrow_to arrow_of_utc]. lia.
  Qed.
  Lemma utc_order pr P l : forall w eid e, reach P w -> programs_ok P pr -> Forall (op_ok P) l -> w_epics w !! eid = Some e ->
    (forall u v, u <= v -> tz_wall (ep_tz e) u <= tz_wall (ep_tz e) v) -> (tz_id (ep_tz e) = 0%nat -> ep_tz e = tz_UTC) ->
    Sorted Z.le (last_utc e :: utcs eid l) ->
    forall l1 tk l2, l = l1 ++ OTick eid tk :: l2 -> exists e1, w_epics (run pr w l1) !! eid = Some e1 /\ ~ refused e1 tk.
  Proof.
    induction l as [|o l IH]; intros w eid e Hr Hp Hl He Hm Hz Hs l1 tk l2 El; [destruct l1; discriminate|].
    apply Sorted_inv in Hs as [Hs Hhd]. apply Forall_cons in Hl as [Ho Hl].
    assert (epic_ok e) as Hok by (eapply reach_epic_ok; eauto).
    destruct l1 as [|o1 l1]; cbn [app] in El.
    - injection El as -> ->. exists e. split; [auto|]. apply not_refused_utc; auto. cbn [utcs] in Hhd. rewrite decide_True in Hhd by auto. now inversion Hhd.
    - injection El as <- El. cbn [run fold_left]. destruct (step_epic pr w o eid e He) as (e1 & E1 & K & HK). assert (ep_tz e1 = ep_tz e) as Ez by apply K.
      apply (IH (fst (step pr w o)) eid e1) with (l2 := l2); auto; rewrite ?Ez; auto.
      + now apply step_reach.
      + destruct HK as [(L1 & _ & Lr)|(tk1 & -> & Hn & ->)].
        * unfold last_utc. rewrite L1. destruct o as [| | | | | | |a tk1|]; cbn [utcs] in *; try (now apply Sorted_cons).
          destruct (decide (a = eid)) as [->|]; [|now apply Sorted_cons]. exfalso. eapply (not_refused_utc e tk1); eauto. now inversion Hhd.
        * cbn [utcs] in *. rewrite decide_True in Hs by auto. exact Hs.
  Qed.

  (** ** C26 *)
  Lemma reach_refs P w eid e : reach P w -> w_epics w !! eid = Some e ->
    (forall k i, (k, i) ∈ ep_strats e -> exists s, w_strats w !! i = Some s /\ st_ref s = k) /\ NoDup (map fst (ep_strats e)) /\
    (forall k i, (k, i) ∈ ep_fsets e -> exists fs, w_fsets w !! i = Some fs /\ fs_ref fs = k) /\ NoDup (map fst (ep_fsets e)).
  Proof.
    intros Hr He. destruct (reach_named P w Hr _ _ He) as [[N1 N2] [N3 N4]]. split; [|split; [auto|split; [|auto]]].
    - intros k i Hi. specialize (N2 k i Hi). unfold sref in N2. destruct (w_strats w !! i) as [s|]; [|discriminate]. injection N2 as N2. eauto.
    - intros k i Hi. specialize (N4 k i Hi). unfold fref in N4. destruct (w_fsets w !! i) as [s|]; [|discriminate]. injection N4 as N4. eauto.
  Qed.
  Lemma prefix_dict_get {V} (d d' : dict V) k v : d `prefix_of` d' -> dict_get d k = Some v -> dict_get d' k = Some v.
  Proof.
    intros [z ->]. induction d as [|[a b] d IH]; simpl; [discriminate|]. destruct (String.eqb a k); auto.
  Qed.
  Lemma never_replaced pr l w eid e : w_epics w !! eid = Some e -> exists e', w_epics (run pr w l) !! eid = Some e' /\
    (forall k i, dict_get (ep_fsets e) k = Some i -> dict_get (ep_fsets e') k = Some i) /\
    (forall k i, dict_get (ep_strats e) k = Some i -> dict_get (ep_strats e') k = Some i).
  Proof.
    intros He. destruct (run_kept pr l w eid e He) as (e' & E' & K). exists e'. split; [auto|]. destruct K as (_ & _ & _ & _ & _ & _ & _ & K1 & K2). split; intros k i; eapply prefix_dict_get; eauto.
  Qed.
  Lemma add_frame_set_spec w eid fid e fs : w_epics w !! eid = Some e -> w_fsets w !! fid = Some fs ->
    (forall i, dict_get (ep_fsets e) (fs_ref fs) = Some i -> add_frame_set w eid fid = (w, Err EpicException)) /\
    (dict_get (ep_fsets e) (fs_ref fs) = None -> exists w' e', add_frame_set w eid fid = (w', Ok ()) /\
       w_epics w' = <[eid := e']> (w_epics w) /\ w_fsets w' = <[fid := fs_set_epic fs (Some eid)]> (w_fsets w) /\
       w_trades w' = w_trades w /\ w_provs w' = w_provs w /\ w_strats w' = w_strats w /\ w_log w' = w_log w /\
       e' = ep_set_fsets e (ep_fsets e') /\ ep_fsets e' = ep_fsets e ++ [(fs_ref fs, fid)] /\
       (forall k, dict_get (ep_fsets e') k = if String.eqb (fs_ref fs) k then Some fid else dict_get (ep_fsets e) k)).
  Proof.
    intros He Hf. unfold add_frame_set. rewrite He, Hf. split; [intros i ->; auto|]. intros E. rewrite E. eexists _, _. split; [reflexivity|]. simpl. repeat (split; [reflexivity|]).
    split; [now apply dict_set_new|]. intros k. apply dict_get_set.
  Qed.
  Lemma add_strategy_spec w eid sid e s : w_epics w !! eid = Some e -> w_strats w !! sid = Some s ->
    (forall i, dict_get (ep_strats e) (st_ref s) = Some i -> add_strategy w eid sid = (w, Err EpicException)) /\
    (dict_get (ep_strats e) (st_ref s) = None -> exists w' e' s', add_strategy w eid sid = (w', Ok ()) /\
       w_epics w' = <[eid := e']> (w_epics w) /\ w_strats w' = <[sid := s']> (w_strats w) /\
       w_trades w' = w_trades w /\ w_provs w' = w_provs w /\ w_fsets w' = w_fsets w /\ w_log w' = w_log w /\
       e' = ep_set_strats e (ep_strats e') /\ ep_strats e' = ep_strats e ++ [(st_ref s, sid)] /\
       (forall k, dict_get (ep_strats e') k = if String.eqb (st_ref s) k then Some sid else dict_get (ep_strats e) k) /\
       s' = st_set_epics s (st_epics s') /\
       (forall k, dict_get (st_epics s') k = if String.eqb (ep_ref e) k then Some eid else dict_get (st_epics s) k)).
  Proof.
    intros He Hf. unfold add_strategy. rewrite He, Hf. split; [intros i ->; auto|]. intros E. rewrite E. eexists _, _, _. split; [reflexivity|]. simpl. repeat (split; [reflexivity|]).
    split; [now apply dict_set_new|]. split; [intros k; apply dict_get_set|]. split; [reflexivity|]. intros k. apply dict_get_set.
  Qed.
End proofs.
