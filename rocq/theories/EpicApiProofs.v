(** Properties C18, C21, C24 in the form used by the statements. *)
From Verif Require Export EpicHistProofs StrategyProofs.
Open Scope Z_scope.

Section proofs.
  Context {F : Type} `{Num F}.
  Implicit Types (w : world F) (t : trade F) (e : epic F) (s : strategy).

  (** ** C18: trades of one epic are dated in opening order *)
  Lemma trades_of_epic_after P w sid s eid e oo d i : reach P w -> w_strats w !! sid = Some s -> w_epics w !! eid = Some e -> ar_tz d = ep_tz e ->
    (forall j t, j ∈ st_trades s -> w_trades w !! j = Some t -> tr_epic t = eid -> ar_tz (tr_dt t) = ep_tz e) ->
    i ∈ get_trades w s (Some [eid]) oo (Some d) <-> i ∈ st_trades s /\ wanted w (Some [eid]) oo i /\ dated_from w d i.
  Proof.
    intros Hr Hs He Hd Hz. eapply get_trades_after; eauto. intros a b t u Ha Hb Hab Ht Hu.
    apply get_trades_elem in Ha as [Ha1 (t' & Ht' & Ht2 & _)], Hb as [Hb1 (u' & Hu' & Hu2 & _)]. assert (t' = t) as -> by congruence. assert (u' = u) as -> by congruence.
    specialize (Ht2 _ eq_refl). specialize (Hu2 _ eq_refl). apply elem_of_list_singleton in Ht2, Hu2.
    pose proof (Hz _ _ Ha1 Ht Ht2) as Z1. pose proof (Hz _ _ Hb1 Hu Hu2) as Z2. split; [congruence|]. rewrite decide_True by congruence.
    destruct (reach_dates _ _ Hr) as [_ D]. apply (D a b t u e); auto; [congruence|]. now rewrite Ht2.
  Qed.

  (** ** C21 *)
  Lemma takes_part_flags s s' d : flags s' = flags s -> takes_part s' d = takes_part s d.
  Proof. unfold flags, takes_part. intros E. injection E as -> ->. reflexivity. Qed.
  Lemma not_expected K A eid cbs (l : list (string * nat)) sid : (forall i, K i = true -> i = sid) -> A sid = false -> expected K A eid cbs l = [].
  Proof.
    intros HK HA. unfold expected. induction l as [|x l IH]; [auto|]. cbn [map concat]. destruct (K x.2) eqn:E; cbn [andb]; [|exact IH]. apply HK in E. rewrite E, HA. exact IH.
  Qed.
  Lemma only_kept sid l : only_of sid l = kept (fun i => Nat.eqb i sid) l.
  Proof. reflexivity. Qed.
  Lemma eqb_K sid i : Nat.eqb i sid = true <-> i = sid.
  Proof. apply Nat.eqb_eq. Qed.
  Lemma spares_one sid (pr : programs F) : programs_ok (spares sid) pr -> programs_ok (spares_all (fun i => Nat.eqb i sid)) pr.
  Proof. apply programs_weaken. intros c Hc i Hi. apply eqb_K in Hi as ->. auto. Qed.
  Lemma tick_left_out pr w eid e tk sid s : programs_ok (spares sid) pr -> w_epics w !! eid = Some e -> w_strats w !! sid = Some s ->
    takes_part s (arrow_to (ep_tz e) (tk_dt tk)) = false -> let w' := fst (epic_on_new_tick pr w eid tk) in
    (exists evs, w_log w' = w_log w ++ evs /\ only_of sid evs = []) /\ flags <$> w_strats w' !! sid = Some (flags s).
  Proof.
    intros Hp He Hs Ht. destruct (refused_dec e tk) as [Hre|Hre].
    { rewrite (tick_refused _ _ _ _ _ He Hre). cbn [fst]. rewrite Hs. split; [|auto]. exists []. rewrite app_nil_r. auto. }
    pose proof (tick_events (fun i => Nat.eqb i sid) (fun _ => false) pr w eid e tk (spares_one _ _ Hp) He Hre) as T.
    destruct (epic_on_new_tick pr w eid tk) as [w' r]. cbn [fst]. destruct T as (_ & (evs & E1 & E2 & _) & E3).
    - intros i si Hi Hsi. apply eqb_K in Hi as ->. congruence.
    - split.
      + exists evs. split; [auto|]. rewrite only_kept. rewrite (not_expected _ _ _ _ _ sid) in E2; [|now intros i ->%eqb_K|auto]. now apply prefix_nil_inv in E2.
      + destruct (E3 sid) as [[E|[E _]] _]; [now apply eqb_K| |discriminate]. now rewrite E, Hs.
  Qed.
  Lemma run_left_out (P : cmd F -> Prop) pr s sid l : (forall c, P c -> spares sid c) -> programs_ok P pr -> Forall (op_ok P) l -> forall w,
    flags <$> w_strats w !! sid = Some (flags s) -> left_out s pr w l ->
    (exists evs, w_log (run pr w l) = w_log w ++ evs /\ only_of sid evs = []) /\ flags <$> w_strats (run pr w l) !! sid = Some (flags s).
  Proof.
    intros HP Hp Hl. induction Hl as [|o l Ho Hl IH]; intros w Hs Hq; [split; [exists []; rewrite app_nil_r; split; reflexivity|exact Hs]|]. destruct Hq as [Hq1 Hq2]. cbn [run fold_left].
    destruct (w_strats w !! sid) as [s0|] eqn:E0; [|discriminate]. assert (flags s0 = flags s) as Es by (injection Hs as Es1 Es2; unfold flags; congruence).
    assert ((exists evs, w_log (fst (step pr w o)) = w_log w ++ evs /\ only_of sid evs = []) /\ flags <$> w_strats (fst (step pr w o)) !! sid = Some (flags s)) as [(ev1 & L1 & O1) F1].
    { assert (setup o \/ (exists a tk, o = OTick a tk) \/ exists c, o = OCmd c) as [Hset|[(a & tk & ->)|(c & ->)]] by (destruct o; simpl; eauto).
      - split; [exists []; rewrite setup_log by auto; rewrite app_nil_r; split; reflexivity|]. rewrite <- Es. now apply setup_flags.
      - cbn [step]. destruct (w_epics w !! a) as [e|] eqn:Ee.
        + rewrite <- Es. apply (tick_left_out pr w a e tk sid s0); auto; [eapply programs_weaken; eauto|]. rewrite (takes_part_flags s s0) by auto. eauto.
        + unfold epic_on_new_tick. rewrite Ee. cbn [fst]. rewrite E0, <- Es. split; [|auto]. exists []. rewrite app_nil_r. split; reflexivity.
      - cbn [step]. pose proof (cmd_rest w c) as Er. injection Er as _ _ Er. split; [exists []; rewrite Er, app_nil_r; split; reflexivity|]. rewrite cmd_flags by (apply HP; exact Ho). rewrite E0. exact Hs. }
    destruct (IH _ F1 Hq2) as [(ev2 & L2 & O2) F2]. split; [|exact F2]. exists (ev1 ++ ev2). fold (run pr (step pr w o).1 l). rewrite L2, L1, app_assoc. split; [auto|].
    rewrite only_kept, kept_app, <- !only_kept, O1, O2. auto.
  Qed.
  Lemma stopped_left_out s (pr : programs F) l : st_stopped s = true -> forall w, left_out s pr w l.
  Proof. intros Hs. induction l as [|o l IH]; intros w; [exact I|]. split; [|apply IH]. destruct o; auto. intros e _. unfold takes_part. now rewrite Hs. Qed.
  Lemma paused_left_out s d (pr : programs F) l : st_paused s = Some d -> forall w, ticks_before d pr w l -> left_out s pr w l.
  Proof.
    intros Hs. induction l as [|o l IH]; intros w Hb; [exact I|]. destruct Hb as [B1 B2]. split; [|now apply IH]. destruct o; auto. intros e He. unfold takes_part. rewrite Hs, (B1 e He). simpl. now rewrite andb_false_r.
  Qed.
  Lemma no_callback_run (P : cmd F -> Prop) pr w sid s l : (forall c, P c -> spares sid c) -> programs_ok P pr -> Forall (op_ok P) l ->
    w_strats w !! sid = Some s -> (st_stopped s = true \/ exists d, st_paused s = Some d /\ ticks_before d pr w l) ->
    (exists evs, w_log (run pr w l) = w_log w ++ evs /\ only_of sid evs = []) /\
    exists s', w_strats (run pr w l) !! sid = Some s' /\ st_stopped s' = st_stopped s /\ st_paused s' = st_paused s.
  Proof.
    intros HP Hp Hl Hs Hc. destruct (run_left_out P pr s sid l HP Hp Hl w) as [L1 L2].
    - now rewrite Hs.
    - destruct Hc as [Hc|(d & Hc & Hb)]; [now apply stopped_left_out|eapply paused_left_out; eauto].
    - split; [auto|]. destruct (w_strats (run pr w l) !! sid) as [s'|]; [|discriminate]. exists s'. split; [auto|]. injection L2 as L2 L3. split; congruence.
  Qed.

  (** ** C24 and the end of a pause: one tick *)
  Lemma tick_callbacks P pr w eid e tk sid k s : reach P w -> programs_ok (spares sid) pr -> w_epics w !! eid = Some e -> ~ refused e tk ->
    (k, sid) ∈ ep_strats e -> w_strats w !! sid = Some s -> takes_part s (arrow_to (ep_tz e) (tk_dt tk)) = true ->
    let '(w', r) := epic_on_new_tick pr w eid tk in
    exists e' evs, w_epics w' !! eid = Some e' /\ w_log w' = w_log w ++ evs /\
      only_of sid evs `prefix_of` events_of sid eid (callbacks_of (ep_mopen e) (ep_mopen e')) /\
      (r = Ok () -> only_of sid evs = events_of sid eid (callbacks_of (ep_mopen e) (ep_mopen e')) /\
         exists s', w_strats w' !! sid = Some s' /\ st_paused s' = None /\ st_stopped s' = false).
  Proof.
    intros Hr Hp He Hn Hk Hs Ht. pose proof (tick_events (fun i => Nat.eqb i sid) (fun _ => true) pr w eid e tk (spares_one _ _ Hp) He Hn) as T.
    destruct (reach_refs P w eid e Hr He) as (R1 & R2 & _).
    assert (forall cbs, expected (fun i => Nat.eqb i sid) (fun _ => true) eid cbs (ep_strats e) = events_of sid eid cbs) as Ex.
    { intros cbs. eapply expected_one; eauto; [|intros i; apply eqb_K]. intros k1 k2 H1 H2. destruct (R1 _ _ H1) as (s1 & S1 & <-). destruct (R1 _ _ H2) as (s2 & S2 & <-). congruence. }
    destruct (epic_on_new_tick pr w eid tk) as [w' r]. cbn [fst]. destruct T as (T1 & (evs & E1 & E2 & E3) & E4).
    { intros i si Hi Hsi. apply eqb_K in Hi as ->. congruence. }
    exists (accepted_epic e tk), evs. rewrite T1, list_lookup_insert by (eapply lookup_lt_Some; eauto). split; [auto|]. split; [auto|]. rewrite Ex in E2, E3. rewrite only_kept. split; [exact E2|].
    intros Hrr. split; [auto|]. destruct (E4 sid) as [_ E5]; [now apply eqb_K|]. specialize (E5 Hrr eq_refl). assert (sid ∈ map snd (ep_strats e)) as Hin by (apply elem_of_list_fmap; now exists (k, sid)).
    apply E5 in Hin. destruct (w_strats w' !! sid) as [s'|]; [|discriminate]. exists s'. split; [auto|]. injection Hin as Hin1 Hin2. auto.
  Qed.
End proofs.

(** C23 *)
Lemma market_flag_always {F} `{Num F} P (w : world F) eid e : reach P w -> w_epics w !! eid = Some e ->
  (ep_last e = fake_tick /\ ep_mopen e = false) \/ (ep_mopen e = true <-> market_hours e (ar_wall (tk_dt (ep_last e)))).
Proof. intros Hr He. destruct (reach_epic_ok P w Hr eid e He) as [E|(_ & _ & E)]; [now left|right]. rewrite E. apply market_open_spec. Qed.
