(** Whole runs: callbacks of a strategy, history of a frame set, dates of trades; isolation, lookups and failed calls. *)
From Verif Require Export SpecFrames EpicTimeProofs.
Open Scope Z_scope.

Section proofs.
  Context {F : Type} `{Num F}.
  Implicit Types (w : world F) (t : trade F) (e : epic F) (s : strategy) (fs : fset F).

  (** ** Callbacks over a run *)
  Lemma last_cons_default {A} (l : list A) b d : List.last (b :: l) d = List.last l b.
  Proof. revert b d. induction l as [|c l IH]; intros b d; [reflexivity|]. change (List.last (c :: l) d = List.last (c :: l) b). now rewrite !IH. Qed.
  Lemma protocol_app mo l k : protocol mo (l ++ k) = protocol mo l ++ protocol (List.last l mo) k.
  Proof.
    revert mo. induction l as [|b l IH]; intros mo; [reflexivity|]. cbn [app protocol]. now rewrite IH, <- app_assoc, last_cons_default.
  Qed.
  Lemma protocol_alternate mo l : alternate mo (protocol mo l).
  Proof.
    revert mo. induction l as [|b l IH]; intros mo; [exact I|]. destruct mo, b; simpl; auto.
  Qed.
  Lemma protocol_count mo l : length (List.filter is_tick_cb (protocol mo l)) = length l.
  Proof. revert mo. induction l as [|b l IH]; intros mo; [reflexivity|]. destruct mo, b; simpl; now rewrite IH. Qed.

  Lemma setup_log pr w (o : op F) : setup o -> w_log (fst (step pr w o)) = w_log w.
  Proof.
    intros Ho. destruct o as [k|ref|u q ref m|ref tz op cl ds hs p|a f|a s|f i|a tk|c]; try (exfalso; exact Ho); cbn [step fst]; auto.
    - now destruct (fset_init u q ref m).
    - unfold new_epic. destruct tz as [z|]; [|auto]. destruct (valid_id _ _); [|auto]. now destruct p.
    - unfold add_frame_set. destruct (w_epics w !! a); [|auto]. destruct (w_fsets w !! f); [|auto]. now destruct (dict_get _ _).
    - unfold add_strategy. destruct (w_epics w !! a); [|auto]. destruct (w_strats w !! s); [|auto]. now destruct (dict_get _ _).
    - destruct (w_fsets w !! f) as [fs|]; [|auto]. now destruct (add_indicator fs i).
  Qed.
  Lemma setup_flags pr w (o : op F) sid s0 : setup o -> w_strats w !! sid = Some s0 -> flags <$> w_strats (fst (step pr w o)) !! sid = Some (flags s0).
  Proof.
    intros Ho Hs. destruct o as [k|ref|u q ref m|ref tz op cl ds hs p|a f|a s|f i|a tk|c]; try (exfalso; exact Ho); cbn [step fst].
    - simpl. now rewrite Hs.
    - simpl. now rewrite (lookup_app_l_Some _ _ _ _ Hs).
    - destruct (fset_init u q ref m); simpl; now rewrite Hs.
    - unfold new_epic. destruct tz as [z|]; [|simpl; now rewrite Hs]. destruct (valid_id _ _); [|simpl; now rewrite Hs]. destruct p; simpl; now rewrite Hs.
    - unfold add_frame_set. destruct (w_epics w !! a); [|simpl; now rewrite Hs]. destruct (w_fsets w !! f); [|simpl; now rewrite Hs]. destruct (dict_get _ _); simpl; now rewrite Hs.
    - unfold add_strategy. destruct (w_epics w !! a); [|simpl; now rewrite Hs]. destruct (w_strats w !! s) as [s1|] eqn:E1; [|simpl; now rewrite Hs]. destruct (dict_get _ _); [simpl; now rewrite Hs|].
      cbn [fst w_strats upd_strats]. destruct (decide (sid = s)) as [->|]; [|rewrite list_lookup_insert_ne by auto; now rewrite Hs].
      rewrite list_lookup_insert by (eapply lookup_lt_Some; eauto). assert (s1 = s0) as -> by congruence. reflexivity.
    - destruct (w_fsets w !! f) as [fs|]; [|simpl; now rewrite Hs]. destruct (add_indicator fs i). simpl. now rewrite Hs.
  Qed.

  (** A dictionary whose entries are keyed by the reference of the object holds each object once. *)
  Lemma expected_one (K A : nat -> bool) eid cbs (l : list (string * nat)) k sid : NoDup (map fst l) -> (forall k1 k2, (k1, sid) ∈ l -> (k2, sid) ∈ l -> k1 = k2) ->
    (k, sid) ∈ l -> (forall i, K i = true <-> i = sid) -> A sid = true -> expected K A eid cbs l = events_of sid eid cbs.
  Proof.
    intros Hn Hu Hi HK HA. assert (forall l, (forall k1, ~ (k1, sid) ∈ l) -> expected K A eid cbs l = []) as Hnone.
    { induction l0 as [|[a i] l0 IH]; intros Hl; [reflexivity|]. unfold expected in *. cbn [map concat snd]. rewrite IH by (intros k1 Hk; apply (Hl k1); now right).
      destruct (K i) eqn:E; [|reflexivity]. apply HK in E as ->. elim (Hl a). left. }
    induction l as [|[a i] l IH]; [now apply elem_of_nil in Hi|]. cbn [map fst] in Hn. apply NoDup_cons in Hn as [Hn1 Hn2]. apply elem_of_cons in Hi as [Hi|Hi].
    - injection Hi as <- <-. assert (expected K A eid cbs l = []) as E.
      { apply Hnone. intros k1 Hk. assert (k1 = k) as -> by (apply Hu; [now right|left]). elim Hn1. apply elem_of_list_fmap. now exists (k, sid). }
      unfold expected in *. cbn [map concat snd]. rewrite E, app_nil_r, HA. assert (K sid = true) as -> by now apply HK. reflexivity.
    - assert (i <> sid) as Hne.
      { intros ->. assert (a = k) as -> by (apply Hu; [left|now right]). elim Hn1. apply elem_of_list_fmap. now exists (k, sid). }
      assert (expected K A eid cbs l = events_of sid eid cbs) as E by (apply IH; auto; intros k1 k2 H1 H2; apply Hu; now right).
      unfold expected in *. cbn [map concat snd]. rewrite E. destruct (K i) eqn:EK; [apply HK in EK; congruence|reflexivity].
  Qed.
  Lemma seen_app sid eid l k : seen sid eid (l ++ k) = seen sid eid l ++ seen sid eid k.
  Proof. unfold seen. induction l as [|x l IH]; simpl; [auto|]. destruct (_ && _); simpl; now rewrite IH. Qed.
  Lemma seen_kept sid eid l : seen sid eid l = seen sid eid (kept (fun i => Nat.eqb i sid) l).
  Proof. unfold seen, kept. induction l as [|x l IH]; simpl; [auto|]. destruct (Nat.eqb (ev_strat x) sid) eqn:E; simpl; rewrite ?E; simpl; [destruct (Nat.eqb (ev_epic x) eid); simpl; now rewrite IH|auto]. Qed.
  Lemma seen_events sid eid a cbs : seen sid eid (events_of sid a cbs) = if Nat.eqb a eid then cbs else [].
  Proof. unfold seen, events_of. induction cbs as [|c l IH]; simpl; [now destruct (Nat.eqb a eid)|]. rewrite Nat.eqb_refl. simpl. destruct (Nat.eqb a eid); simpl; [now rewrite IH|auto]. Qed.
  Lemma seen_expected sid eid a cbs (K A : nat -> bool) l : (forall i, K i = true -> i = sid) -> a <> eid -> seen sid eid (expected K A a cbs l) = [].
  Proof.
    intros HK Ha. unfold expected. induction l as [|x l IH]; simpl; [reflexivity|]. rewrite seen_app, IH, app_nil_r. destruct (K x.2) eqn:E; simpl; [|reflexivity].
    apply HK in E. rewrite E. destruct (A sid); [|reflexivity]. rewrite seen_events. destruct (Nat.eqb_spec a eid); [congruence|auto].
  Qed.

  Definition always_on s : Prop := st_paused s = None /\ st_stopped s = false.
  Lemma always_flags s : always_on s <-> flags s = (None, false).
  Proof. unfold always_on, flags. split; [intros [-> ->]; auto|intros [= -> ->]; auto]. Qed.
  Lemma same_hours e e' tk : kept_epic e e' -> is_market_open e' tk = is_market_open e tk.
  Proof. intros (K1 & K2 & K3 & K4 & K5 & K6 & _). unfold is_market_open, in_market_hours. now rewrite K3, K4, K5, K6. Qed.
  Lemma programs_weaken (P Q : cmd F -> Prop) pr : (forall c, P c -> Q c) -> programs_ok P pr -> programs_ok Q pr.
  Proof.
    intros Hi Hp a b c w. specialize (Hp a b c w). revert Hp. generalize (pr a b c w). induction s as [| |cc k IH]; simpl; auto. intros [H1 H2]. split; auto.
  Qed.

  Lemma step_callbacks (P : cmd F -> Prop) pr w (o : op F) eid e sid k s0 : (forall c, P c -> spares sid c) -> reach P w -> programs_ok P pr -> op_ok P o ->
    clean pr w [o] -> w_epics w !! eid = Some e -> (k, sid) ∈ ep_strats e -> w_strats w !! sid = Some s0 -> always_on s0 ->
    let w' := fst (step pr w o) in
    (exists evs, w_log w' = w_log w ++ evs /\ seen sid eid evs = protocol (ep_mopen e) (map (is_market_open e) (accepts w o eid))) /\
    (exists s1, w_strats w' !! sid = Some s1 /\ always_on s1) /\
    exists e1, w_epics w' !! eid = Some e1 /\ kept_epic e e1 /\ ep_mopen e1 = List.last (map (is_market_open e) (accepts w o eid)) (ep_mopen e).
  Proof.
    intros HP Hr Hp Ho Hcl He Hk Hs Ha. cbv zeta.
    assert (exists e1, w_epics (fst (step pr w o)) !! eid = Some e1 /\ kept_epic e e1 /\ ep_mopen e1 = List.last (map (is_market_open e) (accepts w o eid)) (ep_mopen e)) as Hep.
    { destruct (step_epic pr w o eid e He) as (e1 & E1 & K1 & [(L1 & L2 & L3)|(tk & -> & Hn & ->)]); (eexists; split; [exact E1|]; split; [exact K1|]).
      - rewrite L2. unfold accepts. destruct o as [| | | | | | |a tk|]; auto. destruct (decide (a = eid)) as [->|]; [|auto]. rewrite He. destruct (decide (refused e tk)) as [|Hn]; [auto|]. elim Hn. auto.
      - unfold accepts. rewrite decide_True by auto. rewrite He, decide_False by auto. reflexivity. }
    assert (flags <$> w_strats w !! sid = Some (None, false)) as Hfl by (rewrite Hs; simpl; f_equal; now apply always_flags).
    cut ((exists evs, w_log (fst (step pr w o)) = w_log w ++ evs /\ seen sid eid evs = protocol (ep_mopen e) (map (is_market_open e) (accepts w o eid))) /\
         flags <$> w_strats (fst (step pr w o)) !! sid = Some (None, false)).
    { intros [H1 H2]. split; [auto|]. split; [|auto]. destruct (w_strats (fst (step pr w o)) !! sid) as [s1|]; [|discriminate]. exists s1. split; [auto|]. apply always_flags. injection H2 as H2a H2b. unfold flags. now rewrite H2a, H2b. }
    assert (setup o \/ (exists a tk, o = OTick a tk) \/ exists c, o = OCmd c) as [Hset|[(a & tk & ->)|(c & ->)]] by (destruct o; simpl; eauto).
    - split.
      + exists []. rewrite app_nil_r, (setup_log _ _ _ Hset). split; [auto|]. destruct o; try reflexivity. destruct Hset.
      + rewrite (setup_flags _ _ _ _ _ Hset Hs). f_equal. now apply always_flags.
    - cbn [step] in *. destruct (w_epics w !! a) as [ea|] eqn:Ea.
      2:{ unfold epic_on_new_tick. rewrite Ea. split; [|auto]. exists []. rewrite app_nil_r. split; [auto|]. unfold accepts. destruct (decide (a = eid)) as [->|]; [congruence|auto]. }
      destruct (refused_dec ea tk) as [Hre|Hre].
      { rewrite (tick_refused _ _ _ _ _ Ea Hre). split; [|auto]. exists []. rewrite app_nil_r. split; [auto|]. unfold accepts. destruct (decide (a = eid)) as [->|]; [|auto].
        rewrite Ea, decide_True by auto. auto. }
      destruct Hcl as [[Hok|Hok] _]; [|elim Hre; auto].
      set (K := fun i => Nat.eqb i sid). assert (forall i, K i = true <-> i = sid) as HK by (intros i; apply Nat.eqb_eq).
      pose proof (tick_events K K pr w a ea tk) as Hx. cbn [step] in Hok. destruct (epic_on_new_tick pr w a tk) as [w' r]. cbn [fst snd] in *. subst r.
      destruct Hx as (_ & (evs & X1 & _ & X2) & X3); auto.
      { eapply programs_weaken; [|exact Hp]. intros c Hc i Hi. apply HK in Hi as ->. auto. }
      { intros i s1 Hi Hs1. rewrite Hi. apply HK in Hi as ->. assert (s1 = s0) as -> by congruence. destruct Ha as [A1 A2]. unfold takes_part. now rewrite A1, A2. }
      specialize (X2 eq_refl). split.
      + exists evs. split; [auto|]. rewrite seen_kept. fold K. rewrite X2. unfold accepts. destruct (decide (a = eid)) as [->|Hne].
        * assert (ea = e) as -> by congruence. rewrite Ea, decide_False by auto. destruct (reach_refs P w eid e Hr Ea) as (R1 & R2 & _).
          rewrite (expected_one K K eid _ _ k sid); [rewrite seen_events, Nat.eqb_refl| | | | |]; auto.
          -- cbn [map protocol]. now rewrite app_nil_r.
          -- intros k1 k2 H1 H2. destruct (R1 _ _ H1) as (s1 & S1 & S2). destruct (R1 _ _ H2) as (s2 & S3 & S4). congruence.
          -- now apply HK.
        * apply seen_expected; auto. intros i Hi. now apply HK.
      + destruct (X3 sid) as [[X4|[_ X4]] _]; [now apply HK|congruence|auto].
    - cbn [step]. pose proof (cmd_rest w c) as E. injection E as _ _ E. split.
      + exists []. rewrite app_nil_r, E. auto.
      + rewrite cmd_flags by (apply HP; exact Ho). auto.
  Qed.
  Lemma run_callbacks (P : cmd F -> Prop) pr l : forall w eid e sid k s0, (forall c, P c -> spares sid c) -> reach P w -> programs_ok P pr -> Forall (op_ok P) l ->
    clean pr w l -> w_epics w !! eid = Some e -> (k, sid) ∈ ep_strats e -> w_strats w !! sid = Some s0 -> always_on s0 ->
    exists evs, w_log (run pr w l) = w_log w ++ evs /\ seen sid eid evs = protocol (ep_mopen e) (map (is_market_open e) (accepted pr w l eid)).
  Proof.
    induction l as [|o l IH]; intros w eid e sid k s0 HP Hr Hp Hl Hcl He Hk Hs Ha.
    - exists []. simpl. rewrite app_nil_r. auto.
    - apply Forall_cons in Hl as [Ho Hl]. destruct Hcl as [Hc1 Hc2]. assert (clean pr w [o]) as Hc by (split; [exact Hc1|exact I]).
      destruct (step_callbacks P pr w o eid e sid k s0 HP Hr Hp Ho Hc He Hk Hs Ha) as ((ev1 & V1 & V2) & (s1 & S1 & S2) & (e1 & E1 & K1 & M1)).
      assert ((k, sid) ∈ ep_strats e1) as Hk1. { destruct K1 as (_ & _ & _ & _ & _ & _ & _ & _ & [z ->]). apply elem_of_app. now left. }
      destruct (IH (fst (step pr w o)) eid e1 sid k s1 HP ltac:(now apply step_reach) Hp Hl Hc2 E1 Hk1 S1 S2) as (ev2 & W1 & W2).
      exists (ev1 ++ ev2). cbn [run fold_left accepted]. unfold run in W1. rewrite W1, V1, app_assoc. split; [auto|]. rewrite seen_app, V2, W2, map_app, protocol_app, M1. f_equal. f_equal.
      apply map_ext. intros tk. now apply same_hours.
  Qed.
  Lemma callbacks_of_run (P : cmd F -> Prop) pr l w eid e sid k s0 : (forall c, P c -> spares sid c) -> reach P w -> programs_ok P pr -> Forall (op_ok P) l ->
    clean pr w l -> w_epics w !! eid = Some e -> (k, sid) ∈ ep_strats e -> w_strats w !! sid = Some s0 -> st_paused s0 = None -> st_stopped s0 = false ->
    exists evs, w_log (run pr w l) = w_log w ++ evs /\ alternate (ep_mopen e) (seen sid eid evs) /\
      length (List.filter is_tick_cb (seen sid eid evs)) = length (accepted pr w l eid) /\
      seen sid eid evs = protocol (ep_mopen e) (map (is_market_open e) (accepted pr w l eid)).
  Proof.
    intros HP Hr Hp Hl Hcl He Hk Hs H1 H2. destruct (run_callbacks P pr l w eid e sid k s0 HP Hr Hp Hl Hcl He Hk Hs ltac:(split; auto)) as (evs & E1 & E2).
    exists evs. split; [auto|]. rewrite E2. split; [apply protocol_alternate|]. split; [rewrite protocol_count; apply map_length|auto].
  Qed.
End proofs.
