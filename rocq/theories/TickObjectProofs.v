(** Proofs about tick objects. *)
From Verif Require Export SpecTickObjects EpicTimeProofs ChartProofs.
Open Scope Z_scope.

Section proofs.
  Context {F : Type} `{Num F}.
  Implicit Types (s : oworld F) (w : world F) (t : tick F).

  Lemma same_quote_to z t t' : same_quote t t' -> tick_to z t = tick_to z t'.
  Proof. intros (H1 & H2 & H3). unfold tick_to, arrow_to. now rewrite H1, H2, H3. Qed.
  Lemma same_quote_self z t : same_quote t (tick_to z t).
  Proof. unfold same_quote, tick_to. auto. Qed.
  Lemma tick_to_twice z z' t : tick_to z (tick_to z' t) = tick_to z t.
  Proof. symmetry. apply same_quote_to, same_quote_self. Qed.
  Lemma on_tick_value pr w eid e t : w_epics w !! eid = Some e -> epic_on_new_tick pr w eid (tick_to (ep_tz e) t) = epic_on_new_tick pr w eid t.
  Proof. intros E. unfold epic_on_new_tick. rewrite E, tick_to_twice. reflexivity. Qed.
  Lemma set_last_id (e : epic F) : ep_set_last e (ep_last e) (ep_mopen e) = e.
  Proof. destruct e. reflexivity. Qed.

  (** ** Quotes never change *)
  Lemma o_step_quote pr s o tid t : ow_ticks s !! tid = Some t -> exists t', ow_ticks (fst (o_step pr s o)) !! tid = Some t' /\ same_quote t t'.
  Proof.
    intros E. assert (same_quote t t) as Hr by (unfold same_quote; auto). destruct o as [eid k|o].
    - cbn [o_step]. unfold o_tick. destruct (w_epics (ow_world s) !! eid) as [e|]; [|eauto]. destruct (ow_ticks s !! k) as [tk|] eqn:Ek; [|eauto].
      destruct (epic_on_new_tick _ _ _ _) as [w2 r]. cbn [fst ow_ticks]. destruct (Nat.eq_dec k tid) as [->|Hne].
      + rewrite list_lookup_insert by (eapply lookup_lt_Some; eauto). rewrite E in Ek. apply (inj Some) in Ek. subst tk. eexists. split; [reflexivity|]. apply same_quote_self.
      + rewrite list_lookup_insert_ne by auto. eauto.
    - cbn [o_step]. destruct (step pr (ow_world s) o) as [w r]. cbn. eauto.
  Qed.
  Lemma same_quote_trans t1 t2 t3 : same_quote t1 t2 -> same_quote t2 t3 -> same_quote t1 t3.
  Proof. intros (A1 & A2 & A3) (B1 & B2 & B3). unfold same_quote. split; [congruence|]. split; congruence. Qed.
  Lemma o_run_quote pr l s tid t : ow_ticks s !! tid = Some t -> exists t', ow_ticks (o_run pr s l) !! tid = Some t' /\ same_quote t t'.
  Proof.
    revert s t. induction l as [|o l IH]; intros s t E.
    - exists t. split; [exact E|unfold same_quote; auto].
    - destruct (o_step_quote pr s o tid t E) as (t1 & E1 & Q1). destruct (IH _ _ E1) as (t2 & E2 & Q2). exists t2. split; [exact E2|eapply same_quote_trans; eauto].
  Qed.
  (** After a call, accepted or not, the object is in the zone of the epic. *)
  Lemma o_tick_zone pr s eid tid e t : w_epics (ow_world s) !! eid = Some e -> ow_ticks s !! tid = Some t ->
    ow_ticks (fst (o_step pr s (OBTick eid tid))) !! tid = Some (tick_to (ep_tz e) t).
  Proof.
    intros Ee Et. cbn [o_step]. unfold o_tick. rewrite Ee, Et. destruct (epic_on_new_tick _ _ _ _) as [w2 r]. cbn [fst ow_ticks].
    apply list_lookup_insert. eapply lookup_lt_Some; eauto.
  Qed.

  (** ** One zone per tick object *)
  Definition held (zone : nat -> tzinfo) (ts : list (tick F)) s : Prop :=
    (forall eid tid, ow_last s eid = Some tid -> exists e t, w_epics (ow_world s) !! eid = Some e /\ ow_ticks s !! tid = Some t /\
       ep_last e = t /\ tick_to (zone tid) t = t) /\
    (length (ow_ticks s) = length ts /\ forall tid t, ts !! tid = Some t -> exists t', ow_ticks s !! tid = Some t' /\ same_quote t t').

  Lemma sync_id zone ts s eid e tid t : held zone ts s -> w_epics (ow_world s) !! eid = Some e -> ow_ticks s !! tid = Some t -> ep_tz e = zone tid ->
    sync (<[tid := tick_to (ep_tz e) t]> (ow_ticks s)) (ow_last s) (ow_world s) = ow_world s.
  Proof.
    intros [H1 _] Ee Et Ez. unfold sync. replace (imap _ _) with (w_epics (ow_world s)); [now destruct (ow_world s)|].
    apply list_eq. intros i. rewrite list_lookup_imap. destruct (w_epics (ow_world s) !! i) as [b|] eqn:Eb; [|auto]. cbn. f_equal. unfold sync_epic.
    destruct (ow_last s i) as [k|] eqn:Ek; [|auto]. destruct (H1 i k Ek) as (b' & t' & Eb' & Et' & El & Hid). rewrite Eb in Eb'. apply (inj Some) in Eb'. subst b'.
    destruct (Nat.eq_dec tid k) as [->|Hne].
    - rewrite list_lookup_insert by (eapply lookup_lt_Some; eauto). rewrite Et in Et'. apply (inj Some) in Et'. subst t'. rewrite Ez, Hid, <- El. symmetry. apply set_last_id.
    - rewrite list_lookup_insert_ne by auto. rewrite Et', <- El. symmetry. apply set_last_id.
  Qed.

  Lemma o_tick_value zone ts pr s eid tid e : held zone ts s -> w_epics (ow_world s) !! eid = Some e -> ep_tz e = zone tid -> (tid < length ts)%nat ->
    ow_world (fst (o_step pr s (OBTick eid tid))) = fst (step pr (ow_world s) (by_value ts (OBTick eid tid))) /\
    snd (o_step pr s (OBTick eid tid)) = snd (step pr (ow_world s) (by_value ts (OBTick eid tid))) /\
    held zone ts (fst (o_step pr s (OBTick eid tid))).
  Proof.
    intros Hh Ee Ez Hlt. pose proof Hh as [H1 [H2 H3]]. destruct (lookup_lt_is_Some_2 ts tid Hlt) as [t0 Et0]. destruct (H3 _ _ Et0) as (t & Et & Hq).
    cbn [o_step by_value step]. rewrite (nth_lookup_Some _ _ _ _ Et0). unfold o_tick. rewrite Ee, Et.
    rewrite (sync_id zone ts s eid e tid t) by auto. rewrite (on_tick_value pr (ow_world s) eid e t Ee).
    assert (epic_on_new_tick pr (ow_world s) eid t = epic_on_new_tick pr (ow_world s) eid t0) as Eq.
    { rewrite <- (on_tick_value pr _ eid e t Ee), <- (on_tick_value pr _ eid e t0 Ee), (same_quote_to _ _ _ Hq). reflexivity. }
    rewrite Eq. destruct (epic_on_new_tick pr (ow_world s) eid t0) as [w2 r] eqn:E2. cbn [fst snd ow_world]. split; [auto|]. split; [auto|].
    rewrite Ee. split; cbn [ow_world ow_ticks ow_last].
    - intros i k Hk. destruct (arrow_ltb (tk_dt (tick_to (ep_tz e) t)) (tk_dt (ep_last e))) eqn:Ea.
      + rewrite andb_false_r in Hk. assert (refused e t0) as Href.
        { unfold refused. change (arrow_to (ep_tz e) (tk_dt t0)) with (tk_dt (tick_to (ep_tz e) t0)). rewrite (same_quote_to _ _ _ Hq). exact Ea. }
        rewrite (tick_refused pr _ eid e t0 Ee Href) in E2. injection E2 as <- <-. destruct (H1 i k Hk) as (b & x & B1 & B2 & B3 & B4). exists b.
        destruct (Nat.eq_dec tid k) as [->|Hne].
        * exists x. rewrite list_lookup_insert by (eapply lookup_lt_Some; eauto). rewrite Et in B2. apply (inj Some) in B2. subst x. rewrite Ez, B4. auto.
        * exists x. rewrite list_lookup_insert_ne by auto. auto.
      + assert (~ refused e t0) as Href.
        { unfold refused. change (arrow_to (ep_tz e) (tk_dt t0)) with (tk_dt (tick_to (ep_tz e) t0)). rewrite (same_quote_to _ _ _ Hq), Ea. discriminate. }
        pose proof (tick_epics pr (ow_world s) eid e t0 Ee Href) as Hep. rewrite E2 in Hep. cbn [fst] in Hep. rewrite Hep.
        destruct (Nat.eqb_spec i eid) as [->|Hi].
        * cbn in Hk. apply (inj Some) in Hk. subst k. exists (accepted_epic e t0), (tick_to (ep_tz e) t).
          rewrite !list_lookup_insert by (eapply lookup_lt_Some; eauto). split; [auto|]. split; [auto|]. split; [|rewrite <- Ez; apply tick_to_twice].
          unfold accepted_epic. cbn. apply (same_quote_to _ _ _ Hq).
        * cbn in Hk. destruct (H1 i k Hk) as (b & x & B1 & B2 & B3 & B4). exists b. rewrite (list_lookup_insert_ne (w_epics (ow_world s))) by auto.
          destruct (Nat.eq_dec tid k) as [->|Hne].
          -- exists x. rewrite list_lookup_insert by (eapply lookup_lt_Some; eauto). rewrite Et in B2. apply (inj Some) in B2. subst x. rewrite Ez, B4. auto.
          -- exists x. rewrite list_lookup_insert_ne by auto. auto.
    - split; [now rewrite insert_length|]. intros k x Hx. destruct (H3 k x Hx) as (x' & Ex & Qx). destruct (Nat.eq_dec tid k) as [->|Hne].
      + rewrite list_lookup_insert by (eapply lookup_lt_Some; eauto). eexists. split; [reflexivity|]. rewrite Et in Ex. apply (inj Some) in Ex. subst x'.
        eapply same_quote_trans; [exact Qx|apply same_quote_self].
      + rewrite list_lookup_insert_ne by auto. eauto.
  Qed.

  Lemma o_step_value zone ts pr s o l : held zone ts s -> uses ts o -> one_zone zone pr s (o :: l) ->
    ow_world (fst (o_step pr s o)) = fst (step pr (ow_world s) (by_value ts o)) /\
    snd (o_step pr s o) = snd (step pr (ow_world s) (by_value ts o)) /\
    held zone ts (fst (o_step pr s o)).
  Proof.
    intros Hh Hu [Hz _]. destruct o as [eid tid|o].
    - destruct (w_epics (ow_world s) !! eid) as [e|] eqn:Ee; [apply (o_tick_value zone ts pr s eid tid e); auto|].
      cbn [o_step by_value step]. unfold o_tick, epic_on_new_tick. rewrite Ee. auto.
    - cbn [o_step by_value]. destruct (step pr (ow_world s) o) as [w r] eqn:Es. cbn [fst snd ow_world]. split; [auto|]. split; [auto|].
      destruct Hh as [H1 H2]. split; [|exact H2]. cbn [ow_world ow_ticks ow_last]. intros eid tid Hl. destruct (H1 eid tid Hl) as (e & t & E1 & E2 & E3 & E4).
      destruct (step_market pr (ow_world s) o eid e E1) as (e' & Ee' & Hm). rewrite Es in Ee'. exists e', t. split; [exact Ee'|]. split; [auto|]. split; [|auto].
      destruct o; try (destruct Hu); cbn [next_market] in Hm; unfold market in Hm; injection Hm; congruence.
  Qed.

  Lemma o_run_value zone ts pr l : forall s, held zone ts s -> Forall (uses ts) l -> one_zone zone pr s l ->
    ow_world (o_run pr s l) = run pr (ow_world s) (map (by_value ts) l) /\ held zone ts (o_run pr s l).
  Proof.
    induction l as [|o l IH]; intros s Hh Hu Hz; [auto|]. apply Forall_cons in Hu as [Hu Hu'].
    destruct (o_step_value zone ts pr s o l Hh Hu Hz) as (E1 & _ & Hh'). destruct Hz as [_ Hz]. cbn [o_run fold_left map run]. rewrite <- E1. apply IH; auto.
  Qed.
  Lemma held_init zone w (ts : list (tick F)) : held zone ts (o_init w ts).
  Proof. split; [intros eid tid [=]|]. split; [auto|]. intros tid t E. exists t. split; [exact E|unfold same_quote; auto]. Qed.
  Lemma one_zone_app zone pr s l k : one_zone zone pr s (l ++ k) -> one_zone zone pr s l /\ one_zone zone pr (o_run pr s l) k.
  Proof.
    revert s. induction l as [|o l IH]; intros s Hz; [split; [exact I|exact Hz]|]. destruct Hz as [H1 H2]. apply IH in H2 as [H2 H3]. split; [split; auto|exact H3].
  Qed.
  Lemma objects_as_values zone ts pr w l o : Forall (uses ts) (l ++ [o]) -> one_zone zone pr (o_init w ts) (l ++ [o]) ->
    ow_world (o_run pr (o_init w ts) (l ++ [o])) = run pr w (map (by_value ts) (l ++ [o])) /\
    snd (o_step pr (o_run pr (o_init w ts) l) o) = snd (step pr (run pr w (map (by_value ts) l)) (by_value ts o)).
  Proof.
    intros Hu Hz. split; [apply (o_run_value zone ts pr (l ++ [o]) (o_init w ts)); auto using held_init|].
    apply one_zone_app in Hz as [Hz1 Hz2]. apply Forall_app in Hu as [Hu1 Hu2]. destruct (o_run_value zone ts pr l (o_init w ts) (held_init _ _ _) Hu1 Hz1) as [E Hh].
    apply Forall_cons in Hu2 as [Hu2 _]. cbn [o_init ow_world] in E. rewrite <- E. eapply o_step_value; eauto.
  Qed.
End proofs.
