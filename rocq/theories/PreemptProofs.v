(** Threads that run between any two statements act as if they ran afterwards (C78). *)
From Verif Require Export SpecPreempt ScheduleProofs.
Open Scope Z_scope.

Section proofs.
  Context {F : Type} `{Num F}.
  Implicit Types (w : world F) (t : trade F) (s : istate F).

  Definition known w (x : nat * nat) : Prop := exists p, w_provs w !! x.1 = Some p /\ (x.2 < length (pv_threads p))%nat.
  Definition target (ts : list (trade F)) (j : job) : Prop :=
    match j with JOpen i => (i < length ts)%nat | JClose i c => exists t, ts !! i = Some t /\ (c < length (tr_closes t))%nat end.
  Definition jobs_ok w : Prop := forall a p k th, w_provs w !! a = Some p -> pv_threads p !! k = Some th -> target (w_trades w) (th_job th).

  Lemma known_erase w w' x : erase w = erase w' -> known w x -> known w' x.
  Proof.
    intros E (p & Ep & Hk). assert (erase_prov <$> w_provs w' !! x.1 = Some (erase_prov p)) as E1 by (rewrite <- erase_p, <- E, erase_p, Ep; reflexivity).
    destruct (w_provs w' !! x.1) as [p'|] eqn:Ep'; [|discriminate]. exists p'. split; [auto|]. simpl in E1. assert (erase_prov p' = erase_prov p) as E2 by congruence.
    apply (f_equal (fun q => length (pv_threads q))) in E2. simpl in E2. rewrite !fmap_length in E2. lia.
  Qed.
  Lemma target_erase w w' j : erase w = erase w' -> target (w_trades w) j -> target (w_trades w') j.
  Proof.
    intros E. destruct j as [i|i c]; simpl.
    - intros Hi. apply (f_equal (fun x => length (w_trades x))) in E. simpl in E. rewrite !fmap_length in E. lia.
    - intros (t & Et & Hc). assert (erase_trade <$> w_trades w' !! i = Some (erase_trade t)) as E1 by (rewrite <- erase_t, <- E, erase_t, Et; reflexivity).
      destruct (w_trades w' !! i) as [t'|] eqn:Et'; [|discriminate]. exists t'. split; [auto|]. simpl in E1. assert (erase_trade t' = erase_trade t) as E2 by congruence.
      apply (f_equal (fun q => length (tr_closes q))) in E2. simpl in E2. rewrite !fmap_length in E2. lia.
  Qed.
  Lemma jobs_erase w w' : erase w = erase w' -> jobs_ok w -> jobs_ok w'.
  Proof.
    intros E Hj a p' k th' Ep' Et'. assert (erase_prov <$> w_provs w !! a = Some (erase_prov p')) as E1 by (rewrite <- erase_p, E, erase_p, Ep'; reflexivity).
    destruct (w_provs w !! a) as [p|] eqn:Ep; [|discriminate]. simpl in E1. assert (erase_prov p = erase_prov p') as E2 by congruence.
    apply (f_equal (fun q => pv_threads q !! k)) in E2. simpl in E2. rewrite !list_lookup_fmap, Et' in E2.
    destruct (pv_threads p !! k) as [th|] eqn:Et; [|discriminate]. simpl in E2. assert (th_job th = th_job th') as <- by congruence.
    eapply target_erase; [exact E|]. eapply Hj; eauto.
  Qed.
  Lemma batch_erase b : forall w, erase (batch w b) = erase w.
  Proof. induction b as [|x b IH]; intros w; [auto|]. change (batch w (x :: b)) with (batch (run_thread w x.1 x.2) b). now rewrite IH, erase_run_thread. Qed.
  Lemma not_known w x : ~ known w x -> run_thread w x.1 x.2 = w.
  Proof.
    intros Hn. unfold run_thread. destruct (w_provs w !! x.1) as [p|] eqn:Ep; [|auto]. destruct (pv_threads p !! x.2) as [th|] eqn:Et; [|auto].
    destruct Hn. exists p. split; [auto|]. eapply lookup_lt_Some; eauto.
  Qed.
  Lemma known_dec w x : known w x \/ ~ known w x.
  Proof.
    unfold known. destruct (w_provs w !! x.1) as [p|] eqn:Ep.
    - destruct (decide (x.2 < length (pv_threads p))%nat) as [Hl|Hl]; [left; eauto|right; intros (q & Eq & Hq); assert (q = p) as -> by congruence; lia].
    - right. intros (q & Eq & _). discriminate.
  Qed.
  Lemma batch_known b : forall w, exists b', Forall (known w) b' /\ batch w b = batch w b'.
  Proof.
    induction b as [|x b IH]; intros w; [exists []; auto|]. change (batch w (x :: b)) with (batch (run_thread w x.1 x.2) b).
    destruct (IH (run_thread w x.1 x.2)) as (b' & Hb & E). destruct (known_dec w x) as [Hk|Hk].
    - exists (x :: b'). split; [|exact E]. constructor; [auto|]. eapply Forall_impl; [exact Hb|]. intros y. apply known_erase. apply erase_run_thread.
    - exists b'. rewrite (not_known w x Hk) in Hb, E |- *. auto.
  Qed.

  (** The interrupted state is the uninterrupted one after some threads. *)
  Definition R s w : Prop := jobs_ok w /\ exists b, Forall (known w) b /\ s.1 = batch w b.
  Lemma R_erase s w : R s w -> erase s.1 = erase w.
  Proof. intros (_ & b & _ & ->). apply batch_erase. Qed.
  Lemma R_pause s w : R s w -> R (pause s) w.
  Proof.
    intros (Hj & b & Hb & E). split; [auto|]. unfold pause. destruct (s.2) as [|b1 l]; [exists b; auto|]. simpl. rewrite E.
    destruct (batch_known (b ++ b1) w) as (b' & Hb' & E'). exists b'. split; [auto|]. rewrite <- E'. unfold batch. now rewrite fold_left_app.
  Qed.
  Definition smooth (f : world F -> world F) w : Prop := forall x, known w x -> known (f w) x /\ f (run_thread w x.1 x.2) = run_thread (f w) x.1 x.2.
  Lemma batch_smooth (Q : world F -> Prop) f : (forall w, jobs_ok w -> Q w -> smooth f w) -> (forall w w', erase w = erase w' -> Q w -> Q w') ->
    forall b w, jobs_ok w -> Q w -> Forall (known w) b -> f (batch w b) = batch (f w) b /\ Forall (known (f w)) b.
  Proof.
    intros Hf HQ. induction b as [|x b IH]; intros w Hj Hq Hb; [auto|]. inversion Hb as [|? ? Hx Hb' E1]; subst.
    destruct (Hf w Hj Hq x Hx) as (Hk & E). change (batch ?w0 (x :: b)) with (batch (run_thread w0 x.1 x.2) b).
    pose proof (erase_run_thread w x.1 x.2) as Ee. destruct (IH (run_thread w x.1 x.2)) as (E2 & Hb2).
    - eapply jobs_erase; [symmetry; exact Ee|auto].
    - eapply HQ; [symmetry; exact Ee|auto].
    - eapply Forall_impl; [exact Hb'|]. intros y. apply known_erase. now symmetry.
    - rewrite E2, E. split; [auto|]. constructor; [auto|]. rewrite E in Hb2. eapply Forall_impl; [exact Hb2|]. intros y. apply known_erase. apply erase_run_thread.
  Qed.
  Lemma R_stmt (Q : world F -> Prop) f s w : (forall w, jobs_ok w -> Q w -> smooth f w /\ jobs_ok (f w)) -> (forall w w', erase w = erase w' -> Q w -> Q w') ->
    Q w -> R s w -> R (stmt f s) (f w).
  Proof.
    intros Hf HQ Hq (Hj & b & Hb & E). unfold stmt. apply R_pause. destruct (Hf w Hj Hq) as (_ & Hj'). split; [auto|]. exists b.
    destruct (batch_smooth Q f (fun w a b => proj1 (Hf w a b)) HQ b w Hj Hq Hb) as (E2 & Hb2). split; [auto|]. simpl. now rewrite E.
  Qed.
  Lemma R_stmt_all f s w : (forall w, jobs_ok w -> smooth f w /\ jobs_ok (f w)) -> R s w -> R (stmt f s) (f w).
  Proof. intros Hf. apply (R_stmt (fun _ => True)); auto. Qed.

  (** ** Statements *)
  (** Statements about something else. *)
  Definition elsewhere (f : world F -> world F) : Prop := forall w, w_trades (f w) = w_trades w /\ w_provs (f w) = w_provs w /\
    forall ts ps, f (upd_provs (upd_trades w ts) ps) = upd_provs (upd_trades (f w) ts) ps.
  Lemma smooth_elsewhere f : elsewhere f -> forall w, jobs_ok w -> smooth f w /\ jobs_ok (f w).
  Proof.
    intros Hf w Hj. destruct (Hf w) as (Et & Ep & Ef). split.
    - intros x (p & E & Hk). split; [exists p; now rewrite Ep|]. unfold run_thread. rewrite Ep, E. destruct (pv_threads p !! x.2) as [th|]; [|auto].
      destruct (th_done th); [auto|]. rewrite Ef, Et. reflexivity.
    - intros a p k th. rewrite Ep, Et. apply Hj.
  Qed.
  Definition mark (c : nat) (st : status) t : trade F := set_closes t (alter (fun y => set_cstatus y st) c (tr_closes t)).
  Definition plain (g : trade F -> trade F) : Prop := forall t, (length (tr_closes t) <= length (tr_closes (g t)))%nat /\
    (forall st, g (set_status t st) = set_status (g t) st) /\ (forall c st, (c < length (tr_closes t))%nat -> g (mark c st t) = mark c st (g t)).
  Lemma alter_swap {A} (f g : A -> A) i j (l : list A) : (forall x, l !! i = Some x -> i = j -> f (g x) = g (f x)) -> alter f i (alter g j l) = alter g j (alter f i l).
  Proof.
    intros Hc. apply list_eq. intros n. destruct (decide (i = n)) as [->|Hi]; destruct (decide (j = n)) as [->|Hn].
    - rewrite !list_lookup_alter. destruct (l !! n) as [x|] eqn:E; [|auto]. simpl. f_equal. now apply Hc.
    - rewrite list_lookup_alter, !list_lookup_alter_ne, list_lookup_alter by auto. auto.
    - rewrite list_lookup_alter_ne, !list_lookup_alter, list_lookup_alter_ne by auto. auto.
    - rewrite !list_lookup_alter_ne by auto. auto.
  Qed.
  Lemma alter_insert_ne {A} (f : A -> A) i j x (l : list A) : i <> j -> alter f i (<[j := x]> l) = <[j := x]> (alter f i l).
  Proof.
    intros Hn. apply list_eq. intros n. destruct (decide (i = n)) as [->|Hi]; [rewrite list_lookup_alter, !list_lookup_insert_ne, list_lookup_alter by auto; auto|].
    rewrite list_lookup_alter_ne by auto. destruct (decide (j = n)) as [->|Hj'].
    - destruct (decide (n < length l)%nat) as [Hl|Hl].
      + rewrite !list_lookup_insert; [auto|now rewrite alter_length|auto].
      + rewrite !list_insert_ge by (rewrite ?alter_length; lia). now rewrite list_lookup_alter_ne.
    - rewrite !list_lookup_insert_ne, list_lookup_alter_ne by auto. auto.
  Qed.
  Lemma job_alter g tid k j (ts : list (trade F)) : plain g -> target ts j -> alter g tid (job_effect k j ts) = job_effect k j (alter g tid ts).
  Proof.
    intros Hg Hj. assert (forall st, match j with
      | JOpen i => alter g tid (alter (fun x => set_status x st) i ts) = alter (fun x => set_status x st) i (alter g tid ts)
      | JClose i c => alter g tid (alter (mark c st) i ts) = alter (mark c st) i (alter g tid ts) end) as Ha.
    { intros st. destruct j as [i|i c]; apply alter_swap; intros x Ex E; destruct (Hg x) as (_ & H1 & H2).
      - apply H1.
      - subst i. destruct Hj as (t & Et & Hc). assert (t = x) as -> by congruence. now apply H2. }
    destruct k; [|auto|]; destruct j; simpl in *; apply Ha.
  Qed.
  Lemma smooth_trade g tid : plain g -> forall w, jobs_ok w -> smooth (on_trade tid g) w /\ jobs_ok (on_trade tid g w).
  Proof.
    intros Hg w Hj. split.
    - intros x (p & E & Hk). split; [exists p; auto|]. unfold run_thread. simpl. rewrite E. destruct (pv_threads p !! x.2) as [th|] eqn:Et; [|auto].
      destruct (th_done th); [auto|]. unfold on_trade, upd_trades, upd_provs. simpl. f_equal. apply job_alter; [auto|]. eapply Hj; eauto.
    - intros a p k th Ep Et. specialize (Hj a p k th Ep Et). simpl. destruct (th_job th) as [i|i c]; simpl in *; [now rewrite alter_length|].
      destruct Hj as (t & Et' & Hc). destruct (decide (tid = i)) as [->|Hn].
      + rewrite list_lookup_alter, Et'. simpl. eexists. split; [reflexivity|]. destruct (Hg t) as (Hl & _). lia.
      + rewrite list_lookup_alter_ne by auto. eauto.
  Qed.
  (** Statements about a provider. *)
  Lemma smooth_register pid tid w : jobs_ok w ->
    let f := fun w => upd_provs w (alter (fun p => pv_set_trades p (pv_trades p ++ [tid])) pid (w_provs w)) in smooth f w /\ jobs_ok (f w).
  Proof.
    intros Hj f. split.
    - intros x (p & E & Hk). split.
      + unfold f. unfold known. simpl. destruct (decide (pid = x.1)) as [->|Hn].
        * rewrite list_lookup_alter, E. simpl. eexists. split; [reflexivity|auto].
        * rewrite list_lookup_alter_ne by auto. eauto.
      + unfold f, run_thread. simpl. rewrite E. destruct (decide (pid = x.1)) as [->|Hn].
        * rewrite list_lookup_alter, E. simpl. destruct (pv_threads p !! x.2) as [th|]; [|auto]. destruct (th_done th); [auto|].
          unfold upd_provs, upd_trades. simpl. f_equal. apply list_eq. intros n. destruct (decide (x.1 = n)) as [<-|Hn].
          -- rewrite list_lookup_alter, !list_lookup_insert; [reflexivity|rewrite alter_length|]; eapply lookup_lt_Some; eauto.
          -- rewrite list_lookup_alter_ne, !list_lookup_insert_ne, list_lookup_alter_ne by auto. auto.
        * rewrite list_lookup_alter_ne, E by auto. destruct (pv_threads p !! x.2) as [th|]; [|auto]. destruct (th_done th); [auto|].
          unfold upd_provs, upd_trades. simpl. f_equal. now rewrite alter_insert_ne by auto.
    - intros a p k th Ep Et. unfold f in *. simpl in *. destruct (decide (pid = a)) as [->|Hn].
      + rewrite list_lookup_alter in Ep. destruct (w_provs w !! a) as [q|] eqn:Eq; [|discriminate]. simpl in Ep. assert (pv_threads p = pv_threads q) as E1 by (now injection Ep as <-).
        rewrite E1 in Et. eapply Hj; eauto.
      + rewrite list_lookup_alter_ne in Ep by auto. eapply Hj; eauto.
  Qed.
  Lemma smooth_add pid j w : jobs_ok w -> target (w_trades w) j -> smooth (fun w => add_thread w pid j) w /\ jobs_ok (add_thread w pid j).
  Proof.
    intros Hj Ht. split.
    - intros x (p & E & Hk). split.
      + unfold known, add_thread. simpl. destruct (decide (pid = x.1)) as [->|Hn].
        * rewrite list_lookup_alter, E. simpl. eexists. split; [reflexivity|]. simpl. rewrite app_length. lia.
        * rewrite list_lookup_alter_ne by auto. eauto.
      + unfold add_thread, run_thread. simpl. rewrite E. destruct (decide (pid = x.1)) as [->|Hn].
        * rewrite list_lookup_alter, E. simpl. rewrite lookup_app_l by auto. destruct (pv_threads p !! x.2) as [th|]; [|auto]. destruct (th_done th); [auto|].
          unfold upd_provs, upd_trades. simpl. f_equal. apply list_eq. intros n. destruct (decide (x.1 = n)) as [<-|Hn].
          -- rewrite list_lookup_alter, !list_lookup_insert; [|rewrite alter_length|]; [|eapply lookup_lt_Some; eauto..]. simpl. unfold pv_set_threads. simpl. now rewrite insert_app_l.
          -- rewrite list_lookup_alter_ne, !list_lookup_insert_ne, list_lookup_alter_ne by auto. auto.
        * rewrite list_lookup_alter_ne, E by auto. destruct (pv_threads p !! x.2) as [th|]; [|auto]. destruct (th_done th); [auto|].
          unfold upd_provs, upd_trades. simpl. f_equal. now rewrite alter_insert_ne by auto.
    - intros a p k th Ep Et. unfold add_thread in *. simpl in *. destruct (decide (pid = a)) as [->|Hn].
      + rewrite list_lookup_alter in Ep. destruct (w_provs w !! a) as [q|] eqn:Eq; [|discriminate]. simpl in Ep.
        assert (pv_threads p = pv_threads q ++ [{| th_job := j; th_done := false |}]) as E1 by (now injection Ep as <-).
        rewrite E1 in Et. apply lookup_app_Some in Et as [Et|[_ Et]]; [eapply Hj; eauto|]. apply list_lookup_singleton_Some in Et as [_ <-]. exact Ht.
      + rewrite list_lookup_alter_ne in Ep by auto. eapply Hj; eauto.
  Qed.
  Lemma smooth_new_provider k w : jobs_ok w -> let f := fun w => upd_provs w (w_provs w ++ [{| pv_kind := k; pv_trades := []; pv_threads := [] |}]) in smooth f w /\ jobs_ok (f w).
  Proof.
    intros Hj f. split.
    - intros x (p & E & Hk). pose proof (lookup_lt_Some _ _ _ E) as Hl. unfold f. split.
      + exists p. simpl. now rewrite lookup_app_l.
      + unfold run_thread. simpl. rewrite lookup_app_l, E by auto. destruct (pv_threads p !! x.2) as [th|]; [|auto]. destruct (th_done th); [auto|].
        unfold upd_provs, upd_trades. simpl. f_equal. now rewrite insert_app_l.
    - intros a p n th Ep Et. unfold f in *. simpl in *. apply lookup_app_Some in Ep as [Ep|[_ Ep]]; [eapply Hj; eauto|].
      apply list_lookup_singleton_Some in Ep as [_ <-]. simpl in Et. now rewrite lookup_nil in Et.
  Qed.
  Lemma smooth_new_trade t w : jobs_ok w -> let f := fun w => upd_trades w (w_trades w ++ [t]) in smooth f w /\ jobs_ok (f w).
  Proof.
    intros Hj f. split.
    - intros x (p & E & Hk). unfold f. split; [exists p; auto|]. unfold run_thread. simpl. rewrite E. destruct (pv_threads p !! x.2) as [th|] eqn:Et; [|auto].
      destruct (th_done th); [auto|]. unfold upd_provs, upd_trades. simpl. f_equal. specialize (Hj x.1 p x.2 th E Et).
      assert (forall i (g : trade F -> trade F), (i < length (w_trades w))%nat -> alter g i (w_trades w) ++ [t] = alter g i (w_trades w ++ [t])) as Ha.
      { intros i g Hi. symmetry. now apply alter_app_l. }
      unfold job_effect. destruct (pv_kind p); [|auto|]; destruct (th_job th) as [i|i c]; simpl in Hj; apply Ha; auto; destruct Hj as (u & Eu & _); eapply lookup_lt_Some; eauto.
    - intros a p n th Ep Et. unfold f in *. simpl in *. specialize (Hj a p n th Ep Et). destruct (th_job th) as [i|i c]; simpl in *; [rewrite app_length; lia|].
      destruct Hj as (u & Eu & Hc). exists u. split; [|auto]. now apply lookup_app_l_Some.
  Qed.
End proofs.
