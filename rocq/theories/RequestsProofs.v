(** Proofs about trade providers written by users. *)
From Verif Require Export SpecRequests ManualProofs.
Open Scope Z_scope.

Section proofs.
  Context {F : Type} `{Num F}.
  Implicit Types (w : world F) (t : trade F) (s : lstate F) (rq : requests F).

  (** ** Quantities *)
  Lemma booked_cons (c : tclose F) l : booked (c :: l) = tc_qty c + booked l.
  Proof. reflexivity. Qed.
  Lemma booked_pos (l : list (tclose F)) : Forall (fun c => 0 <= tc_qty c) l -> 0 <= booked l.
  Proof. induction 1 as [|c l Hc Hl IH]; [unfold booked; simpl; lia|]. rewrite booked_cons. lia. Qed.
  Lemma qty_simple t : qty_inv (tr_oq t) t <-> Forall (fun c => 0 <= tc_qty c) (tr_closes t) /\ booked (tr_closes t) <= tr_oq t.
  Proof.
    split.
    - intros (_ & Hb & Hc). split; [|lia]. apply Forall_lookup_2. intros i c Hi. apply (Hc i c Hi).
    - intros [Hp Hb]. split; [reflexivity|]. split; [split; [now apply booked_pos|auto]|]. intros i c Hi.
      pose proof (take_drop_middle _ _ _ Hi) as E. rewrite <- E in Hp, Hb. apply Forall_app in Hp as [P1 P2]. inversion P2 as [|? ? P3 P4]; subst.
      rewrite booked_app, booked_cons in Hb. pose proof (booked_pos _ P4). lia.
  Qed.
  Lemma booked_alter (f : tclose F -> tclose F) n l c : l !! n = Some c -> booked (alter f n l) = booked l + tc_qty (f c) - tc_qty c.
  Proof.
    revert n. induction l as [|x l IH]; intros [|n] E; simpl in E; [discriminate|discriminate| |].
    - injection E as ->. change (alter f 0%nat (c :: l)) with (f c :: l). rewrite !booked_cons. lia.
    - change (alter f (S n) (x :: l)) with (x :: alter f n l). rewrite !booked_cons, (IH n E). lia.
  Qed.

  (** ** One trade is replaced by another with the same epic, strategy and direction *)
  Lemma minv_set w i t t' : minv w -> w_trades w !! i = Some t -> tr_epic t' = tr_epic t -> tr_strat t' = tr_strat t -> tr_dir t' = tr_dir t ->
    qty_inv (tr_oq t') t' -> ((opened_quantities t' <> 0 -> opened_quantities t <> 0) \/ forall pid, registered w pid i -> ~ is_backtest w pid) ->
    minv (upd_trades w (<[i := t']> (w_trades w))).
  Proof.
    intros (W & Q & D) Hi E1 E2 E3 Hq Ho. set (w' := upd_trades w _).
    assert (forall j u', w_trades w' !! j = Some u' -> exists u, w_trades w !! j = Some u /\ tr_epic u' = tr_epic u /\ tr_strat u' = tr_strat u /\ tr_dir u' = tr_dir u /\
              (j <> i -> u' = u) /\ (j = i -> u' = t' /\ u = t)) as L.
    { intros j u' Hj. simpl in Hj. destruct (decide (j = i)) as [->|Hn].
      - rewrite list_lookup_insert in Hj by (eapply lookup_lt_Some; eauto). injection Hj as <-. exists t. repeat split; auto; congruence.
      - rewrite list_lookup_insert_ne in Hj by auto. exists u'. repeat split; auto; congruence. }
    assert (forall j u, w_trades w !! j = Some u -> exists u', w_trades w' !! j = Some u' /\ tr_epic u' = tr_epic u /\ tr_strat u' = tr_strat u) as R.
    { intros j u Hj. simpl. destruct (decide (j = i)) as [->|Hn].
      - rewrite list_lookup_insert by (eapply lookup_lt_Some; eauto). rewrite Hi in Hj. injection Hj as <-. eauto.
      - rewrite list_lookup_insert_ne by auto. eauto. }
    split; [|split].
    - constructor.
      + intros pid p Hp. destruct (wf_prov _ W pid p Hp) as [N M]. split; [exact N|]. intros j Hj. destruct (M j Hj) as (u & e & Hu & He & Ep).
        destruct (R j u Hu) as (u' & Hu' & Ee & _). exists u', e. rewrite Ee. auto.
      + intros sid x Hx. destruct (wf_strat _ W sid x Hx) as [N M]. split; [exact N|]. intros j. rewrite (M j). split; intros [(u & Hu & Es) Hr].
        * split; [|exact Hr]. destruct (R j u Hu) as (u' & Hu' & _ & E). exists u'. rewrite E. auto.
        * split; [|exact Hr]. destruct (L j u Hu) as (v & Hv & _ & E & _). exists v. rewrite <- E. auto.
      + intros j u' Hu'. destruct (L j u' Hu') as (u & Hu & Ee & Es & _). rewrite Ee, Es. exact (wf_trade _ W j u Hu).
      + exact (wf_epic _ W).
    - intros j u' Hu'. destruct (L j u' Hu') as (u & Hu & _ & _ & _ & Hne & Heq). destruct (decide (j = i)) as [->|Hn].
      + destruct (Heq eq_refl) as [-> _]. exact Hq.
      + rewrite (Hne Hn). exact (Q j u Hu).
    - intros pid p a b ta tb Hp Hk Ha Hb Hta Htb Es Oa Ob. destruct Ho as [Ho|Ho].
      + destruct (L a ta Hta) as (ua & Hua & _ & Sa & Da & Na & Ia). destruct (L b tb Htb) as (ub & Hub & _ & Sb & Db & Nb & Ib). rewrite Da, Db.
        apply (D pid p a b ua ub); auto; [congruence| |].
        * destruct (decide (a = i)) as [->|Hn]; [destruct (Ia eq_refl) as [-> ->]; auto|now rewrite <- (Na Hn)].
        * destruct (decide (b = i)) as [->|Hn]; [destruct (Ib eq_refl) as [-> ->]; auto|now rewrite <- (Nb Hn)].
      + assert (forall j, j ∈ pv_trades p -> j <> i) as X by (intros j Hj ->; apply (Ho pid); [exists p; auto|exists p; auto]).
        destruct (L a ta Hta) as (ua & Hua & _ & _ & _ & Na & _). destruct (L b tb Htb) as (ub & Hub & _ & _ & _ & Nb & _).
        rewrite (Na (X a Ha)) in *. rewrite (Nb (X b Hb)) in *. exact (D pid p a b ua ub Hp Hk Ha Hb Hua Hub Es Oa Ob).
  Qed.

  Lemma alter_is_insert {A} (f : A -> A) (i : nat) (l : list A) x : l !! i = Some x -> alter f i l = <[i := f x]> l.
  Proof. intros E. apply list_eq. intros j. destruct (decide (i = j)) as [<-|Hn].
    - rewrite list_lookup_alter, E, list_lookup_insert by (eapply lookup_lt_Some; eauto). reflexivity.
    - now rewrite list_lookup_alter_ne, list_lookup_insert_ne by auto.
  Qed.
  Lemma alter_none {A} (f : A -> A) (i : nat) (l : list A) : l !! i = None -> alter f i l = l.
  Proof. intros E. apply list_eq. intros j. destruct (decide (i = j)) as [<-|Hn]; [now rewrite list_lookup_alter, E|now rewrite list_lookup_alter_ne]. Qed.
  Lemma upd_same w : upd_trades w (w_trades w) = w.
  Proof. now destruct w. Qed.

  Lemma minv_tweak w j x : minv w -> match x with TwQuantity q => fill_ok w j q | _ => True end -> minv (upd_trades w (tweak_job j x (w_trades w))).
  Proof.
    intros M Hx. destruct M as (W & Q & D). destruct j as [i|i n]; simpl.
    - destruct (w_trades w !! i) as [t|] eqn:Hi; [|rewrite alter_none, upd_same by auto; exact (conj W (conj Q D))].
      rewrite (alter_is_insert _ _ _ _ Hi). pose proof (Q i t Hi) as Hq. apply (minv_set w i t); [exact (conj W (conj Q D))|auto| | | | |]; try (destruct x; reflexivity).
      + destruct x as [a|v|q]; [exact Hq|exact Hq|]. apply qty_simple in Hq as [P B]. apply qty_simple. split; [exact P|]. specialize (Hx t Hi).
        rewrite closed_quantities_booked in Hx. simpl. lia.
      + left. destruct x as [a|v|q]; [auto|auto|]. apply qty_simple in Hq as [P B]. specialize (Hx t Hi). rewrite closed_quantities_booked in Hx.
        rewrite !opened_booked. simpl. lia.
    - destruct (w_trades w !! i) as [t|] eqn:Hi; [|rewrite alter_none, upd_same by auto; exact (conj W (conj Q D))].
      rewrite (alter_is_insert _ _ _ _ Hi). pose proof (Q i t Hi) as Hq. apply (minv_set w i t); [exact (conj W (conj Q D))|auto|reflexivity|reflexivity|reflexivity| |].
      + destruct (tr_closes t !! n) as [c|] eqn:Hn; [|rewrite alter_none by auto; now destruct t].
        apply qty_simple in Hq as [P B]. apply qty_simple. simpl. rewrite (booked_alter _ _ _ _ Hn).
        assert (0 <= tc_qty (tweak_close x c) <= tc_qty c) as X.
        { pose proof (proj1 (Forall_lookup _ _) P n c Hn) as Pc. simpl in Pc. destruct x as [a|v|q]; simpl; [lia|lia|]. exact (proj1 Hx t c Hi Hn). }
        split; [|lia]. rewrite (alter_is_insert _ _ _ _ Hn). apply Forall_insert; [auto|lia].
      + destruct x as [a|v|q]; [left|left|right; exact (proj2 Hx)]; rewrite !opened_booked; simpl;
          (destruct (tr_closes t !! n) as [c|] eqn:Hn; [rewrite (booked_alter _ _ _ _ Hn); simpl; lia|now rewrite alter_none]).
  Qed.
  Lemma minv_finish w pid k : minv w -> minv (finish w pid k).
  Proof. apply minv_keeps; [|now apply evo_same]. constructor; auto. simpl. now apply fmap_alter_same. Qed.
  Lemma minv_wstep w w' : wstep w w' -> minv w -> minv w'.
  Proof.
    intros S M. destruct S as [w c Hc|pr w o Ho|w eid e tk He Ha|w eid e x He Hx|w eid e He|w sid st d Hs|w l].
    - exact (minv_call w (MApi c) M Hc).
    - now apply minv_setup.
    - eapply minv_keeps; [now apply keeps_accept|now apply evo_same|auto].
    - eapply minv_keeps; [apply keeps_fset| |auto]. apply evo_same. unfold update_frame_set. destruct (w_fsets w !! x.2) as [fs|]; [|auto].
      destruct (fs_epic_state w fs); destruct (fs_on_new_tick _ _ _ _ _); auto.
    - eapply minv_keeps; [apply keeps_value|apply evo_value|auto].
    - eapply minv_keeps; [now apply keeps_active|now apply evo_same|auto].
    - eapply minv_keeps; [apply keeps_log|now apply evo_same|auto].
  Qed.
  Lemma minv_act rq s pid k : careful_act rq s pid k -> minv (l_w s) -> minv (l_w (act rq s pid k)).
  Proof.
    intros C M. unfold act. fold (thread_of (l_w s) pid k). destruct (thread_of (l_w s) pid k) as [th|] eqn:Et; [|auto]. destruct (th_done th) eqn:Ed; [auto|].
    specialize (C th Et Ed). destruct (code rq s pid k (th_job th)) as [|e|x r|c r]; simpl.
    - now apply minv_finish.
    - now apply minv_finish.
    - apply minv_tweak; [auto|]. destruct x; auto.
    - pose proof (minv_call (l_w s) (MApi c) M C) as X. simpl in X. destruct (run_cmd (l_w s) c) as [w' o]. exact X.
  Qed.
  Lemma lreach_minv rq s : lreach rq s -> minv (l_w s).
  Proof.
    induction 1 as [|s w' Hr IH Hw|s pid k Hr IH Hc].
    - apply mreach_minv. constructor.
    - simpl. eapply minv_wstep; eauto.
    - now apply minv_act.
  Qed.

  (** ** Runs go through these states *)
  Lemma landthen_inv (I J : lstate F -> Prop) x k : I (fst x) -> (forall s, I s -> J (fst (k s))) -> (forall s, I s -> J s) -> J (fst (landthen x k)).
  Proof. destruct x as [s [u|e]]; simpl; auto. Qed.
  Lemma lcmd_reach rq s c : careful_lcmd rq s c -> lreach rq s -> lreach rq (fst (run_lcmd rq s c)).
  Proof.
    intros Hc Hs. destruct c as [c|pid k]; simpl in *; [|now apply lr_act]. pose proof (lr_world rq s _ Hs (ws_call _ c Hc)) as X.
    destruct (run_cmd (l_w s) c) as [w' r]. exact X.
  Qed.
  Lemma lscript_reach rq x : forall s, careful_lscript rq s x -> lreach rq s -> lreach rq (fst (run_lscript rq s x)).
  Proof.
    induction x as [|e|c k IH]; intros s Hs Hr; simpl; auto. destruct Hs as [Hc Hk]. pose proof (lcmd_reach rq s c Hc Hr) as X.
    destruct (run_lcmd rq s c) as [s' r]. simpl in *. now apply IH.
  Qed.
  Lemma lcallback_reach rq pr sid cb eid s : careful_lprograms rq pr -> lreach rq s -> lreach rq (fst (run_lcallback rq pr sid cb eid s)).
  Proof. intros Hp Hs. apply lscript_reach; [now apply Hp|]. apply lr_world; [auto|constructor]. Qed.
  Lemma lexecute_reach rq pr eid mo s x : careful_lprograms rq pr -> lreach rq s -> lreach rq (fst (lexecute rq pr eid mo s x)).
  Proof.
    intros Hp Hs. unfold lexecute. destruct (w_strats (l_w s) !! x.2) as [st|] eqn:Es; [|auto]. destruct (w_epics (l_w s) !! eid) as [e|] eqn:Ee; [|auto].
    pose proof (lr_world rq s _ Hs (ws_active _ x.2 st (tk_dt (ep_last e)) Es)) as H1. destruct (is_active st (tk_dt (ep_last e))) as [st' a]. simpl in H1.
    destruct a; [|exact H1]. apply (landthen_inv (lreach rq)); [|intros s2 H2; apply (landthen_inv (lreach rq)); [|intros s3 H3; now apply lcallback_reach|auto]|auto].
    - destruct (eqb mo (ep_mopen e)); [exact H1|]. destruct mo; now apply lcallback_reach.
    - destruct (ep_mopen e); [now apply lcallback_reach|exact H2].
  Qed.
  Lemma on_world_twice s w w' : on_world (on_world s w) w' = on_world s w'.
  Proof. reflexivity. Qed.
  Lemma ltick_reach rq pr s eid tk : careful_lprograms rq pr -> lreach rq s -> lreach rq (fst (lon_new_tick rq pr s eid tk)).
  Proof.
    intros Hp Hs. unfold lon_new_tick. destruct (w_epics (l_w s) !! eid) as [e|] eqn:Ee; [|auto]. cbv zeta.
    destruct (arrow_ltb _ _) eqn:Ea; [auto|]. set (e' := ep_set_last e _ _).
    set (w0 := upd_epics (l_w s) _). change (ep_fsets e') with (ep_fsets e).
    assert (lreach rq (on_world s (fst (forM (update_frame_set (tick_to (ep_tz e) tk)) w0 (ep_fsets e)))) /\
            w_epics (fst (forM (update_frame_set (tick_to (ep_tz e) tk)) w0 (ep_fsets e))) !! eid = Some e') as [H1 H2].
    { apply (forM_inv (fun w1 => lreach rq (on_world s w1) /\ w_epics w1 !! eid = Some e')).
      - intros w1 x Hx [I1 I2]. rewrite update_fset_epics. split; [|auto]. rewrite <- (on_world_twice s w1). apply lr_world; [auto|]. exact (ws_fset w1 eid e' x I2 Hx).
      - split; [apply lr_world; [auto|]; now apply ws_accept|]. simpl. apply list_lookup_insert. eapply lookup_lt_Some; eauto. }
    destruct (forM (update_frame_set _) w0 (ep_fsets e)) as [w1 r]. simpl in H1, H2.
    apply (landthen_inv (fun s2 => lreach rq s2 /\ w_epics (l_w s2) !! eid = Some e')); [now split| |now intros s2 [? _]].
    intros s2 [I1 I2]. apply forM_inv; [intros s3 x _ H3; now apply lexecute_reach|]. apply lr_world; [auto|]. exact (ws_value (l_w s2) eid e' I2).
  Qed.
  Lemma lstep_reach rq pr s o : careful_lprograms rq pr -> careful_lop rq s o -> lreach rq s -> lreach rq (fst (lstep rq pr s o)).
  Proof.
    intros Hp Ho Hs. destruct o as [o|c]; [|now apply lcmd_reach].
    destruct o as [| | | | | | |eid tk|c]; try (unfold lstep; match goal with |- context [step ?p ?w ?o] => pose proof (lr_world rq s _ Hs (ws_setup p w o I)) as X; destruct (step p w o) as [w' r]; exact X end).
    - now apply ltick_reach.
    - simpl. pose proof (lr_world rq s _ Hs (ws_call _ c Ho)) as X. destruct (run_cmd (l_w s) c) as [w' r]. exact X.
  Qed.
  Lemma lrun_reach rq pr l : careful_lprograms rq pr -> forall s, careful_lops rq pr s l -> lreach rq s -> lreach rq (lrun rq pr s l).
  Proof. intros Hp. induction l as [|o l IH]; intros s Hl Hs; simpl; [auto|]. destruct Hl as [Ho Hl]. apply IH; auto. now apply lstep_reach. Qed.
  Theorem lrun_books rq pr l : careful_lprograms rq pr -> careful_lops rq pr empty_live l -> books (l_w (lrun rq pr empty_live l)).
  Proof. intros Hp Hl. apply minv_books, (lreach_minv rq), lrun_reach; auto. constructor. Qed.
  Theorem lreach_books rq s : lreach rq s -> books (l_w s).
  Proof. intros Hr. apply minv_books, (lreach_minv rq), Hr. Qed.

  (** ** Requests that assign no quantities *)
  Lemma code_modest rq s pid k j : modest_requests rq -> Forall (fun x => modest x.2) (l_code s) -> modest (code rq s pid k j).
  Proof.
    intros Hq Hc. unfold code. destruct (List.find _ _) as [x|] eqn:E; [|apply Hq]. apply find_some in E as [E _].
    rewrite Forall_forall in Hc. apply Hc. now apply elem_of_list_In.
  Qed.
  Lemma act_modest rq s pid k : modest_requests rq -> Forall (fun x => modest x.2) (l_code s) -> Forall (fun x => modest x.2) (l_code (act rq s pid k)).
  Proof.
    intros Hq Hc. unfold act. destruct (_ ≫= _) as [th|]; [|auto]. destruct (th_done th); [auto|].
    pose proof (code_modest rq s pid k (th_job th) Hq Hc) as M. destruct (code rq s pid k (th_job th)) as [|e|x r|c r]; simpl; auto.
    - constructor; [apply M|auto].
    - destruct (run_cmd (l_w s) c) as [w' o]. constructor; [apply M|auto].
  Qed.
  Lemma lreach_modest rq s : modest_requests rq -> lreach rq s -> Forall (fun x => modest x.2) (l_code s).
  Proof. intros Hq. induction 1 as [|s w' Hr IH Hw|s pid k Hr IH Hc]; [constructor|exact IH|now apply act_modest]. Qed.
  Lemma modest_careful rq s pid k : modest_requests rq -> lreach rq s -> careful_act rq s pid k.
  Proof.
    intros Hq Hr th _ _. pose proof (code_modest rq s pid k (th_job th) Hq (lreach_modest rq s Hq Hr)) as M.
    destruct (code rq s pid k (th_job th)) as [|e|x r|c r]; auto; [|apply M]. destruct x; auto. now destruct M.
  Qed.
  Lemma sane_careful rq s c : modest_requests rq -> lreach rq s -> sane_lcmd c -> careful_lcmd rq s c.
  Proof. intros Hq Hr Hc. destruct c as [c|pid k]; [exact Hc|]. now apply modest_careful. Qed.
  Lemma sane_script rq x : modest_requests rq -> forall s, lreach rq s -> sane_lscript x -> careful_lscript rq s x.
  Proof.
    intros Hq. induction x as [|e|c k IH]; intros s Hr Hx; simpl; auto. destruct Hx as [Hc Hk]. pose proof (sane_careful rq s c Hq Hr Hc) as C. split; [exact C|].
    pose proof (lcmd_reach rq s c C Hr) as X. destruct (run_lcmd rq s c) as [s' r]. simpl in X. now apply IH.
  Qed.
  Lemma sane_programs rq pr : modest_requests rq -> sane_lprograms pr -> careful_lprograms rq pr.
  Proof. intros Hq Hp sid cb eid s Hr. apply sane_script; auto. apply lr_world; [auto|constructor]. Qed.
  Lemma sane_ops rq pr l : modest_requests rq -> sane_lprograms pr -> forall s, lreach rq s -> Forall sane_lop l -> careful_lops rq pr s l.
  Proof.
    intros Hq Hp. pose proof (sane_programs rq pr Hq Hp) as Cp. induction l as [|o l IH]; intros s Hr Hl; simpl; [auto|]. inversion Hl as [|? ? Ho Hl']; subst.
    assert (careful_lop rq s o) as C by (destruct o as [o|c]; [destruct o; auto|now apply sane_careful]). split; [exact C|]. apply IH; auto. now apply lstep_reach.
  Qed.
  Theorem modest_books rq pr l : modest_requests rq -> sane_lprograms pr -> Forall sane_lop l -> books (l_w (lrun rq pr empty_live l)).
  Proof. intros Hq Hp Hl. apply lrun_books; [now apply sane_programs|]. apply sane_ops; auto. constructor. Qed.

  (** ** What a request changes *)
  Lemma tweak_own j x (l : list (trade F)) : (forall i, i <> job_trade j -> tweak_job j x l !! i = l !! i) /\
    forall t, l !! job_trade j = Some t -> exists t', tweak_job j x l !! job_trade j = Some t' /\ job_set x j t t'.
  Proof.
    destruct j as [i|i n]; simpl; (split; [intros m Hm; now rewrite list_lookup_alter_ne by auto|]); intros t Ht; rewrite list_lookup_alter, Ht; simpl; eexists; split; try reflexivity.
    - destruct x; repeat split; reflexivity.
    - split; [constructor; reflexivity|]. repeat (split; [reflexivity|]). split; [simpl; apply alter_length|]. split; [intros m Hm; simpl; now rewrite list_lookup_alter_ne by auto|].
      intros c Hc. simpl. rewrite list_lookup_alter, Hc. simpl. eexists. split; [reflexivity|]. destruct x; repeat split; reflexivity.
  Qed.
  Theorem act_own rq s pid k th : thread_of (l_w s) pid k = Some th -> th_done th = false ->
    match code rq s pid k (th_job th) with
    | RReturn | RRaise _ => w_trades (l_w (act rq s pid k)) = w_trades (l_w s) /\ (exists th', thread_of (l_w (act rq s pid k)) pid k = Some th' /\ th_done th' = true /\ th_job th' = th_job th) /\
        l_code (act rq s pid k) = l_code s
    | RSet x r => w_provs (l_w (act rq s pid k)) = w_provs (l_w s) /\
        (forall i, i <> job_trade (th_job th) -> w_trades (l_w (act rq s pid k)) !! i = w_trades (l_w s) !! i) /\
        (forall t, w_trades (l_w s) !! job_trade (th_job th) = Some t -> exists t', w_trades (l_w (act rq s pid k)) !! job_trade (th_job th) = Some t' /\ job_set x (th_job th) t t') /\
        (forall j, code rq (act rq s pid k) pid k j = r (l_w (act rq s pid k)))
    | RCall c r => l_w (act rq s pid k) = fst (run_cmd (l_w s) c) /\ (forall j, code rq (act rq s pid k) pid k j = r (fst (run_cmd (l_w s) c)) (snd (run_cmd (l_w s) c)))
    end /\
    (forall pid' k' j, (pid', k') <> (pid, k) -> code rq (act rq s pid k) pid' k' j = code rq (on_world s (l_w (act rq s pid k))) pid' k' j) /\
    ((forall c r, code rq s pid k (th_job th) <> RCall c r) -> let w := l_w s in let w' := l_w (act rq s pid k) in
      w_strats w' = w_strats w /\ w_epics w' = w_epics w /\ w_fsets w' = w_fsets w /\ w_log w' = w_log w /\
      length (w_provs w') = length (w_provs w) /\ forall a p, w_provs w !! a = Some p -> exists p', w_provs w' !! a = Some p' /\ pv_kind p' = pv_kind p /\ pv_trades p' = pv_trades p /\
        map th_job (pv_threads p') = map th_job (pv_threads p) /\ forall m, (a, m) <> (pid, k) -> pv_threads p' !! m = pv_threads p !! m).
  Proof.
    intros Ht Hd. unfold act. fold (thread_of (l_w s) pid k). rewrite Ht, Hd.
    assert (forall (j : job) (x : request F) w, code rq {| l_w := w; l_code := (pid, k, x) :: l_code s |} pid k j = x) as C1.
    { intros j x w. unfold code. simpl. now rewrite !Nat.eqb_refl. }
    assert (forall pid' k' (j : job) (x : request F) w, (pid', k') <> (pid, k) -> code rq {| l_w := w; l_code := (pid, k, x) :: l_code s |} pid' k' j = code rq (on_world s w) pid' k' j) as C2.
    { intros pid' k' j x w Hn. unfold code. simpl. destruct (Nat.eqb_spec pid pid') as [E1|E1]; [|reflexivity]. destruct (Nat.eqb_spec k k') as [E2|E2]; [|reflexivity]. subst. congruence. }
    assert (forall w, (exists p, w_provs w !! pid = Some p /\ pv_threads p !! k = Some th) ->
      (exists th', thread_of (finish w pid k) pid k = Some th' /\ th_done th' = true /\ th_job th' = th_job th) /\
      forall a p, w_provs w !! a = Some p -> exists p', w_provs (finish w pid k) !! a = Some p' /\ pv_kind p' = pv_kind p /\ pv_trades p' = pv_trades p /\
        map th_job (pv_threads p') = map th_job (pv_threads p) /\ forall m, (a, m) <> (pid, k) -> pv_threads p' !! m = pv_threads p !! m) as Fi.
    { intros w (p & Hp & Hk). split.
      - unfold thread_of, finish. simpl. rewrite list_lookup_alter, Hp. simpl. rewrite list_lookup_alter, Hk. simpl. eauto.
      - intros a q Hq. simpl. destruct (decide (pid = a)) as [<-|Hn].
        + rewrite list_lookup_alter, Hq. simpl. eexists. split; [reflexivity|]. repeat (split; [reflexivity|]). simpl. split.
          * clear. generalize (pv_threads q). intros l. revert k. induction l as [|y l IH]; intros [|k]; simpl; auto. f_equal. apply IH.
          * intros m Hm. rewrite list_lookup_alter_ne; [auto|]. intros ->. now apply Hm.
        + rewrite list_lookup_alter_ne by auto. eauto 10. }
    assert (exists p, w_provs (l_w s) !! pid = Some p /\ pv_threads p !! k = Some th) as Hex.
    { unfold thread_of in Ht. destruct (w_provs (l_w s) !! pid) as [p|]; [|discriminate]. eauto. }
    destruct (Fi _ Hex) as [Fi1 Fi2]. clear Fi.
    destruct (code rq s pid k (th_job th)) as [|e|x r|c r] eqn:Ec.
    - split; [split; [reflexivity|split; [exact Fi1|reflexivity]]|]. split; [intros; reflexivity|]. intros _. simpl. repeat (split; [reflexivity|]). split; [apply alter_length|exact Fi2].
    - split; [split; [reflexivity|split; [exact Fi1|reflexivity]]|]. split; [intros; reflexivity|]. intros _. simpl. repeat (split; [reflexivity|]). split; [apply alter_length|exact Fi2].
    - split; [|split].
      + split; [reflexivity|]. destruct (tweak_own (th_job th) x (w_trades (l_w s))) as [T1 T2]. split; [exact T1|]. split; [exact T2|]. intros j. apply C1.
      + intros pid' k' j Hn. now apply C2.
      + intros _. simpl. repeat (split; [reflexivity|]). eauto 10.
    - destruct (run_cmd (l_w s) c) as [w' o]. split; [|split].
      + split; [reflexivity|]. intros j. apply C1.
      + intros pid' k' j Hn. now apply C2.
      + intros N. now elim (N c r).
  Qed.
  Lemma act_over rq s pid k : (forall th, thread_of (l_w s) pid k = Some th -> th_done th = true) -> act rq s pid k = s.
  Proof. intros E. unfold act. fold (thread_of (l_w s) pid k). destruct (thread_of (l_w s) pid k) as [th|]; [|auto]. now rewrite (E th eq_refl). Qed.
  (** ** Programs that never let a request go on are those of World.v *)
  Definition lwith s (x : world F * res unit) : lstate F * res unit := (on_world s x.1, x.2).
  Lemma lwith_script rq s x w : run_lscript rq (on_world s w) (lift x) = lwith s (run_script w x).
  Proof.
    revert w. induction x as [|e|c k IH]; intros w; simpl; auto. unfold on_world at 1. simpl. destruct (run_cmd w c) as [w' r]. simpl. apply IH.
  Qed.
  Lemma lwith_callback rq pr s w sid cb eid : run_lcallback rq (lifted pr) sid cb eid (on_world s w) = lwith s (run_callback pr sid cb eid w).
  Proof. unfold run_lcallback, run_callback. simpl. apply (lwith_script rq s). Qed.
  Lemma lwith_then s (x : world F * res unit) k k' : (forall w, k (on_world s w) = lwith s (k' w)) -> landthen (lwith s x) k = lwith s (andthen x k').
  Proof. intros E. destruct x as [w [u|e]]; simpl; auto. Qed.
  Lemma lwith_forM {A} s (f : lstate F -> A -> lstate F * res unit) (g : world F -> A -> world F * res unit) l w :
    (forall w x, f (on_world s w) x = lwith s (g w x)) -> forM f (on_world s w) l = lwith s (forM g w l).
  Proof. intros E. revert w. induction l as [|x l IH]; intros w; simpl; auto. rewrite E. destruct (g w x) as [w' [u|e]]; simpl; auto. Qed.
  Lemma lwith_execute rq pr s w eid b x : lexecute rq (lifted pr) eid b (on_world s w) x = lwith s (execute_strategy pr eid b w x).
  Proof.
    unfold lexecute, execute_strategy. simpl. destruct (w_strats w !! x.2) as [st|]; [|auto]. destruct (w_epics w !! eid) as [e|]; [|auto].
    destruct (is_active st (tk_dt (ep_last e))) as [st' []]; [|auto]. change (on_world (on_world s w) ?v) with (on_world s v).
    assert (forall w', landthen (if ep_mopen e then run_lcallback rq (lifted pr) x.2 OnEveryTickMarketOpen eid (on_world s w') else (on_world s w', Ok ()))
      (fun s3 => run_lcallback rq (lifted pr) x.2 OnEveryTick eid s3) =
      lwith s (andthen (if ep_mopen e then run_callback pr x.2 OnEveryTickMarketOpen eid w' else (w', Ok ())) (fun w3 => run_callback pr x.2 OnEveryTick eid w3))) as K.
    { intros w'. destruct (ep_mopen e); [rewrite lwith_callback|change (on_world s w', Ok ()) with (lwith s (w', Ok ()))]; apply lwith_then; intros; apply lwith_callback. }
    destruct (eqb b (ep_mopen e)); [|destruct b]; rewrite ?lwith_callback; [change (on_world s ?v, Ok ()) with (lwith s (v, Ok ()))|..]; apply lwith_then; exact K.
  Qed.
  Theorem idle_step rq pr s o : lstep rq (lifted pr) s (LOp o) = (on_world s (fst (step pr (l_w s) o)), snd (step pr (l_w s) o)).
  Proof.
    destruct o; try (simpl; match goal with |- context [let '(_, _) := ?y in _] => destruct y; reflexivity end); try reflexivity.
    simpl. unfold lon_new_tick, epic_on_new_tick. destruct s as [w l]. cbn [l_w]. match goal with |- context [w_epics w !! ?i] => destruct (w_epics w !! i) as [e|] end; [|auto]. destruct (arrow_ltb _ _); [auto|].
    destruct (forM (update_frame_set _) _ _) as [w1 [u|x]]; [|auto]. cbn [landthen andthen]. change (on_world (on_world ?s w1) ?v) with (on_world s v).
    apply (lwith_forM {| l_w := w; l_code := l |}). intros. apply lwith_execute.
  Qed.
  Theorem idle_run rq pr s l : lrun rq (lifted pr) s (map LOp l) = on_world s (run pr (l_w s) l).
  Proof.
    revert s. induction l as [|o l IH]; intros s; [now destruct s|]. unfold lrun, run in *. cbn [map fold_left]. rewrite idle_step, IH. reflexivity.
  Qed.
End proofs.
