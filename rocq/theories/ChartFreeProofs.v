(** Charts do not influence trading (C70). *)
From Verif Require Export SimProofs.
Open Scope Z_scope.

Section proofs.
  Context {F : Type} `{Num F}.
  Implicit Types (w : world F).

  Lemma mul1 (q : option Z) : Z.mul 1 <$> q = q.
  Proof. destruct q as [z|]; [|auto]. cbn [fmap option_fmap option_map]. now rewrite Z.mul_1_l. Qed.
  Definition eq_sim : sim (F:=F).
  Proof.
    refine {| Rv := eq; Rk := eq; Rt := eq; Sg := fun d => d; Sn := 1; Sq := fun _ => True |}; intros; subst; rewrite ?Z.mul_1_l, ?mul1; auto; try lia.
    - eexists. split; [eassumption|auto].
    - destruct (close t' v' d q ref) as [[? ?]|?]; auto.
    - destruct (close_from_tick t' tk' q ref) as [[? ?]|?]; auto.
  Defined.
  Lemma rel_no_charts w w' : rel eq_sim w w' -> no_charts w = no_charts w'.
  Proof.
    intros [R1 R2 R3 R4 R5 _]. unfold no_charts. f_equal; auto.
    - clear -R1. induction R1 as [|x y l l' E _ IH]; [auto|]. simpl in E. now subst.
    - clear -R4. induction R4 as [|e e' l l' E _ IH]; [auto|]. rewrite !fmap_cons, IH. f_equal. destruct E as [E1 E2 E3 E4 E5 E6 E7 E8 E9 E10].
      assert (ep_last e' = ep_last e) as E11 by (destruct E10 as [E10|[-> ->]]; [now symmetry in E10|auto]). unfold ep_set_fsets. congruence.
  Qed.
  Lemma blind_like pr : chart_blind pr -> like eq_sim pr pr.
  Proof.
    intros Hb sid cb eid w w' R _. apply (alongside_mono (fun v v' => no_charts v = no_charts v') _ (fun _ c c' => c' = c)); [apply rel_no_charts| |apply Hb; now apply rel_no_charts].
    intros v c c' ->. split; [|destruct c; try exact I; intros e _; exact I]. destruct c as [e d q s ref|t q ref|e t q ref|s q ref|t x|t|t x d q ref|t q ref|s p|s b|p k];
      try (rewrite <- (mul1 q) at 2); try constructor; try reflexivity.
    replace (COpen e d q s ref) with (COpen (F:=F) e (Sd eq_sim d) (Sn eq_sim * q) s ref) at 2 by (simpl; rewrite Z.mul_1_l; now destruct d). constructor.
  Qed.
  Lemma same_run pr l l' w w' : chart_blind pr -> without_charts l = without_charts l' -> charts_fine pr w l -> charts_fine pr w' l' -> rel eq_sim w w' -> rel eq_sim (run pr w l) (run pr w' l').
  Proof.
    intros Hb. apply blind_like in Hb as Hl. remember (length l + length l')%nat as n eqn:En. revert l l' w w' En. induction n as [n IH] using lt_wf_ind. intros l l' w w' En Ho Hf Hf' R.
    destruct l as [|o l].
    - destruct l' as [|o' l']; [exact R|]. unfold without_charts in Ho. simpl in Ho. destruct (is_chart o') eqn:Hc; simpl in Ho; [|discriminate].
      change (run pr w' (o' :: l')) with (run pr (fst (step pr w' o')) l'). apply (IH (length l')%nat); [simpl in En; lia|auto|exact Ho|auto|apply Hf'|now apply rel_chart_right].
    - destruct (is_chart o) eqn:Hc.
      + change (run pr w (o :: l)) with (run pr (fst (step pr w o)) l). apply (IH (length l + length l')%nat); [simpl in En; lia|auto| |apply Hf|auto|now apply rel_chart_left].
        unfold without_charts in Ho at 1. simpl in Ho. rewrite Hc in Ho. exact Ho.
      + destruct l' as [|o' l']; [unfold without_charts in Ho; simpl in Ho; rewrite Hc in Ho; discriminate|]. destruct (is_chart o') eqn:Hc'.
        * change (run pr w' (o' :: l')) with (run pr (fst (step pr w' o')) l'). apply (IH (length (o :: l) + length l')%nat); [simpl in *; lia|auto| |auto|apply Hf'|now apply rel_chart_right].
          unfold without_charts in Ho at 2. simpl in Ho. rewrite Hc' in Ho. exact Ho.
        * unfold without_charts in Ho. simpl in Ho. rewrite Hc, Hc' in Ho. simpl in Ho. injection Ho as <- Ho.
          change (run pr w (o :: l)) with (run pr (fst (step pr w o)) l). change (run pr w' (o :: l')) with (run pr (fst (step pr w' o)) l').
          destruct Hf as [Hf1 Hf], Hf' as [Hf1' Hf']. apply (IH (length l + length l')%nat); [simpl in *; lia|auto|exact Ho|auto|auto|].
          destruct o as [k|ref|u q ref m|ref tz op cl ds hs pv|eid fid|eid sid|fid i|e tk|c]; try (apply rel_same; auto; fail).
          -- apply (rel_tick eq_sim pr pr e tk tk w w'); auto. reflexivity.
          -- refine (proj1 (rel_cmd eq_sim w w' c c R _)). split; [|destruct c; try exact I; intros e _; exact I].
             destruct c as [e d q s ref|t q ref|e t q ref|s q ref|t x|t|t x d q ref|t q ref|s p|s b|p k]; try (rewrite <- (mul1 q) at 2); try constructor; try reflexivity.
             replace (COpen e d q s ref) with (COpen (F:=F) e (Sd eq_sim d) (Sn eq_sim * q) s ref) at 2 by (simpl; rewrite Z.mul_1_l; now destruct d). constructor.
  Qed.
  Lemma chart_runs pr l l' : chart_blind pr -> without_charts l = without_charts l' -> charts_fine pr empty_world l -> charts_fine pr empty_world l' ->
    no_charts (run pr empty_world l) = no_charts (run pr empty_world l').
  Proof. intros. apply rel_no_charts. apply same_run; auto. apply rel_empty. Qed.

  (** ** Without frame sets *)
  Definition bare w : Prop := forall i e, w_epics w !! i = Some e -> ep_fsets e = [].
  Lemma bare_ok w eid tk : bare w -> charts_ok w eid tk.
  Proof.
    intros Hb. unfold charts_ok, step, epic_on_new_tick. cbn [no_charts no_strats upd_epics w_epics]. rewrite !list_lookup_fmap. specialize (Hb eid).
    destruct (w_epics w !! eid) as [e|]; [|auto]. specialize (Hb e eq_refl). cbn [fmap option_fmap option_map ep_tz ep_set_fsets ep_set_strats ep_last ep_set_last ep_fsets ep_strats].
    rewrite Hb. destruct (arrow_ltb _ _); [auto|]. reflexivity.
  Qed.
  Lemma callback_epics pr sid cb eid w : w_epics (fst (run_callback pr sid cb eid w)) = w_epics w.
  Proof. unfold run_callback. cbv zeta. now rewrite script_epics. Qed.
  Lemma andthen_epics (x : world F * res unit) f w : w_epics x.1 = w_epics w -> (forall w1, w_epics w1 = w_epics w -> w_epics (fst (f w1)) = w_epics w) -> w_epics (fst (andthen x f)) = w_epics w.
  Proof. destruct x as [w1 [u|e]]; simpl; auto. Qed.
  Lemma strategy_epics pr eid mo w x : w_epics (fst (execute_strategy pr eid mo w x)) = w_epics w.
  Proof.
    unfold execute_strategy. destruct (w_strats w !! x.2) as [s|]; [|auto]. destruct (w_epics w !! eid) as [e|]; [|auto]. destruct (is_active s _) as [s' act]. destruct act; [|auto].
    apply andthen_epics; [destruct (eqb mo (ep_mopen e)); [auto|]; destruct mo; now rewrite callback_epics|]. intros w1 E1.
    apply andthen_epics; [destruct (ep_mopen e); [now rewrite callback_epics|auto]|]. intros w2 E2. now rewrite callback_epics.
  Qed.
  Lemma strategies_epics pr eid mo l w : w_epics (fst (forM (execute_strategy pr eid mo) w l)) = w_epics w.
  Proof. revert w. induction l as [|x l IH]; intros w; simpl; [auto|]. pose proof (strategy_epics pr eid mo w x) as E. destruct (execute_strategy pr eid mo w x) as [w1 [u|e]]; simpl in E |- *; [now rewrite IH|auto]. Qed.
  Lemma bare_step pr w o : is_chart o = false -> bare w -> bare (fst (step pr w o)).
  Proof.
    intros Hc Hb. destruct o as [k|ref|u q ref m|ref tz op cl ds hs pv|eid fid|eid sid|fid i|eid tk|c]; try discriminate; cbn [step]; auto.
    - unfold new_epic. destruct tz as [z|]; [|auto]. destruct (valid_id _ _); [|auto]. cbv zeta. destruct pv as [p|]; intros i e He; cbn [fst upd_epics upd_provs w_epics] in He;
        (apply lookup_app_Some in He as [He|[_ He]]; [now apply (Hb i)|destruct (i - _)%nat; [injection He as <-; reflexivity|discriminate]]).
    - unfold add_strategy. destruct (w_epics w !! eid) as [e|] eqn:Ee; [|auto]. destruct (w_strats w !! sid) as [s|]; [|auto]. destruct (dict_get _ _); [auto|]. intros i x Hx. simpl in Hx.
      destruct (decide (i = eid)) as [->|Hn]; [|rewrite list_lookup_insert_ne in Hx by auto; now apply (Hb i)]. rewrite list_lookup_insert in Hx by (eapply lookup_lt_Some; eauto). injection Hx as <-. exact (Hb eid e Ee).
    - unfold epic_on_new_tick. destruct (w_epics w !! eid) as [e|] eqn:Ee; [|auto]. cbv zeta. destruct (arrow_ltb _ _); [auto|]. cbn [ep_fsets ep_set_last]. rewrite (Hb eid e Ee). cbn [forM andthen].
      intros i x. rewrite strategies_epics. unfold update_open_trades. intros Hx.
      assert (<[eid:=ep_set_last e (tick_to (ep_tz e) tk) (is_market_open e (tick_to (ep_tz e) tk))]> (w_epics w) !! i = Some x) as Hx1 by (destruct (w_provs _ !! _); exact Hx). clear Hx.
      destruct (decide (i = eid)) as [->|Hn]; [|rewrite list_lookup_insert_ne in Hx1 by auto; now apply (Hb i)]. rewrite list_lookup_insert in Hx1 by (eapply lookup_lt_Some; eauto). injection Hx1 as <-. exact (Hb eid e Ee).
    - intros i e He. pose proof (cmd_rest w c) as E. apply (f_equal (fun x => fst (fst x))) in E. change (w_epics (fst (run_cmd w c)) = w_epics w) in E. rewrite E in He. now apply (Hb i).
  Qed.
  Lemma bare_fine pr l w : Forall (fun o => is_chart o = false) l -> bare w -> charts_fine pr w l.
  Proof.
    intros Hl. revert w. induction Hl as [|o l Ho Hl IH]; intros w Hb; [exact I|]. split; [destruct o; auto; now apply bare_ok|]. apply IH. now apply bare_step.
  Qed.
  Lemma without_no_chart (l : list (op F)) : Forall (fun o => is_chart o = false) (without_charts l).
  Proof. apply Forall_forall. intros o Ho. apply elem_of_list_In, filter_In in Ho as [_ Ho]. now apply negb_true_iff. Qed.
  Lemma without_twice (l : list (op F)) : without_charts (without_charts l) = without_charts l.
  Proof. induction l as [|o l IH]; [auto|]. unfold without_charts in *. simpl. destruct (is_chart o) eqn:E; simpl; rewrite ?E; simpl; [auto|now rewrite IH]. Qed.
  Lemma charts_removed pr l : chart_blind pr -> charts_fine pr empty_world l -> no_charts (run pr empty_world l) = no_charts (run pr empty_world (without_charts l)).
  Proof.
    intros Hb Hf. apply chart_runs; [auto|now rewrite without_twice|auto|]. apply bare_fine; [apply without_no_chart|]. intros i e He. discriminate He.
  Qed.
End proofs.
