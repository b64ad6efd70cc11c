(** Lookups, isolation, failed calls, history of a frame set, dates of trades. *)
From Verif Require Export EpicRunProofs.
From Verif Require Import FramesProofs.
Open Scope Z_scope.

Section proofs.
  Context {F : Type} `{Num F}.
  Implicit Types (w : world F) (t : trade F) (e : epic F) (s : strategy) (fs : fset F).

  (** ** C27: get_frame, get_indicator_value *)
  Lemma getitem_back {A} (l : list A) off : 0 <= off -> py_index l ((off + 1) * -1) = reverse l !! Z.to_nat off.
  Proof.
    intros Ho. unfold py_index. cbv zeta. destruct (Z.leb_spec 0 ((off + 1) * -1)); [lia|]. destruct (Z.leb_spec (- Z.of_nat (length l)) ((off + 1) * -1)).
    - rewrite reverse_lookup by lia. f_equal. lia.
    - symmetry. apply lookup_ge_None. rewrite reverse_length. lia.
  Qed.
  Lemma get_frame_spec P w eid e ref : reach P w -> w_epics w !! eid = Some e ->
    (forall off, dict_get (ep_fsets e) ref = None -> get_frame w e ref off = Err KeyError) /\
    (forall fid off, dict_get (ep_fsets e) ref = Some fid -> 0 <= off -> exists fs, w_fsets w !! fid = Some fs /\ fs_ref fs = ref /\
       get_frame w e ref off = Ok (reverse (fs_frames fs) !! Z.to_nat off)).
  Proof.
    intros Hr He. unfold get_frame. split; [intros off ->; auto|]. intros fid off Hd Ho. rewrite Hd. destruct (reach_refs P w eid e Hr He) as (_ & _ & R & _).
    destruct (R ref fid) as (fs & Hf & Er); [now apply dict_get_elem|]. exists fs. rewrite Hf. split; [auto|]. split; [auto|]. unfold fs_getitem. now rewrite getitem_back.
  Qed.
  (** Every frame set of a reachable state has a history. *)
  Lemma reach_fset_reach P w : reach P w -> forall fid fs, w_fsets w !! fid = Some fs -> fs_reach (fs_max fs) fs.
  Proof.
    intros Hr. induction Hr as [|w c Hr IH Hc|pr w o Hr IH Ho|w eid e tk Hr IH He Ha|w eid e x Hr IH He Hx|w eid e Hr IH He|w sid s d Hr IH Hs|w l Hr IH]; intros fid fs Hf.
    - discriminate.
    - pose proof (cmd_rest w c) as E. injection E as _ E _. rewrite E in Hf. eauto.
    - destruct o as [k|ref|u q ref m|ref tz op cl ds hs p|a f|a s|f i|a tk|c]; try (exfalso; exact Ho); cbn [step fst] in Hf; try (exact (IH _ _ Hf)).
      + destruct (fset_init u q ref m) as [fs0|] eqn:E; [|exact (IH _ _ Hf)]. cbn [fst w_fsets upd_fsets] in Hf. apply lookup_app_Some in Hf as [Hf|[_ Hf]]; [exact (IH _ _ Hf)|].
        apply list_lookup_singleton_Some in Hf as [_ <-]. destruct (fset_init_wf _ _ _ _ _ E) as (_ & _ & _ & _ & -> & _). econstructor. exact E.
      + unfold new_epic in Hf. destruct tz as [z|]; [|exact (IH _ _ Hf)]. destruct (valid_id _ _); [|exact (IH _ _ Hf)]. destruct p; exact (IH _ _ Hf).
      + unfold add_frame_set in Hf. destruct (w_epics w !! a); [|exact (IH _ _ Hf)]. destruct (w_fsets w !! f) as [fs0|] eqn:E; [|exact (IH _ _ Hf)]. destruct (dict_get _ _); [exact (IH _ _ Hf)|].
        cbn [fst w_fsets upd_fsets upd_epics] in Hf. apply insert_lookup_inv in Hf as [(-> & -> & _)|[Hf _]]; [|exact (IH _ _ Hf)]. constructor. exact (IH _ _ E).
      + unfold add_strategy in Hf. destruct (w_epics w !! a); [|exact (IH _ _ Hf)]. destruct (w_strats w !! s) as [fs0|] eqn:E; [|exact (IH _ _ Hf)]. destruct (dict_get _ _); exact (IH _ _ Hf).
      + destruct (w_fsets w !! f) as [fs0|] eqn:E; [|exact (IH _ _ Hf)]. destruct (add_indicator fs0 i) as [fs' r] eqn:Ea. cbn [fst w_fsets upd_fsets] in Hf. apply insert_lookup_inv in Hf as [(-> & -> & _)|[Hf _]]; [|exact (IH _ _ Hf)].
        destruct (add_indicator_frames fs0 i) as (_ & _ & _ & _ & A). rewrite Ea in A. simpl in A. rewrite A. pose proof (reach_indicator _ _ i (IH _ _ E)) as R. rewrite Ea in R. exact R.
    - exact (IH _ _ Hf).
    - unfold update_frame_set in Hf. destruct (w_fsets w !! x.2) as [fs0|] eqn:E; [|exact (IH _ _ Hf)]. destruct (fs_epic_state w fs0) as [mo lst].
      pose proof (fs_tick_conf (gap_fuel fs0 (ep_last e)) fs0 (ep_last e) mo lst) as C. pose proof (reach_tick _ _ (gap_fuel fs0 (ep_last e)) (ep_last e) mo lst (IH _ _ E)) as R.
      destruct (fs_on_new_tick _ _ _ _ _) as [fs' r]. cbn [fst w_fsets upd_fsets] in *. apply insert_lookup_inv in Hf as [(-> & -> & _)|[Hf _]]; [|exact (IH _ _ Hf)].
      destruct C as (_ & _ & _ & C & _). now rewrite C.
    - destruct (value_rest w (ep_prov e) (ep_last e)) as (_ & _ & _ & V). rewrite V in Hf. exact (IH _ _ Hf).
    - exact (IH _ _ Hf).
    - exact (IH _ _ Hf).
  Qed.
  Lemma fs_reach_wf mx fs : 1 <= mx -> fs_reach mx fs -> wf fs /\ fs_max fs = mx.
  Proof.
    intros Hm Hr. induction Hr as [u q ref fs Hi|fs i Hr [IH1 IH2]|fs e Hr [IH1 IH2]|fs fuel tk mo lst Hr [IH1 IH2]].
    - destruct (fset_init_wf _ _ _ _ _ Hi) as (W & _ & _ & _ & M & _). auto.
    - destruct (add_indicator_frames fs i) as (A1 & A2 & _ & _ & A3). unfold wf. rewrite A1, A2, A3. auto.
    - auto.
    - destruct (fs_on_new_tick fuel fs tk mo lst) as [fs' r] eqn:E. destruct (fs_tick_wf fuel fs tk mo lst fs' r ltac:(lia) IH1 E) as [W (_ & _ & _ & C & _)]. simpl. split; [auto|congruence].
  Qed.
  Lemma get_indicator_spec P w eid e ref iref : reach P w -> w_epics w !! eid = Some e ->
    (forall off, dict_get (ep_fsets e) ref = None -> get_indicator_value w e ref iref off = Err KeyError) /\
    (forall fid off fs, dict_get (ep_fsets e) ref = Some fid -> w_fsets w !! fid = Some fs -> 1 <= fs_max fs -> 0 <= off ->
       (get_frame w e ref off = Ok None -> get_indicator_value w e ref iref off = Ok None) /\
       (forall i, get_frame w e ref off = Ok (Some i) -> exists f, fs_heap fs !! i = Some f /\
          forall v, get_indicator_value w e ref iref off = Ok v <-> v = mjoin (dict_get (fr_inds f) iref))).
  Proof.
    intros Hr He. unfold get_indicator_value. destruct (get_frame_spec P w eid e ref Hr He) as [G1 G2]. split.
    - intros off Hd. now rewrite (G1 off Hd).
    - intros fid off fs Hd Hf Hm Ho. destruct (G2 fid off Hd Ho) as (fs' & Hf' & _ & E). assert (fs' = fs) as -> by congruence. rewrite E. rewrite Hd, Hf. split.
      + intros [= ->]. reflexivity.
      + intros i [= Ei]. rewrite Ei. destruct (fs_reach_wf _ _ Hm (reach_fset_reach P w Hr _ _ Hf)) as [[[L1 L2 L3 L4] L5] _].
        assert (i ∈ fs_frames fs) as Hi. { apply elem_of_reverse. eapply elem_of_list_lookup_2; eauto. }
        rewrite L2 in Hi. apply elem_of_seq in Hi. destruct (lookup_lt_is_Some_2 (fs_heap fs) i) as [f Hfr]; [lia|]. exists f. split; [auto|]. intros v. cbn [rbind]. rewrite Hfr. split; [intros [= <-]; auto|intros ->; auto].
  Qed.

  (** ** C48 *)
  Lemma tp_last w l ref : get_epic_by_ref (tp_epics w l) ref =
    last (List.filter (fun i => match w_epics w !! i with Some e => String.eqb (ep_ref e) ref | None => false end) l).
  Proof.
    unfold get_epic_by_ref, tp_epics. induction l as [|i l IH] using rev_ind; [reflexivity|]. rewrite fold_left_app. cbn [fold_left]. rewrite List.filter_app. cbn [List.filter].
    destruct (w_epics w !! i) as [e|]; [|now rewrite app_nil_r]. rewrite dict_get_set, IH. destruct (String.eqb (ep_ref e) ref); [now rewrite last_snoc|now rewrite app_nil_r].
  Qed.
  Lemma tp_lookup w l ref i : (forall j, j ∈ l -> is_Some (w_epics w !! j)) ->
    (get_epic_by_ref (tp_epics w l) ref = Some i <-> exists l1 l2 e, l = l1 ++ i :: l2 /\ w_epics w !! i = Some e /\ ep_ref e = ref /\
       forall j e', j ∈ l2 -> w_epics w !! j = Some e' -> ep_ref e' <> ref) /\
    (get_epic_by_ref (tp_epics w l) ref = None <-> forall j e', j ∈ l -> w_epics w !! j = Some e' -> ep_ref e' <> ref).
  Proof.
    intros Hl. rewrite tp_last. set (f := fun i => match w_epics w !! i with Some e => String.eqb (ep_ref e) ref | None => false end).
    assert (forall j, f j = true <-> exists e', w_epics w !! j = Some e' /\ ep_ref e' = ref) as Hf.
    { intros j. unfold f. destruct (w_epics w !! j) as [e'|]; [rewrite String.eqb_eq|]; split; eauto; [intros (e0 & [= <-] & ?); auto|discriminate|intros (e0 & ? & _); discriminate]. }
    assert (forall k, (forall j e', j ∈ k -> w_epics w !! j = Some e' -> ep_ref e' <> ref) <-> List.filter f k = []) as Hnil.
    { induction k as [|j k IHk]; simpl; [split; [auto|intros _ j e' E; now apply elem_of_nil in E]|]. split.
      - intros Hk. destruct (f j) eqn:E; [|apply IHk; intros; eapply Hk; eauto; now right]. apply Hf in E as (e' & E1 & E2). elim (Hk j e'); auto. left.
      - destruct (f j) eqn:E; [discriminate|]. intros Ek j' e' [->|Hj]%elem_of_cons Hj'; [|eapply IHk; eauto]. intros Er. assert (f j = true) by (apply Hf; eauto). congruence. }
    split.
    - clear Hl. induction l as [|j l IH]; cbn [List.filter]; [split; [discriminate|intros ([|] & ? & ? & ? & _); discriminate]|]. split.
      + intros E. destruct (List.filter f l) as [|x k] eqn:Ek.
        * destruct (f j) eqn:Ej; [|discriminate]. injection E as ->. apply Hf in Ej as (e & E1 & E2). exists [], l, e. repeat (split; [auto; fail|]). now apply Hnil.
        * assert (last (x :: k) = Some i) as E' by (destruct (f j); [rewrite last_cons in E; destruct (last (x :: k)) eqn:El; [auto|now apply last_None in El]|auto]).
          destruct (proj1 IH E') as (l1 & l2 & e & -> & H1 & H2 & H3). exists (j :: l1), l2, e. auto.
      + intros (l1 & l2 & e & E & H1 & H2 & H3). destruct l1 as [|j1 l1]; cbn [app] in E; injection E as -> ->.
        * apply Hnil in H3. rewrite H3. assert (f i = true) as -> by (apply Hf; eauto). reflexivity.
        * assert (last (List.filter f (l1 ++ i :: l2)) = Some i) as E by (apply IH; exists l1, l2, e; auto). destruct (f j1); [rewrite last_cons, E; auto|auto].
    - rewrite Hnil. split; [|intros ->; auto]. intros E. destruct (List.filter f l) as [|x k] eqn:Ek; [auto|]. exfalso. now apply last_None in E.
  Qed.

  (** ** C47: isolation *)
  Lemma fsets_other tk l w fid : (forall x, x ∈ l -> x.2 <> fid) -> w_fsets (fst (forM (update_frame_set tk) w l)) !! fid = w_fsets w !! fid.
  Proof.
    intros Hl. apply (forM_inv (fun w1 => w_fsets w1 !! fid = w_fsets w !! fid)); [|auto]. intros w1 x Hx <-. unfold update_frame_set. destruct (w_fsets w1 !! x.2) as [fs|]; [|auto].
    destruct (fs_epic_state w1 fs). destruct (fs_on_new_tick _ _ _ _ _). cbn [fst w_fsets upd_fsets]. apply list_lookup_insert_ne. now apply Hl.
  Qed.
  Lemma execute_fsets pr eid mo l w : w_fsets (fst (forM (execute_strategy pr eid mo) w l)) = w_fsets w /\ w_epics (fst (forM (execute_strategy pr eid mo) w l)) = w_epics w.
  Proof.
    apply (forM_inv (fun w1 => w_fsets w1 = w_fsets w /\ w_epics w1 = w_epics w)); [|auto]. intros w1 x _ [<- <-]. unfold execute_strategy.
    destruct (w_strats w1 !! x.2) as [s|]; [|auto]. destruct (w_epics w1 !! eid) as [e|]; [|auto]. destruct (is_active s _) as [s' act]. destruct act; [|auto].
    set (w2 := upd_strats w1 _). assert (forall cb w3, w_fsets w3 = w_fsets w1 /\ w_epics w3 = w_epics w1 -> w_fsets (fst (run_callback pr x.2 cb eid w3)) = w_fsets w1 /\ w_epics (fst (run_callback pr x.2 cb eid w3)) = w_epics w1) as Hc.
    { intros cb w3 [H1 H2]. destruct (callback_rest pr x.2 cb eid w3) as (_ & B & C). split; congruence. }
    apply (andthen_inv (fun w3 => w_fsets w3 = w_fsets w1 /\ w_epics w3 = w_epics w1)).
    - destruct (eqb mo (ep_mopen e)); [auto|]. destruct mo; apply Hc; auto.
    - intros w3 H3. apply (andthen_inv (fun w3 => w_fsets w3 = w_fsets w1 /\ w_epics w3 = w_epics w1)); [destruct (ep_mopen e); auto|auto].
  Qed.
  Lemma tick_other_fset pr w eid e tk fid : w_epics w !! eid = Some e -> (forall k, ~ (k, fid) ∈ ep_fsets e) -> w_fsets (fst (epic_on_new_tick pr w eid tk)) !! fid = w_fsets w !! fid.
  Proof.
    intros He Hf. destruct (refused_dec e tk) as [Hn|Hn]; [now rewrite (tick_refused _ _ _ _ _ He Hn)|]. unfold epic_on_new_tick. rewrite He. cbv zeta. destruct (arrow_ltb _ _); [auto|].
    set (w1 := upd_epics w _). pose proof (fsets_other (tick_to (ep_tz e) tk) (ep_fsets e) w1 fid) as H1. cbn [ep_fsets ep_set_last ep_prov ep_strats] in *.
    destruct (forM (update_frame_set _) w1 (ep_fsets e)) as [w2 [u|er]]; cbn [andthen fst] in *.
    - rewrite (proj1 (execute_fsets _ _ _ _ _)). destruct (value_rest w2 (ep_prov e) (tick_to (ep_tz e) tk)) as (_ & _ & _ & ->). rewrite H1; [auto|]. intros [k i] Hi. simpl. intros ->. now apply (Hf k).
    - rewrite H1; [auto|]. intros [k i] Hi. simpl. intros ->. now apply (Hf k).
  Qed.
  Lemma no_call_script w (sc : script F) : script_ok no_call sc -> fst (run_script w sc) = w.
  Proof. destruct sc; simpl; auto. intros [[] _]. Qed.
  Definition books w := (w_trades w, w_provs w, map st_trades (w_strats w)).
  Lemma books_inv w w' : books w' = books w -> w_trades w' = w_trades w /\ w_provs w' = w_provs w /\ map st_trades (w_strats w') = map st_trades (w_strats w).
  Proof. intros E. now injection E. Qed.
  Lemma no_call_callback pr sid cb eid w : programs_ok no_call pr -> books (fst (run_callback pr sid cb eid w)) = books w.
  Proof. intros Hp. unfold run_callback. cbv zeta. rewrite no_call_script by apply Hp. reflexivity. Qed.
  Lemma no_call_execute pr eid mo l w : programs_ok no_call pr -> books (fst (forM (execute_strategy pr eid mo) w l)) = books w.
  Proof.
    intros Hp. apply (forM_inv (fun w1 => books w1 = books w)); [|auto]. intros w1 x _ <-. unfold execute_strategy.
    destruct (w_strats w1 !! x.2) as [s|] eqn:Es; [|auto]. destruct (w_epics w1 !! eid) as [e|]; [|auto].
    assert (st_trades (fst (is_active s (tk_dt (ep_last e)))) = st_trades s) as Et. { unfold is_active. destruct (st_stopped s); [auto|]. destruct (st_paused s); [|auto]. now destruct (arrow_ltb _ _). }
    destruct (is_active s _) as [s' act]. cbn [fst] in Et. assert (books (upd_strats w1 (<[x.2:=s']> (w_strats w1))) = books w1) as Hb.
    { unfold books. simpl. f_equal. exact (fmap_insert_same st_trades (w_strats w1) x.2 s' s Es Et). }
    destruct act; [|exact Hb]. set (w2 := upd_strats w1 _) in *. apply (andthen_inv (fun w3 => books w3 = books w1)).
    - destruct (eqb mo (ep_mopen e)); [auto|]. destruct mo; rewrite no_call_callback; auto.
    - intros w3 H3. apply (andthen_inv (fun w3 => books w3 = books w1)); [destruct (ep_mopen e); [rewrite no_call_callback; auto|auto]|]. intros w4 H4. rewrite no_call_callback; auto.
  Qed.
  Lemma tick_isolated P pr w eid e tk : reach P w -> w_epics w !! eid = Some e -> let w' := fst (epic_on_new_tick pr w eid tk) in
    (forall a, a <> eid -> w_epics w' !! a = w_epics w !! a) /\
    (forall fid, (forall k, ~ (k, fid) ∈ ep_fsets e) -> w_fsets w' !! fid = w_fsets w !! fid) /\
    (programs_ok no_call pr -> w_provs w' = w_provs w /\ map st_trades (w_strats w') = map st_trades (w_strats w) /\
       (forall i, ~ registered w (ep_prov e) i -> w_trades w' !! i = w_trades w !! i)).
  Proof.
    intros Hr He. cbv zeta. split; [|split].
    - intros a Ha. destruct (refused_dec e tk) as [Hn|Hn]; [now rewrite (tick_refused _ _ _ _ _ He Hn)|]. rewrite (tick_epics _ _ _ _ _ He Hn). apply list_lookup_insert_ne; auto.
    - intros fid Hf. now apply (tick_other_fset pr w eid e).
    - intros Hp. destruct (refused_dec e tk) as [Hn|Hn]; [rewrite (tick_refused _ _ _ _ _ He Hn); auto|].
      assert (arrow_ltb (tk_dt (tick_to (ep_tz e) tk)) (tk_dt (ep_last e)) = false) as Ha. { unfold refused in Hn. cbn [tick_to tk_dt]. destruct (arrow_ltb _ _); [now elim Hn|auto]. }
      destruct (revaluation P pr w eid e tk Hr He Ha) as [(x & X1 & X2)|(w3 & X1 & X2 & X3 & X4 & X5)].
      + rewrite X2. split; [|split; [|auto]].
        * unfold epic_on_new_tick in *. rewrite He in *. cbv zeta in *. rewrite Ha in *. match goal with |- context [forM (update_frame_set ?tk) ?w1 ?l] => destruct (fsets_trades tk l w1) as (T1 & T2 & T3 & _) end.
          destruct (forM (update_frame_set _) _ _) as [w2 [u|er]]; cbn [andthen fst snd] in *; [|auto].
          match goal with |- context [forM (execute_strategy _ _ _) ?w0 ?l0] => pose proof (no_call_execute pr eid (ep_mopen e) l0 w0 Hp) as B; apply books_inv in B as (_ & B & _) end.
          rewrite B. unfold update_open_trades. destruct (w_provs w2 !! _); simpl; now rewrite T2.
        * unfold epic_on_new_tick in *. rewrite He in *. cbv zeta in *. rewrite Ha in *. match goal with |- context [forM (update_frame_set ?tk) ?w1 ?l] => destruct (fsets_trades tk l w1) as (T1 & T2 & T3 & _) end.
          destruct (forM (update_frame_set _) _ _) as [w2 [u|er]]; cbn [andthen fst snd] in *; [|now rewrite T3].
          match goal with |- context [forM (execute_strategy _ _ _) ?w0 ?l0] => pose proof (no_call_execute pr eid (ep_mopen e) l0 w0 Hp) as B; apply books_inv in B as (_ & _ & B) end.
          rewrite B. destruct (value_rest w2 (ep_prov (ep_set_last e (tick_to (ep_tz e) tk) (is_market_open e (tick_to (ep_tz e) tk)))) (tick_to (ep_tz e) tk)) as (V & _). rewrite V, T3. reflexivity.
      + rewrite X1. pose proof (no_call_execute pr eid (ep_mopen e) (ep_strats e) w3 Hp) as B. apply books_inv in B as (B1 & B2 & B3). rewrite B1, B2, B3, X2, X3. split; [auto|]. split; [auto|].
        intros i Hi. destruct (w_trades w !! i) as [t|] eqn:Et.
        * destruct (X5 i t Et) as (t' & T1 & _ & T2). rewrite T1, T2; auto.
        * assert (length (w_trades w3) = length (w_trades w)) as El.
          { assert (w_trades (fst (epic_on_new_tick pr w eid tk)) = w_trades w3) as E1 by now rewrite X1. rewrite <- E1. unfold epic_on_new_tick. rewrite He. cbv zeta. rewrite Ha.
            match goal with |- context [forM (update_frame_set ?tk) ?w1 ?l] => destruct (fsets_trades tk l w1) as (T1 & T2 & T3 & _) end. destruct (forM (update_frame_set _) _ _) as [w2 [u|er]]; cbn [andthen fst snd] in *; [|now rewrite T1].
            match goal with |- context [forM (execute_strategy _ _ _) ?w0 ?l0] => pose proof (no_call_execute pr eid (ep_mopen e) l0 w0 Hp) as B; apply books_inv in B as (B & _ & _) end.
            rewrite B. pose proof (keeps_length _ _ (keeps_value w2 (ep_prov (ep_set_last e (tick_to (ep_tz e) tk) (is_market_open e (tick_to (ep_tz e) tk)))) (tick_to (ep_tz e) tk))) as KL. rewrite KL, T1. reflexivity. }
          apply lookup_ge_None in Et. apply lookup_ge_None. lia.
  Qed.
End proofs.
