(** The charts of whole programs, from the empty state (C33, C34, C36). *)
From Verif Require Export ProgramHistProofs NavigationProofs EpicHistProofs FrameFinalProofs EpicFinalProofs EpicMoreProofs EpicProofs WorldProofs SpecBlind.
From Verif Require SimProofs.
Open Scope Z_scope.

Section proofs.
  Context {F : Type} `{Num F}.
  Implicit Types (w : world F).

  Definition unattached fid w : Prop := forall a b k, w_epics w !! a = Some b -> ~ (k, fid) ∈ ep_fsets b.
  Definition unfed fid w : Prop := forall fs, w_fsets w !! fid = Some fs -> fs_run_epic (fs_unit fs) (fs_q fs) (fs_max fs) [] fs.
  Lemma step_unfed pr w (o : op F) fid : not_attaching fid o -> unattached fid w -> unfed fid w -> unattached fid (fst (step pr w o)) /\ unfed fid (fst (step pr w o)).
  Proof.
    intros Hna Hu Hf. split.
    - intros a b' k Hb Hk. destruct (step_attached_back pr w o fid a b' k Hna Hb Hk) as (b & Hb0 & Hk0). exact (Hu a b k Hb0 Hk0).
    - intros fs. destruct o as [k0|ref|u q ref m|ref tz op cl ds hs p|a0 f|a0 s|f i|a0 tk|c]; cbn [step fst].
      + apply Hf.
      + apply Hf.
      + destruct (fset_init u q ref m) as [fs0|x] eqn:E; [|apply Hf]. cbn [fst w_fsets upd_fsets]. intros Hl. apply lookup_app_Some in Hl as [Hl|[_ Hl]]; [now apply Hf|].
        apply list_lookup_singleton_Some in Hl as [_ <-]. assert (fs_unit fs0 = u /\ fs_q fs0 = q /\ fs_max fs0 = m) as (-> & -> & ->); [|eapply rep_init; eauto].
        unfold fset_init in E. destruct (check_unit u q); simpl in E; [|discriminate]. assert (fs0 = {| fs_ref := ref; fs_unit := u; fs_q := q; fs_max := m; fs_epic := None; fs_heap := []; fs_frames := []; fs_inds := [] |}) as -> by congruence. auto.
      + unfold new_epic. destruct tz as [z|]; [|apply Hf]. destruct (valid_id _ _); [|apply Hf]. destruct p; apply Hf.
      + simpl in Hna. unfold add_frame_set. destruct (w_epics w !! a0); [|apply Hf]. destruct (w_fsets w !! f); [|apply Hf]. destruct (dict_get _ _); [apply Hf|].
        cbn [fst w_fsets upd_fsets upd_epics]. rewrite list_lookup_insert_ne by auto. apply Hf.
      + unfold add_strategy. destruct (w_epics w !! a0); [|apply Hf]. destruct (w_strats w !! s); [|apply Hf]. destruct (dict_get _ _); apply Hf.
      + destruct (w_fsets w !! f) as [ff|] eqn:Ef; [|apply Hf]. destruct (add_indicator ff i) as [ff' r] eqn:Ei. cbn [fst w_fsets upd_fsets]. destruct (decide (f = fid)) as [->|Hne].
        * rewrite list_lookup_insert by (eapply lookup_lt_Some; eauto). intros E. assert (ff' = fs) as <- by congruence. specialize (Hf ff Ef). apply (rep_indicator _ _ _ _ _ i) in Hf. rewrite Ei in Hf.
          assert (fs_unit (fst (add_indicator ff i)) = fs_unit ff /\ fs_q (fst (add_indicator ff i)) = fs_q ff /\ fs_max (fst (add_indicator ff i)) = fs_max ff) as (E1 & E2 & E3) by (unfold add_indicator; now destruct (in_kind i)).
          rewrite Ei in E1, E2, E3. simpl in *. now rewrite E1, E2, E3.
        * rewrite list_lookup_insert_ne by auto. apply Hf.
      + destruct (w_epics w !! a0) as [ea|] eqn:Ea; [|unfold epic_on_new_tick; rewrite Ea; apply Hf]. rewrite (tick_other_fset pr w a0 ea tk fid Ea); [apply Hf|]. intros k. eapply Hu; eauto.
      + pose proof (cmd_rest w c) as E. injection E as _ E _. rewrite E. apply Hf.
  Qed.
  Lemma run_unfed pr l : forall w fid, Forall (not_attaching fid) l -> unattached fid w -> unfed fid w -> unattached fid (run pr w l) /\ unfed fid (run pr w l).
  Proof.
    induction l as [|o l IH]; intros w fid Hl Hu Hf; [auto|]. apply Forall_cons in Hl as [Ho Hl]. destruct (step_unfed pr w o fid Ho Hu Hf) as (Hu1 & Hf1). exact (IH _ fid Hl Hu1 Hf1).
  Qed.
  Lemma any_script_ok (x : script F) : script_ok (fun _ => True) x.
  Proof. induction x as [|e|c k IH]; simpl; auto. Qed.
  Lemma any_ops_ok (l : list (op F)) : Forall (op_ok (fun _ => True)) l.
  Proof. apply Forall_true. now intros []. Qed.
  Lemma any_run_reach pr (l : list (op F)) : reach (fun _ => True) (run pr empty_world l).
  Proof. apply run_reach; [intros sid cb eid w; apply any_script_ok|apply any_ops_ok|constructor]. Qed.

  Lemma program_split pr l1 (o : op F) l2 w : run pr w (l1 ++ o :: l2) = run pr (fst (step pr (run pr w l1) o)) l2.
  Proof. unfold run. rewrite fold_left_app. reflexivity. Qed.

  (** The frame set [fid], attached to [eid] once, between [l1] and [l2]. *)
  Lemma charts_frames pr (l : list (op F)) : forall w, charts_fine pr w l -> frames_fine pr w l.
  Proof.
    induction l as [|o l IH]; intros w; [auto|]. intros [Ho Hl]. split; [|now apply IH]. destruct o as [| | | | | | |a tk|]; try exact Logic.I.
    intros e He Hn. destruct (SimProofs.charts_fsets w a e tk Ho He) as (fs & [] & E); [apply not_true_is_false; exact Hn|]. unfold accepted_epic. now rewrite E.
  Qed.
  Lemma frames_charts (w : world F) a tk : frames_ok w (OTick a tk) -> charts_ok w a tk.
  Proof.
    intros Hok. unfold charts_ok. cbn [step]. unfold epic_on_new_tick at 2. cbn [no_charts w_epics]. rewrite list_lookup_fmap. unfold epic_on_new_tick. cbn [no_strats upd_epics w_epics]. rewrite list_lookup_fmap.
    destruct (w_epics w !! a) as [e|] eqn:He; [|reflexivity]. cbn [fmap option_fmap option_map ep_tz ep_set_fsets ep_set_strats ep_last].
    destruct (arrow_ltb (tk_dt (tick_to (ep_tz e) tk)) (tk_dt (ep_last e))) eqn:Ea; [reflexivity|]. specialize (Hok e He ltac:(unfold refused; cbn [tick_to tk_dt] in Ea; intros Hn; congruence)).
    cbn [ep_set_last ep_fsets ep_set_fsets ep_set_strats ep_strats forM andthen snd].
    match goal with |- snd (andthen (forM (update_frame_set ?tk1) ?v _) _) = _ => assert (SimProofs.same_view (upd_epics w (<[a := accepted_epic e tk]> (w_epics w))) v) as Hv end.
    { split; [reflexivity|]. intros i. cbn [upd_epics w_epics no_strats]. destruct (decide (i = a)) as [->|Hn].
      - rewrite !list_lookup_insert by (rewrite ?fmap_length; eapply lookup_lt_Some; eauto). split; reflexivity.
      - rewrite !list_lookup_insert_ne by auto. rewrite list_lookup_fmap. destruct (w_epics w !! i); simpl; auto. }
    pose proof (SimProofs.view_forM (tick_to (ep_tz e) tk) (ep_fsets e) _ _ Hv) as Ev. match goal with |- snd (andthen ?x _) = _ => assert (snd x = Ok ()) as E by exact (eq_trans Ev Hok); destruct x as [w3 r3] end. cbn [snd] in E. subst r3. reflexivity.
  Qed.
  Lemma clean_charts pr (l : list (op F)) : forall w, clean pr w l -> charts_fine pr w l.
  Proof.
    intros w Hcl. apply clean_frames in Hcl. revert w Hcl. induction l as [|o l IH]; intros w; [auto|]. intros [Ho Hl]. split; [|now apply IH]. destruct o; try exact Logic.I. now apply frames_charts.
  Qed.
  Lemma charts_fine_app pr (l1 l2 : list (op F)) : forall w, charts_fine pr w (l1 ++ l2) -> charts_fine pr (run pr w l1) l2.
  Proof. induction l1 as [|o l1 IH]; intros w; [auto|]. intros [_ Hl]. exact (IH _ Hl). Qed.
  Lemma chart_history pr l1 l2 eid e fid fs : let w1 := run pr empty_world l1 in let w := fst (step pr w1 (OAddFrameSet eid fid)) in
    Forall (not_attaching fid) l1 -> Forall (not_attaching fid) l2 -> w_epics w1 !! eid = Some e -> w_fsets w1 !! fid = Some fs -> snd (step pr w1 (OAddFrameSet eid fid)) = Ok () ->
    frames_fine pr w l2 -> exists fs', w_fsets (run pr w l2) !! fid = Some fs' /\ fs_run_epic (fs_unit fs) (fs_q fs) (fs_max fs) (accepted pr w l2 eid) fs' /\
      in_order (ep_tz e) (accepted pr w l2 eid).
  Proof.
    intros w1 w Hn1 Hn2 He Hf Hok Hcl.
    destruct (run_unfed pr l1 empty_world fid Hn1) as (Hu & Hunfed); [intros a b k Hb; discriminate Hb|intros x Hx; discriminate Hx|]. fold w1 in Hu, Hunfed.
    assert (exists e', w_epics w !! eid = Some e' /\ ep_tz e' = ep_tz e /\ attached_only w fid eid /\ w_fsets w !! fid = Some (fs_set_epic fs (Some eid))) as (e' & He' & Etz & Hat & Hf').
    { subst w. revert Hok. cbn [step]. unfold add_frame_set. rewrite He, Hf. destruct (dict_get (ep_fsets e) (fs_ref fs)) eqn:Eg; [discriminate|]. intros _. cbn [fst w_epics w_fsets upd_epics upd_fsets].
      eexists. split; [apply list_lookup_insert; eapply lookup_lt_Some; eauto|]. split; [reflexivity|].
      assert (<[fid:=fs_set_epic fs (Some eid)]> (w_fsets w1) !! fid = Some (fs_set_epic fs (Some eid))) as Hl by (apply list_lookup_insert; eapply lookup_lt_Some; eauto).
      split; [|exact Hl]. split; [|split].
      - eexists _, (fs_ref fs). cbn [w_epics upd_epics]. split; [apply list_lookup_insert; eapply lookup_lt_Some; eauto|]. cbn [ep_fsets ep_set_fsets].
        apply dict_get_elem. rewrite dict_get_set, String.eqb_refl. reflexivity.
      - eexists. cbn [w_fsets upd_epics upd_fsets]. split; [exact Hl|reflexivity].
      - intros a b k Hb Hk. cbn [w_epics upd_epics upd_fsets] in Hb. destruct (decide (a = eid)) as [|Hne]; [auto|]. rewrite list_lookup_insert_ne in Hb by auto. elim (Hu a b k Hb Hk). }
    assert (reach (fun _ : cmd F => True) w) as Hr by (subst w; apply step_reach; [intros sid cb x w0; apply any_script_ok|exact I|apply any_run_reach]).
    destruct (run_fset (fun _ => True) pr l2 w eid e' fid (fs_set_epic fs (Some eid)) (fs_unit fs) (fs_q fs) (fs_max fs) [] Hr) as (fs' & F1 & F2); auto.
    - intros sid cb x w0. apply any_script_ok.
    - apply any_ops_ok.
    - apply rep_epic. now apply Hunfed.
    - exists fs'. split; [auto|]. split; [exact F2|]. rewrite <- Etz. now apply accepted_order'.
  Qed.
  Lemma epic_is_run u q mx ts (fs : fset F) : fs_run_epic u q mx ts fs -> fs_run u q mx ts fs.
  Proof. induction 1; [eapply run_init; eauto|now apply run_indicator|now apply run_epic|eapply run_tick; eauto]. Qed.

  Lemma program_charts pr l1 l2 eid e fid fs fs' : let w1 := run pr empty_world l1 in let w := fst (step pr w1 (OAddFrameSet eid fid)) in let ts := accepted pr w l2 eid in
    Forall (not_attaching fid) (l1 ++ l2) -> w_epics w1 !! eid = Some e -> w_fsets w1 !! fid = Some fs -> snd (step pr w1 (OAddFrameSet eid fid)) = Ok () -> charts_fine pr w l2 ->
    1 <= fs_max fs -> fs_unit fs <> TICK -> 0 < fs_q fs -> no_skip (ep_tz e) -> w_fsets (run pr empty_world (l1 ++ OAddFrameSet eid fid :: l2)) !! fid = Some fs' ->
    (forall i f, fs_heap fs' !! i = Some f -> exists x, fr_end f = Some x /\ boundary (fs_unit fs) (fs_q fs) (ar_wall (fr_start f)) /\
       next_boundary (fs_unit fs) (fs_q fs) (ar_wall (fr_start f)) (ar_wall x) /\ ar_tz (fr_start f) = ep_tz e /\ ar_tz x = ep_tz e) /\
    (forall i f g, fs_heap fs' !! i = Some f -> fs_heap fs' !! (S i) = Some g -> fr_end f = Some (fr_start g)) /\
    (comparable ts -> forall i f, fs_heap fs' !! i = Some f -> exists x, fr_end f = Some x /\ covers ts (ar_wall (fr_start f)) (ar_wall x) f) /\
    forall t, t ∈ ts -> exists i, (exists f x, fs_heap fs' !! i = Some f /\ fr_end f = Some x /\ ar_wall (fr_start f) <= tk_wall t < ar_wall x) /\
      forall j, (exists f x, fs_heap fs' !! j = Some f /\ fr_end f = Some x /\ ar_wall (fr_start f) <= tk_wall t < ar_wall x) -> j = i.
  Proof.
    intros w1 w ts Hn He Hf Hok Hcl Hmx Hu Hq Hz Hf'. apply Forall_app in Hn as [Hn1 Hn2].
    destruct (chart_history pr l1 l2 eid e fid fs Hn1 Hn2 He Hf Hok (charts_frames _ _ _ Hcl)) as (fs2 & F1 & F2 & F3). fold w1 w in F1, F2, F3. fold ts in F2, F3.
    assert (fs2 = fs') as ->.
    { rewrite program_split in Hf'. fold w1 in Hf'. fold w in Hf'. congruence. }
    apply epic_is_run in F2. repeat apply conj.
    - intros i f Hi. eapply frames_boundaries; eauto.
    - intros i f g Hi Hg. eapply frames_contiguous; eauto.
    - intros Hc i f Hi. eapply frame_covers; eauto.
    - intros t Ht. eapply tick_in_one_frame; eauto.
  Qed.
  Lemma program_periods pr l1 l2 eid e fid fs fs' : let w1 := run pr empty_world l1 in let w := fst (step pr w1 (OAddFrameSet eid fid)) in 
    Forall (not_attaching fid) (l1 ++ l2) -> w_epics w1 !! eid = Some e -> w_fsets w1 !! fid = Some fs -> snd (step pr w1 (OAddFrameSet eid fid)) = Ok () -> charts_fine pr w l2 ->
    1 <= fs_max fs -> fs_unit fs <> TICK -> 0 < fs_q fs -> no_skip (ep_tz e) -> w_fsets (run pr empty_world (l1 ++ OAddFrameSet eid fid :: l2)) !! fid = Some fs' ->
    (forall i f, fs_heap fs' !! i = Some f -> exists x, fr_end f = Some x /\ boundary (fs_unit fs) (fs_q fs) (ar_wall (fr_start f)) /\
       next_boundary (fs_unit fs) (fs_q fs) (ar_wall (fr_start f)) (ar_wall x) /\ ar_tz (fr_start f) = ep_tz e /\ ar_tz x = ep_tz e) /\
    forall i f g, fs_heap fs' !! i = Some f -> fs_heap fs' !! (S i) = Some g -> fr_end f = Some (fr_start g).
  Proof.
    intros w1 w Hn He Hf Hok Hcl Hmx Hu Hq Hz Hf'. destruct (program_charts pr l1 l2 eid e fid fs fs' Hn He Hf Hok Hcl Hmx Hu Hq Hz Hf') as (A & B & _). split; [exact A|exact B].
  Qed.
  Lemma program_content pr l1 l2 eid e fid fs fs' : let w1 := run pr empty_world l1 in let w := fst (step pr w1 (OAddFrameSet eid fid)) in let ts := accepted pr w l2 eid in
    Forall (not_attaching fid) (l1 ++ l2) -> w_epics w1 !! eid = Some e -> w_fsets w1 !! fid = Some fs -> snd (step pr w1 (OAddFrameSet eid fid)) = Ok () -> charts_fine pr w l2 ->
    1 <= fs_max fs -> fs_unit fs <> TICK -> 0 < fs_q fs -> no_skip (ep_tz e) -> w_fsets (run pr empty_world (l1 ++ OAddFrameSet eid fid :: l2)) !! fid = Some fs' ->
    (comparable ts -> forall i f, fs_heap fs' !! i = Some f -> exists x, fr_end f = Some x /\ covers ts (ar_wall (fr_start f)) (ar_wall x) f) /\
    forall t, t ∈ ts -> exists i, (exists f x, fs_heap fs' !! i = Some f /\ fr_end f = Some x /\ ar_wall (fr_start f) <= tk_wall t < ar_wall x) /\
      forall j, (exists f x, fs_heap fs' !! j = Some f /\ fr_end f = Some x /\ ar_wall (fr_start f) <= tk_wall t < ar_wall x) -> j = i.
  Proof.
    intros w1 w ts Hn He Hf Hok Hcl Hmx Hu Hq Hz Hf'. destruct (program_charts pr l1 l2 eid e fid fs fs' Hn He Hf Hok Hcl Hmx Hu Hq Hz Hf') as (_ & _ & A & B). split; [exact A|exact B].
  Qed.
  Lemma program_tick_charts pr l1 l2 eid e fid fs fs' : let w1 := run pr empty_world l1 in let w := fst (step pr w1 (OAddFrameSet eid fid)) in let ts := accepted pr w l2 eid in
    Forall (not_attaching fid) (l1 ++ l2) -> w_epics w1 !! eid = Some e -> w_fsets w1 !! fid = Some fs -> snd (step pr w1 (OAddFrameSet eid fid)) = Ok () -> charts_fine pr w l2 ->
    1 <= fs_max fs -> fs_unit fs = TICK -> 1 <= fs_q fs -> comparable ts -> w_fsets (run pr empty_world (l1 ++ OAddFrameSet eid fid :: l2)) !! fid = Some fs' ->
    Z.of_nat (length ts) <= Z.of_nat (length (fs_heap fs')) * fs_q fs /\
    (fs_heap fs' <> [] -> (Z.of_nat (length (fs_heap fs')) - 1) * fs_q fs < Z.of_nat (length ts)) /\
    forall i f, fs_heap fs' !! i = Some f -> summary (take (Z.to_nat (fs_q fs)) (drop (i * Z.to_nat (fs_q fs)) ts)) f.
  Proof.
    intros w1 w ts Hn He Hf Hok Hcl Hmx Hu Hq Hc Hf'. apply Forall_app in Hn as [Hn1 Hn2].
    destruct (chart_history pr l1 l2 eid e fid fs Hn1 Hn2 He Hf Hok (charts_frames _ _ _ Hcl)) as (fs2 & F1 & F2 & F3). fold w1 w in F1, F2, F3. fold ts in F2, F3.
    assert (fs2 = fs') as ->.
    { rewrite program_split in Hf'. fold w1 in Hf'. fold w in Hf'. congruence. }
    rewrite Hu in F2. exact (tick_frames _ _ _ _ Hmx Hq Hc F2).
  Qed.

  (** Memory: whatever raises. *)
  Lemma program_reach pr l fid fs : w_fsets (run pr empty_world l) !! fid = Some fs -> fs_reach (fs_max fs) fs.
  Proof.
    intros Hf. destruct (run_hist pr l fid fs (fun _ => True) (fun _ _ => True)) as (u & ref & fs0 & _ & E & Hh); auto. eapply reach_hist; [|exact Hh]. econstructor. exact E.
  Qed.
  Lemma program_memory pr l fid fs : w_fsets (run pr empty_world l) !! fid = Some fs -> 1 <= fs_max fs ->
    let n := length (fs_heap fs) in let m := Nat.min n (Z.to_nat (fs_max fs)) in
    fs_frames fs = seq (n - m) m /\
    (forall id, id ∈ fs_frames fs -> exists f, fs_heap fs !! id = Some f) /\
    (forall i id f, fs_frames fs !! i = Some id -> fs_heap fs !! id = Some f ->
       fr_prev f = (match i with O => None | S j => fs_frames fs !! j end) /\ fr_next f = fs_frames fs !! (S i) /\ (frame_closed f = false <-> fs_current_id fs = Some id)) /\
    forall id, reachable fs id -> id ∈ fs_frames fs.
  Proof.
    intros Hf Hmx n m. pose proof (program_reach pr l fid fs Hf) as Hr. split; [exact (proj1 (mem_recent _ _ Hmx Hr))|]. split; [intros id; now apply (mem_valid (fs_max fs))|].
    split; [|intros id; now apply (mem_reachable (fs_max fs))].
    intros i id f Hi Hid. destruct (mem_links _ _ i id f Hmx Hr Hi Hid) as (A & B). split; [exact A|]. split; [exact B|]. exact (mem_closed _ _ i id f Hmx Hr Hi Hid).
  Qed.
  Lemma program_navigation pr l fid fs ref k f : w_fsets (run pr empty_world l) !! fid = Some fs -> 1 <= fs_max fs -> fs_heap fs !! k = Some f ->
    iv_next (fs_heap fs) f ref = Ok (if (k <? oldest fs)%nat then None else option_map (pair (S k)) (value_at fs ref (S k))) /\
    exists r, previous (fs_heap fs) f ref = Ok r /\ previous_value fs ref k r.
  Proof. intros Hf Hmx Hk. pose proof (program_reach pr l fid fs Hf) as Hr. split; [eapply nav_next; eauto|eapply nav_previous; eauto]. Qed.
End proofs.
