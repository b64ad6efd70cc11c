(** Indicators of whole programs, from the empty state (C44, C62). *)
From Verif Require Export SpecTold ProgramChartProofs ProgramLogProofs LogProofs.
Open Scope Z_scope.

Section proofs.
  Context {F : Type} `{Num F}.
  Implicit Types (w : world F).

  Lemma step_waiting pr w (o : op F) fid (I : indicator F -> Prop) base fs : not_attaching fid o -> (forall j, o = OAddIndicator fid j -> I j) -> unattached fid w ->
    w_fsets w !! fid = Some fs -> fs_log I any_step base [] [] fs ->
    unattached fid (fst (step pr w o)) /\ exists fs', w_fsets (fst (step pr w o)) !! fid = Some fs' /\ fs_log I any_step base [] [] fs'.
  Proof.
    intros Hna Hi Hu Hf Hlog. split.
    - intros a b' k Hb Hk. destruct (step_attached_back pr w o fid a b' k Hna Hb Hk) as (b & Hb0 & Hk0). exact (Hu a b k Hb0 Hk0).
    - assert (exists fs', w_fsets w !! fid = Some fs' /\ fs_log I any_step base [] [] fs') as Same by eauto.
      destruct o as [k0|ref|u q ref m|ref tz op cl ds hs p|a0 f|a0 s|f j|a0 tk|c]; cbn [step fst].
      + exact Same.
      + exact Same.
      + destruct (fset_init u q ref m) as [fs0|x] eqn:E; [|exact Same]. exists fs. cbn [fst w_fsets upd_fsets]. split; [now apply lookup_app_l_Some|auto].
      + unfold new_epic. destruct tz as [z|]; [|exact Same]. destruct (valid_id _ _); [|exact Same]. destruct p; exact Same.
      + simpl in Hna. unfold add_frame_set. destruct (w_epics w !! a0); [|exact Same]. destruct (w_fsets w !! f); [|exact Same]. destruct (dict_get _ _); [exact Same|].
        cbn [fst w_fsets upd_fsets upd_epics]. rewrite list_lookup_insert_ne by auto. exact Same.
      + unfold add_strategy. destruct (w_epics w !! a0); [|exact Same]. destruct (w_strats w !! s); [|exact Same]. destruct (dict_get _ _); exact Same.
      + destruct (w_fsets w !! f) as [ff|] eqn:Ef; [|exact Same]. destruct (decide (f = fid)) as [->|Hne].
        * assert (ff = fs) as -> by congruence. pose proof (log_indicator I any_step base [] [] fs j Hlog (Hi j eq_refl)) as Hj. destruct (add_indicator fs j) as [fs' r] eqn:Ei. cbn [fst w_fsets upd_fsets].
          exists fs'. split; [apply list_lookup_insert; eapply lookup_lt_Some; eauto|exact Hj].
        * destruct (add_indicator ff j) as [ff' r]. cbn [fst w_fsets upd_fsets]. rewrite list_lookup_insert_ne by auto. exact Same.
      + destruct (w_epics w !! a0) as [ea|] eqn:Ea; [|unfold epic_on_new_tick; rewrite Ea; exact Same]. rewrite (tick_other_fset pr w a0 ea tk fid Ea); [exact Same|]. intros k. eapply Hu; eauto.
      + pose proof (cmd_rest w c) as E. injection E as _ E _. rewrite E. exact Same.
  Qed.
  Lemma run_waiting pr l (I : indicator F -> Prop) base fid : forall w fs, Forall (not_attaching fid) l -> (forall j, OAddIndicator fid j ∈ l -> I j) -> unattached fid w ->
    w_fsets w !! fid = Some fs -> fs_log I any_step base [] [] fs ->
    unattached fid (run pr w l) /\ exists fs', w_fsets (run pr w l) !! fid = Some fs' /\ fs_log I any_step base [] [] fs'.
  Proof.
    induction l as [|o l IH]; intros w fs Hl Hi Hu Hf Hlog; [split; [auto|]; exists fs; auto|]. apply Forall_cons in Hl as [Ho Hl].
    destruct (step_waiting pr w o fid I base fs Ho) as (Hu1 & fs1 & Hf1 & Hl1); auto; [intros j ->; apply Hi; left|].
    apply (IH _ fs1); auto. intros j Hj. apply Hi. now right.
  Qed.

  Lemma log_run u q ref mx i G fs0 l rs fs : fset_init u q ref mx = Ok fs0 -> fs_log (only i) G (fst (add_indicator fs0 i)) l rs fs -> fs_run u q mx (map fst rs) fs.
  Proof.
    intros E0 Hh. induction Hh as [|l rs fs j Hh IH Ho|l rs fs e Hh IH|l rs fs fuel tk mo lst fs' Hh IH E HG].
    - apply run_indicator. eapply run_init; eauto.
    - now apply run_indicator.
    - now apply run_epic.
    - rewrite map_app. eapply run_tick; eauto.
  Qed.
  Definition made u q ref mx fid (i : indicator F) : list (op F) := [ONewFrameSet u q ref mx; OAddIndicator fid i].
  Lemma program_log pr la lb l2 eid e fid u q ref mx i fs0 : let w1 := run pr empty_world (la ++ ONewFrameSet u q ref mx :: OAddIndicator fid i :: lb) in
    let w := fst (step pr w1 (OAddFrameSet eid fid)) in
    fid = length (w_fsets (run pr empty_world la)) -> Forall (not_attaching fid) (la ++ lb ++ l2) -> (forall j, OAddIndicator fid j ∈ lb ++ l2 -> only i j) ->
    fset_init u q ref mx = Ok fs0 -> w_epics w1 !! eid = Some e -> snd (step pr w1 (OAddFrameSet eid fid)) = Ok () -> frames_fine pr w l2 ->
    (exists fsx, w_fsets w1 !! fid = Some fsx /\ fs_log (only i) any_step (fst (add_indicator fs0 i)) [] [] fsx) /\
    exists fs' lg rs, w_fsets (run pr w l2) !! fid = Some fs' /\ fs_log (only i) any_step (fst (add_indicator fs0 i)) lg rs fs' /\
      map fst rs = accepted pr w l2 eid /\ Forall (fun x => snd x = true <-> market_hours e (ar_wall (tk_dt (fst x)))) rs.
  Proof.
    intros w1 w Efid Hn Hi E0 He Hok Hcl. apply Forall_app in Hn as [Hna Hn]. apply Forall_app in Hn as [Hnb Hn2].
    set (wa := run pr empty_world la) in *.
    destruct (run_unfed pr la empty_world fid Hna) as (Hua & _); [intros a b k Hb; discriminate Hb|intros x Hx; discriminate Hx|]. fold wa in Hua.
    set (wb := fst (step pr (fst (step pr wa (ONewFrameSet u q ref mx))) (OAddIndicator fid i))) in *.
    assert (w1 = run pr wb lb) as Ew1.
    { unfold w1, wb, wa. rewrite program_split. reflexivity. }
    assert (w_fsets (fst (step pr wa (ONewFrameSet u q ref mx))) !! fid = Some fs0) as Hfa.
    { cbn [step]. rewrite E0. cbn [fst w_fsets upd_fsets]. rewrite Efid. now apply list_lookup_middle. }
    assert (unattached fid wb) as Hub.
    { destruct (run_unfed pr (la ++ made u q ref mx fid i) empty_world fid) as (X & _); [apply Forall_app; split; [auto|repeat constructor]|intros a b k Hb; discriminate Hb|intros x Hx; discriminate Hx|].
      unfold made in X. rewrite program_split in X. exact X. }
    assert (w_fsets wb !! fid = Some (fst (add_indicator fs0 i))) as Hfb.
    { unfold wb. set (wn := fst (step pr wa (ONewFrameSet u q ref mx))) in *. cbn [step]. rewrite Hfa. destruct (add_indicator fs0 i) as [fs1 r]. cbn [fst w_fsets upd_fsets]. apply list_lookup_insert. eapply lookup_lt_Some; eauto. }
    destruct (run_waiting pr lb (only i) (fst (add_indicator fs0 i)) fid wb (fst (add_indicator fs0 i)) Hnb) as (Hu & fs & Hf & Hlog); [intros j Hj; apply Hi, elem_of_app; auto|auto|exact Hfb|apply log_start|].
    rewrite <- Ew1 in Hu, Hf. split; [eauto|].
    assert (exists e', w_epics w !! eid = Some e' /\ (forall x, market_hours e' x <-> market_hours e x) /\ attached_only w fid eid /\ w_fsets w !! fid = Some (fs_set_epic fs (Some eid))) as (e' & He' & Emh & Hat & Hf').
    { subst w. revert Hok. cbn [step]. unfold add_frame_set. rewrite He, Hf. destruct (dict_get (ep_fsets e) (fs_ref fs)) eqn:Eg; [discriminate|]. intros _. cbn [fst w_epics w_fsets upd_epics upd_fsets].
      eexists. split; [apply list_lookup_insert; eapply lookup_lt_Some; eauto|]. split; [intros x; reflexivity|].
      assert (<[fid:=fs_set_epic fs (Some eid)]> (w_fsets w1) !! fid = Some (fs_set_epic fs (Some eid))) as Hl by (apply list_lookup_insert; eapply lookup_lt_Some; eauto).
      split; [|exact Hl]. split; [|split].
      - eexists _, (fs_ref fs). cbn [w_epics upd_epics]. split; [apply list_lookup_insert; eapply lookup_lt_Some; eauto|]. cbn [ep_fsets ep_set_fsets].
        apply dict_get_elem. rewrite dict_get_set, String.eqb_refl. reflexivity.
      - eexists. cbn [w_fsets upd_epics upd_fsets]. split; [exact Hl|reflexivity].
      - intros a b k Hb Hk. cbn [w_epics upd_epics upd_fsets] in Hb. destruct (decide (a = eid)) as [|Hne]; [auto|]. rewrite list_lookup_insert_ne in Hb by auto. elim (Hu a b k Hb Hk). }
    assert (reach (fun _ : cmd F => True) w) as Hr by (subst w; apply step_reach; [intros sid cb x w0; apply any_script_ok|exact Logic.I|apply any_run_reach]).
    destruct (run_log_fine (fun _ => True) pr l2 w eid e' fid (fs_set_epic fs (Some eid)) (only i) (fst (add_indicator fs0 i)) [] [] Hr) as (fs' & lg & rs & F1 & F2 & F3 & F4); auto.
    - intros sid cb x w0. apply any_script_ok.
    - apply any_ops_ok.
    - intros j Hj. apply Hi, elem_of_app. auto.
    - apply log_epic. exact Hlog.
    - exists fs', lg, rs. split; [auto|]. split; [exact F2|]. split; [auto|]. eapply Forall_impl; [exact F4|]. intros x Hx. now rewrite <- Emh.
  Qed.

  Lemma listening_log pr l i e mx ts fs0 fs : listening pr l i e mx ts fs0 fs -> (exists u q ref, fset_init u q ref mx = Ok fs0) /\
    exists lg rs, fs_log (only i) any_step (fst (add_indicator fs0 i)) lg rs fs /\ map fst rs = ts /\ Forall (fun x => snd x = true <-> market_hours e (ar_wall (tk_dt (fst x)))) rs.
  Proof.
    intros [la lb l2 eid fid u q ref made' w1 w -> Efid E0 Hn Hi He Hok Hcl -> Hfin]. split; [eauto|].
    destruct (program_log pr la lb l2 eid e fid u q ref mx i fs0 Efid Hn Hi E0 He Hok (charts_frames _ _ _ Hcl)) as (_ & fs' & lg & rs & F1 & F2 & F3 & F4).
    rewrite program_split in Hfin. change (w_fsets (run pr w l2) !! fid = Some fs) in Hfin. change (w_fsets (run pr w l2) !! fid = Some fs') in F1. assert (fs' = fs) as -> by congruence. eauto.
  Qed.
  Lemma listening_epic pr l i e mx ts fs0 fs : listening pr l i e mx ts fs0 fs -> 1 <= mx -> fs_run_epic (fs_unit fs0) (fs_q fs0) mx ts fs.
  Proof.
    intros [la lb l2 eid fid u q ref made' w1 w -> Efid E0 Hn Hi He Hok Hcl -> Hfin] Hmx.
    destruct (program_log pr la lb l2 eid e fid u q ref mx i fs0 Efid Hn Hi E0 He Hok (charts_frames _ _ _ Hcl)) as ((fsx & X1 & X2) & _). fold made' in X1. fold w1 in X1.
    assert (fs_unit fsx = fs_unit fs0 /\ fs_q fsx = fs_q fs0 /\ fs_max fsx = mx) as (Eu & Eq & Em).
    { destruct (fset_init_wf _ _ _ _ _ E0) as (_ & _ & Eu0 & Eq0 & _). rewrite Eu0, Eq0. pose proof (log_run _ _ _ _ _ _ _ _ _ _ E0 X2) as Hr. destruct (fs_run_wf _ _ _ _ _ Hmx Hr) as (_ & A & B & C & _). auto. }
    assert (Forall (not_attaching fid) made' /\ Forall (not_attaching fid) l2) as [Hn1 Hn2].
    { apply Forall_app in Hn as [Hna Hn]. apply Forall_app in Hn as [Hnb Hn2]. split; [|auto]. subst made'. apply Forall_app. split; [auto|]. repeat (constructor; [exact Logic.I|]). exact Hnb. }
    destruct (chart_history pr made' l2 eid e fid fsx Hn1 Hn2 He X1 Hok (charts_frames _ _ _ Hcl)) as (fs2 & F1 & F2 & _). fold w1 in F1, F2. fold w in F1, F2.
    rewrite program_split in Hfin. fold w1 in Hfin. fold w in Hfin. assert (fs2 = fs) as -> by congruence. rewrite Eu, Eq, Em in F2. exact F2.
  Qed.
  Lemma listening_hears pr l i e mx ts fs0 fs : listening pr l i e mx ts fs0 fs -> 1 <= mx -> comparable ts ->
    exists lg rs, fs_log (only i) any_step (fst (add_indicator fs0 i)) lg rs fs /\ map fst rs = ts /\ Forall (fun x => snd x = true <-> market_hours e (ar_wall (tk_dt (fst x)))) rs /\
      length lg = length (fs_heap fs) /\
      forall k b f, lg !! k = Some b -> fs_heap fs !! k = Some f -> last (map fst b) = Some (fr_last f) /\ hears i b (value_at fs (in_ref i) k).
  Proof.
    intros Hl Hmx Hc. apply listening_log in Hl as ((u & q & ref & E0) & lg & rs & L1 & L2 & L3). exists lg, rs. split; [auto|]. split; [auto|]. split; [auto|].
    eapply log_hears; [exact Hmx|exact E0|exact L1|now rewrite L2].
  Qed.
  Lemma listening_told pr l i e mx ts fs0 fs mk tl : listening pr l i e mx ts fs0 fs -> 1 <= mx -> in_kind i = KCustom mk tl ->
    exists lg rs, fs_log (only i) any_step (fst (add_indicator fs0 i)) lg rs fs /\ map fst rs = ts /\ Forall (fun x => snd x = true <-> market_hours e (ar_wall (tk_dt (fst x)))) rs /\
      forall k b, lg !! k = Some b -> exists past, earlier lg fs (in_ref i) k past /\ tells i mk tl past b (value_at fs (in_ref i) k).
  Proof.
    intros Hl Hmx Hk. apply listening_log in Hl as ((u & q & ref & E0) & lg & rs & L1 & L2 & L3). exists lg, rs. split; [auto|]. split; [auto|]. split; [auto|].
    intros k b Hb. eapply log_tells; eauto.
  Qed.
End proofs.
