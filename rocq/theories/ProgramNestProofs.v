(** The charts of whole programs: zones with clock changes, nested timeframes, memory (C33, C34, C37, C53, C54). *)
From Verif Require Export SpecProgram ProgramChartProofs NestSkipProofs FrameSkipProofs NestProofs.
Open Scope Z_scope.

Section proofs.
  Context {F : Type} `{Num F}.

  Lemma step_tz pr (w : world F) o eid e : w_epics w !! eid = Some e -> exists e', w_epics (fst (step pr w o)) !! eid = Some e' /\ ep_tz e' = ep_tz e.
  Proof. intros He. destruct (step_epic pr w o eid e He) as (e' & E1 & (_ & K & _) & _). eauto. Qed.
  Lemma accepted_kept z pr l : forall (w : world F) eid e, instants_exist z -> w_epics w !! eid = Some e -> ep_tz e = z -> Forall (fun t => kept z (tk_wall t)) (accepted pr w l eid).
  Proof.
    induction l as [|o l IH]; intros w eid e Hz He Htz; simpl; [constructor|]. apply Forall_app. split.
    - unfold accepts. destruct o as [| | | | | | |a tk|]; try constructor. destruct (decide (a = eid)); [|constructor]. rewrite He. destruct (decide _); repeat constructor. rewrite Htz. apply Hz.
    - destruct (step_tz pr w o eid e He) as (e' & He' & E). apply (IH _ eid e'); [auto|exact He'|congruence].
  Qed.
  Lemma charted_run pr l fid eid z u q mx ts (fs : fset F) : charted pr l fid eid z u q mx ts fs -> fs_run_epic u q mx ts fs /\ in_order z ts /\ (instants_exist z -> in_order_kept z ts).
  Proof.
    intros [l1 l2 e fs0 w1 w -> Hn He Ez Hf <- <- <- Hok Hcl -> Hfin]. apply Forall_app in Hn as [Hn1 Hn2].
    destruct (chart_history pr l1 l2 eid e fid fs0 Hn1 Hn2 He Hf Hok (charts_frames _ _ _ Hcl)) as (fs2 & F1 & F2 & F3). fold w1 w in F1, F2, F3.
    rewrite program_split in Hfin. fold w1 in Hfin. fold w in Hfin. assert (fs2 = fs) as -> by congruence. rewrite Ez in F3. split; [auto|]. split; [auto|].
    intros Hz. split; [auto|]. destruct (step_tz pr w1 (OAddFrameSet eid fid) eid e He) as (e' & He' & E). eapply accepted_kept; [auto|exact He'|congruence].
  Qed.
  Lemma charted_periods pr l fid eid z u q mx ts (fs : fset F) : charted pr l fid eid z u q mx ts fs -> 1 <= mx -> u <> TICK -> 0 < q -> instants_exist z -> aligned z u q ->
    (forall i f, fs_heap fs !! i = Some f -> exists x, fr_end f = Some x /\ boundary u q (ar_wall (fr_start f)) /\ kept z (ar_wall (fr_start f)) /\
       next_kept z u q (ar_wall (fr_start f)) (ar_wall x) /\ ar_tz (fr_start f) = z /\ ar_tz x = z) /\
    forall i f g, fs_heap fs !! i = Some f -> fs_heap fs !! (S i) = Some g -> fr_end f = Some (fr_start g).
  Proof.
    intros Hc Hmx Hu Hq Hz Ha. apply charted_run in Hc as (Hr & _ & Ho). apply epic_is_run in Hr. specialize (Ho Hz).
    split; [intros i f Hi; eapply skip_periods; eauto|intros i f g Hi Hg; eapply skip_contiguous; eauto].
  Qed.
  Lemma charted_content pr l fid eid z u q mx ts (fs : fset F) : charted pr l fid eid z u q mx ts fs -> 1 <= mx -> u <> TICK -> 0 < q -> instants_exist z -> aligned z u q ->
    (comparable ts -> forall i f, fs_heap fs !! i = Some f -> exists x, fr_end f = Some x /\ covers ts (ar_wall (fr_start f)) (ar_wall x) f) /\
    forall t, t ∈ ts -> exists i, (exists f x, fs_heap fs !! i = Some f /\ fr_end f = Some x /\ ar_wall (fr_start f) <= tk_wall t < ar_wall x) /\
      forall j, (exists f x, fs_heap fs !! j = Some f /\ fr_end f = Some x /\ ar_wall (fr_start f) <= tk_wall t < ar_wall x) -> j = i.
  Proof.
    intros Hc Hmx Hu Hq Hz Ha. apply charted_run in Hc as (Hr & _ & Ho). apply epic_is_run in Hr. specialize (Ho Hz).
    split; [intros Hcmp i f Hi; eapply skip_covers; eauto|intros t Ht; eapply skip_one_frame; eauto].
  Qed.
  Lemma charted_nested pr pr' l l' fid fid' eid eid' z u q mx u' q' mx' ts (fs fs' : fset F) i f e t :
    charted pr l fid eid z u q mx ts fs -> charted pr' l' fid' eid' z u' q' mx' ts fs' ->
    1 <= mx -> 1 <= mx' -> u <> TICK -> u' <> TICK -> 0 < q -> 0 < q' -> instants_exist z -> aligned z u q -> aligned z u' q' -> comparable ts -> refines u q u' q' ->
    fs_heap fs' !! i = Some f -> fr_end f = Some e -> t ∈ ts -> ar_wall (fr_start f) <= tk_wall t < ar_wall e ->
    merges (parts ts (ar_wall (fr_start f)) (ar_wall e) (fs_heap fs)) f.
  Proof.
    intros Hc Hc' Hmx Hmx' Hu Hu' Hq Hq' Hz Ha Ha' Hcmp Hrf Hi Hend Ht Hin. apply charted_run in Hc as (Hr & _ & Ho). apply charted_run in Hc' as (Hr' & _ & _). apply epic_is_run in Hr, Hr'.
    eapply (skip_nested u q mx u' q' mx' z ts fs fs' i f e t); eauto.
  Qed.
  Lemma charted_memory pr pr' l l' fid fid' eid eid' z z' u q mx mx' ts (fs fs' : fset F) :
    charted pr l fid eid z u q mx ts fs -> charted pr' l' fid' eid' z' u q mx' ts fs' -> 1 <= mx -> 1 <= mx' -> map content (fs_heap fs) = map content (fs_heap fs').
  Proof.
    intros Hc Hc' Hmx Hmx'. apply charted_run in Hc as (Hr & _ & _). apply charted_run in Hc' as (Hr' & _ & _). destruct (decide (u = TICK)) as [->|Hu].
    - eapply memory_tick; [| |exact Hr|exact Hr']; auto.
    - apply epic_is_run in Hr, Hr'. eapply memory_timed; [| | |exact Hr|exact Hr']; auto.
  Qed.
  Lemma run_last u q mx l (fs : fset F) : fs_run u q mx l fs -> forall ts tk, l = ts ++ [tk] -> exists fs0 fuel mo lst fs1, fs_run u q mx ts fs0 /\
    fs_on_new_tick fuel fs0 tk mo lst = (fs1, Ok ()) /\ fs_heap fs1 = fs_heap fs.
  Proof.
    induction 1 as [ref fs E|l fs i Hr IH|l fs e Hr IH|l fs fuel tk0 mo lst fs' Hr IH E]; intros ts tk El.
    - destruct ts; discriminate.
    - destruct (IH ts tk El) as (fs0 & fuel & mo & lst & fs1 & A & B & C). exists fs0, fuel, mo, lst, fs1. split; [auto|]. split; [auto|]. rewrite C. unfold add_indicator. now destruct (in_kind i).
    - destruct (IH ts tk El) as (fs0 & fuel & mo & lst & fs1 & A & B & C). exists fs0, fuel, mo, lst, fs1. auto.
    - apply app_inj_tail in El as [-> ->]. exists fs, fuel, mo, lst, fs'. auto.
  Qed.
  Lemma charted_per_period pr pr' l l' fid fid' eid eid' z u q mx mx' ts (fs fs' : fset F) t0 t bl :
    charted pr l fid eid z u q mx ts fs -> charted pr' l' fid' eid' z u q mx' (ts ++ [t]) fs' -> 1 <= mx -> 1 <= mx' -> u <> TICK -> 0 < q -> instants_exist z -> aligned z u q ->
    last ts = Some t0 -> elapsed_kept z u q (tk_wall t0) (tk_wall t) bl -> length (fs_heap fs') = (length (fs_heap fs) + length bl)%nat.
  Proof.
    intros Hc Hc' Hmx Hmx' Hu Hq Hz Ha Hl Hel. apply charted_run in Hc as (Hr & _ & _). apply charted_run in Hc' as (Hr' & _ & Ho'). apply epic_is_run in Hr, Hr'.
    destruct (run_last _ _ _ _ _ Hr' ts t eq_refl) as (fs0 & fuel & mo & lst & fs1 & A & B & C).
    assert (length (fs_heap fs) = length (fs_heap fs0)) as ->.
    { rewrite <- (map_length content (fs_heap fs)), <- (map_length content (fs_heap fs0)). f_equal. eapply memory_timed; [| | |exact Hr|exact A]; auto. }
    rewrite <- C. eapply skip_per_period; eauto.
  Qed.
End proofs.
