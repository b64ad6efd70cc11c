(** The statements of PropFrames.v, from the invariants. *)
From Verif Require Export NumQProofs.
From Verif Require Export FrameMoreProofs.
Open Scope Z_scope.

Section final.
  Context {F : Type} `{Num F}.
  Implicit Types fs : fset F.
  Implicit Types ts : list (tick F).

  (** ** C35 *)
  Lemma mem_recent mx fs : 1 <= mx -> fs_reach mx fs ->
    let n := length (fs_heap fs) in let m := Nat.min n (Z.to_nat mx) in
    fs_frames fs = seq (n - m) m /\ Z.of_nat (length (fs_frames fs)) <= mx.
  Proof.
    intros Hmx Hr. destruct (fs_reach_wf mx fs Hmx Hr) as [[[H1 H2 H3 H4] H5] E]. rewrite E in H5. cbv zeta.
    rewrite <- H5. split; auto. lia.
  Qed.
  Lemma mem_links mx fs i id f : 1 <= mx -> fs_reach mx fs -> fs_frames fs !! i = Some id -> fs_heap fs !! id = Some f ->
    fr_prev f = (match i with O => None | S j => fs_frames fs !! j end) /\ fr_next f = fs_frames fs !! (S i).
  Proof.
    intros Hmx Hr Hi Hf. destruct (fs_reach_wf mx fs Hmx Hr) as [[[H1 H2 H3 H4] H5] E].
    pose proof (lookup_lt_Some _ _ _ Hi) as Hlt. pose proof (lookup_lt_Some _ _ _ Hf) as Hlt'.
    assert (forall j, (j < length (fs_frames fs))%nat -> fs_frames fs !! j = Some (length (fs_heap fs) - length (fs_frames fs) + j)%nat) as Hj.
    { intros j Hj. rewrite H2 at 1. now apply lookup_seq. }
    rewrite Hj in Hi by auto. injection Hi as <-. destruct (H4 _ _ Hf ltac:(lia)) as [-> ->]. split.
    - destruct i as [|i]; [rewrite Nat.add_0_r, Nat.eqb_refl; auto|].
      rewrite (proj2 (Nat.eqb_neq _ _)) by lia. rewrite Hj by lia. f_equal. lia.
    - destruct (Nat.eq_dec (S i) (length (fs_frames fs))) as [En|En].
      + rewrite (proj2 (Nat.eqb_eq _ _)) by lia. symmetry. apply lookup_ge_None. lia.
      + rewrite (proj2 (Nat.eqb_neq _ _)) by lia. rewrite Hj by lia. f_equal. lia.
  Qed.
  Lemma mem_valid mx fs id : 1 <= mx -> fs_reach mx fs -> id ∈ fs_frames fs -> exists f, fs_heap fs !! id = Some f.
  Proof.
    intros Hmx Hr Hi. destruct (fs_reach_wf mx fs Hmx Hr) as [[[H1 H2 H3 H4] H5] E].
    rewrite H2 in Hi. apply elem_of_seq in Hi. apply lookup_lt_is_Some_2. lia.
  Qed.
  Lemma mem_closed mx fs i id f : 1 <= mx -> fs_reach mx fs -> fs_frames fs !! i = Some id -> fs_heap fs !! id = Some f ->
    (frame_closed f = false <-> fs_current_id fs = Some id).
  Proof.
    intros Hmx Hr Hi Hf. destruct (mem_links mx fs i id f Hmx Hr Hi Hf) as [_ Hn]. unfold frame_closed, fs_current_id.
    rewrite Hn, last_lookup. pose proof (lookup_lt_Some _ _ _ Hi) as Hlt.
    destruct (mem_recent mx fs Hmx Hr) as [Hs _]. cbv zeta in Hs.
    assert (NoDup (fs_frames fs)) as Hnd by (rewrite Hs; apply NoDup_seq).
    destruct (fs_frames fs !! S i) as [x|] eqn:Ex.
    - split; [discriminate|]. intros E. pose proof (lookup_lt_Some _ _ _ Ex).
      pose proof (NoDup_lookup _ _ _ _ Hnd Hi E). lia.
    - split; [|auto]. intros _. apply lookup_ge_None in Ex. rewrite <- Hi. f_equal. lia.
  Qed.
  Lemma mem_reachable mx fs id : 1 <= mx -> fs_reach mx fs -> reachable fs id -> id ∈ fs_frames fs.
  Proof.
    intros Hmx Hr Hc. induction Hc as [i Hi|i f p Hc IH Hf Hp|i f p Hc IH Hf Hp]; auto;
      apply elem_of_list_lookup in IH as [j Hj]; destruct (mem_links mx fs j i f Hmx Hr Hj Hf) as [E1 E2].
    - rewrite E1 in Hp. destruct j; [discriminate|]. eapply elem_of_list_lookup_2; eauto.
    - rewrite E2 in Hp. eapply elem_of_list_lookup_2; eauto.
  Qed.

  (** ** C32 *)
  Lemma unit_ok_run u q mx ts fs : 1 <= mx -> 0 < q -> fs_run u q mx ts fs -> unit_ok u q.
  Proof. intros Hmx Hq Hr. apply fs_run_wf in Hr as (_ & _ & _ & _ & E); auto. now apply check_unit_spec in E. Qed.
  Lemma run_good u q mx ts fs : 1 <= mx -> u <> TICK -> 0 < q -> fs_run u q mx ts fs -> good u q.
  Proof. intros. apply mk_good; auto. eapply unit_ok_run; eauto. Qed.
  Lemma current_holds_last u q mx z ts fs t : 1 <= mx -> u <> TICK -> 0 < q -> resolves_forward z ->
    fs_run u q mx ts fs -> in_order z ts -> last ts = Some t ->
    exists cur e, fs_current fs = Some cur /\ fr_end cur = Some e /\ fr_last cur = t /\
      ar_wall (fr_start cur) <= ar_wall (tk_dt t) < ar_wall e.
  Proof.
    intros Hmx Hu Hq Hz Hr Ho Ht.
    destruct (cur_ok_run u q mx z ts fs) as (b & e & t' & H1 & H2 & H3 & H4 & H5 & H6 & H7); auto; [intros ->; discriminate|].
    assert (t' = t) as -> by congruence. apply fs_run_wf in Hr as (W1 & W2 & _); auto.
    rewrite current_bar in H1 by (auto; lia). destruct (fs_current fs) as [cur|]; [|discriminate]. injection H1 as <-.
    exists cur, e. auto.
  Qed.

  (** ** C33, C34 *)
  Lemma heap_bar fs i f : fs_heap fs !! i = Some f -> bars fs !! i = Some (bar_of f).
  Proof. intros Hf. unfold bars. now rewrite list_lookup_fmap, Hf. Qed.
  Lemma run_nil u q mx fs : 1 <= mx -> u <> TICK -> fs_run u q mx [] fs -> fs_heap fs = [].
  Proof.
    intros Hmx Hu Hr. apply fs_run_bars in Hr as [[_ E]|(? & ? & ? & E & _)]; auto; [|destruct x; discriminate].
    unfold bars in E. now apply fmap_nil_inv in E.
  Qed.
  Lemma frames_contiguous u q mx z ts fs i f g : 1 <= mx -> u <> TICK -> 0 < q -> no_skip z ->
    fs_run u q mx ts fs -> in_order z ts -> fs_heap fs !! i = Some f -> fs_heap fs !! (S i) = Some g ->
    fr_end f = Some (fr_start g).
  Proof.
    intros Hmx Hu Hq Hz Hr Ho Hf Hg. pose proof (run_good _ _ _ _ _ Hmx Hu Hq Hr) as Hgd.
    destruct (decide (ts = [])) as [->|Hne]; [rewrite (run_nil _ _ _ _ Hmx Hu Hr) in Hf; discriminate|].
    destruct (BI_run z u q Hgd Hz mx ts fs Hmx Hr Ho Hne) as (k0 & [B1 _ _ _] & _).
    destruct (B1 _ _ (heap_bar _ _ _ Hf)) as (_ & E1 & _). destruct (B1 _ _ (heap_bar _ _ _ Hg)) as (E2 & _). simpl in *.
    rewrite E1, E2. do 3 f_equal. lia.
  Qed.
  Lemma frames_boundaries u q mx z ts fs i f : 1 <= mx -> u <> TICK -> 0 < q -> no_skip z ->
    fs_run u q mx ts fs -> in_order z ts -> fs_heap fs !! i = Some f ->
    exists e, fr_end f = Some e /\ boundary u q (ar_wall (fr_start f)) /\ next_boundary u q (ar_wall (fr_start f)) (ar_wall e) /\
      ar_tz (fr_start f) = z /\ ar_tz e = z.
  Proof.
    intros Hmx Hu Hq Hz Hr Ho Hf. pose proof (run_good _ _ _ _ _ Hmx Hu Hq Hr) as Hgd.
    destruct (decide (ts = [])) as [->|Hne]; [rewrite (run_nil _ _ _ _ Hmx Hu Hr) in Hf; discriminate|].
    destruct (BI_run z u q Hgd Hz mx ts fs Hmx Hr Ho Hne) as (k0 & [B1 _ _ _] & _).
    destruct (B1 _ _ (heap_bar _ _ _ Hf)) as (E2 & E1 & _). simpl in *. eexists. split; [exact E1|]. rewrite E2. simpl.
    split; [apply boundary_bnd; eauto|]. split; [|auto]. now apply next_boundary_bnd.
  Qed.
  Lemma tick_in_one_frame u q mx z ts fs t : 1 <= mx -> u <> TICK -> 0 < q -> no_skip z ->
    fs_run u q mx ts fs -> in_order z ts -> t ∈ ts ->
    exists i, (exists f e, fs_heap fs !! i = Some f /\ fr_end f = Some e /\ ar_wall (fr_start f) <= tk_wall t < ar_wall e) /\
      forall j, (exists f e, fs_heap fs !! j = Some f /\ fr_end f = Some e /\ ar_wall (fr_start f) <= tk_wall t < ar_wall e) -> j = i.
  Proof.
    intros Hmx Hu Hq Hz Hr Ho Ht. pose proof (run_good _ _ _ _ _ Hmx Hu Hq Hr) as Hgd.
    assert (ts <> []) as Hne by (intros ->; inversion Ht).
    destruct (BI_run z u q Hgd Hz mx ts fs Hmx Hr Ho Hne) as (k0 & [B1 B2 _ _] & _).
    destruct (start_bnd u q (tk_wall t) Hgd) as (k & _ & Hk). pose proof (B2 t Ht) as Hb.
    assert (length (bars fs) = length (fs_heap fs)) as L1 by (unfold bars; apply fmap_length).
    assert (k0 < k + 1) by (apply (bnd_inj_lt u q); auto; lia).
    assert (k < k0 + Z.of_nat (length (bars fs))) by (apply (bnd_inj_lt u q); auto; lia).
    assert (Z.to_nat (k - k0) < length (fs_heap fs))%nat as Hlt by lia.
    exists (Z.to_nat (k - k0)). split.
    - destruct (lookup_lt_is_Some_2 _ _ Hlt) as [f Hf]. destruct (B1 _ _ (heap_bar _ _ _ Hf)) as (E2 & E1 & _). simpl in *.
      exists f. eexists. split; [auto|]. split; [exact E1|]. rewrite E2. simpl.
      replace (k0 + Z.of_nat (Z.to_nat (k - k0))) with k by lia. lia.
    - intros j (f & e & Hf & He & Hw). destruct (B1 _ _ (heap_bar _ _ _ Hf)) as (E2 & E1 & _). simpl in *.
      rewrite E1 in He. injection He as <-. rewrite E2 in Hw. simpl in Hw.
      pose proof (bnd_index u q _ _ _ Hgd Hw Hk). lia.
  Qed.
  Lemma frame_covers u q mx z ts fs i f : 1 <= mx -> u <> TICK -> 0 < q -> no_skip z -> comparable ts ->
    fs_run u q mx ts fs -> in_order z ts -> fs_heap fs !! i = Some f ->
    exists e, fr_end f = Some e /\ covers ts (ar_wall (fr_start f)) (ar_wall e) f.
  Proof.
    intros Hmx Hu Hq Hz Hcmp Hr Ho Hf. pose proof (run_good _ _ _ _ _ Hmx Hu Hq Hr) as Hgd.
    destruct (decide (ts = [])) as [->|Hne]; [rewrite (run_nil _ _ _ _ Hmx Hu Hr) in Hf; discriminate|].
    destruct (BI_run z u q Hgd Hz mx ts fs Hmx Hr Ho Hne) as (k0 & [B1 _ _ _] & _).
    destruct (B1 _ _ (heap_bar _ _ _ Hf)) as (E2 & E1 & C1 & C2). simpl in *. eexists. split; [exact E1|]. rewrite E2. simpl. split.
    - intros Hn. destruct (C1 Hn) as (S1 & S2 & S3 & S4). simpl in *.
      destruct S4 as [S4 S5]; [eapply comparable_sub, Hcmp; intros x Hx; now apply elem_of_list_filter in Hx as [_ Hx]|].
      repeat split; auto.
    - intros Hn. destruct (C2 Hn) as (t & T1 & T2 & T3 & T4 & T5 & T6). exists t. split; [auto|]. repeat split; auto.
  Qed.

  (** ** C36 *)
  Lemma tick_frames q mx ts fs : 1 <= mx -> 1 <= q -> comparable ts -> fs_run_epic TICK q mx ts fs ->
    (Z.of_nat (length ts) <= Z.of_nat (length (fs_heap fs)) * q) /\
    (fs_heap fs <> [] -> (Z.of_nat (length (fs_heap fs)) - 1) * q < Z.of_nat (length ts)) /\
    forall i f, fs_heap fs !! i = Some f -> summary (take (Z.to_nat q) (drop (i * Z.to_nat q) ts)) f.
  Proof.
    intros Hmx Hq Hcmp Hr. destruct (bt_run q mx ts fs Hmx Hq Hr) as (_ & _ & _ & _ & [T1 T2 T3]).
    assert (length (bars fs) = length (fs_heap fs)) as L1 by (unfold bars; apply fmap_length). rewrite L1 in *.
    split; [nia|]. split.
    - intros Hne. assert (bars fs <> []) as Hb by (destruct (fs_heap fs); [congruence|intros E; rewrite E in L1; discriminate]).
      specialize (T3 Hb). assert (length (fs_heap fs) <> 0)%nat by (destruct (fs_heap fs); [congruence|discriminate]). nia.
    - intros i f Hf. destruct (T1 _ _ (heap_bar _ _ _ Hf)) as (S1 & S2 & S3 & S4). simpl in *.
      destruct S4 as [S4 S5]; [|repeat split; auto].
      eapply comparable_sub, Hcmp. intros x Hx. unfold chunk in Hx. rewrite <- (take_drop (i * Z.to_nat q) ts).
      apply elem_of_app. right. rewrite <- (take_drop (Z.to_nat q) (drop (i * Z.to_nat q) ts)). apply elem_of_app. now left.
  Qed.

  (** ** C37: an accepted negative quantity *)
  Lemma w_shift_back u q w w' : u = SECOND \/ u = MINUTE \/ u = HOUR \/ u = DAY \/ u = WEEK -> q < 0 ->
    w_shift u q w = Ok w' -> w' < w /\ WALL_MIN <= w'.
  Proof.
    intros Hu Hq. assert (forall d, d < 0 -> w_add w d = Ok w' -> w' < w /\ WALL_MIN <= w') as Hadd.
    { intros d Hd. unfold w_add. destruct (in_range _) eqn:Er; [|discriminate]. apply in_range_spec in Er. intros E. injection E as <-. lia. }
    destruct Hu as [->|[->|[->|[->| ->]]]]; simpl; apply Hadd; us; lia.
  Qed.
  Lemma w_shift_err u q w x : u = SECOND \/ u = MINUTE \/ u = HOUR \/ u = DAY \/ u = WEEK -> w_shift u q w = Err x -> x = OverflowError.
  Proof.
    intros Hu. assert (forall d, w_add w d = Err x -> x = OverflowError) as Hadd.
    { intros d. unfold w_add. destruct (in_range _); [discriminate|]. now intros [= <-]. }
    destruct Hu as [->|[->|[->|[->| ->]]]]; simpl; apply Hadd.
  Qed.
  Lemma negative_never u q z fs tk mo cur e start :
    u = SECOND \/ u = MINUTE \/ u = HOUR \/ u = DAY \/ u = WEEK -> q < 0 -> no_skip z -> wf fs -> 1 <= fs_max fs -> fs_unit fs = u -> fs_q fs = q ->
    fs_current fs = Some cur -> fr_end cur = Some e -> ar_tz e = z -> ar_tz start = z -> ar_wall e < ar_wall start ->
    arrow_ltb (tk_dt tk) e = false -> get_frame_start u q (tk_dt tk) = Ok start ->
    (forall fuel lst, snd (fs_on_new_tick fuel fs tk mo lst) <> Ok ()) /\
    (fs_inds fs = [] -> is_ok (get_frame_end u q start) = true ->
       exists fuel0, forall fuel lst, (fuel0 <= fuel)%positive -> snd (fs_on_new_tick fuel fs tk mo lst) = Err OverflowError).
  Proof.
    intros Hu Hq Hz Hwf Hmx Eu Eq Ec Ee Tz Ts Hlt Hov Es. assert (u <> TICK) as Hut by (intuition congruence).
    assert (forall fuel lst, fs_on_new_tick fuel fs tk mo lst = create_new_frame_timed fuel fs tk mo) as Hgo.
    { intros fuel lst. unfold fs_on_new_tick, is_frame_over_timed. rewrite Ec, Ee. unfold arrow_geb. rewrite Hov, Eu. destruct u; try reflexivity. congruence. }
    set (P := fun s : fset F => wf s /\ same_conf fs s /\ exists b e, last (bars s) = Some b /\ b_end b = Some e /\ ar_tz e = z /\ ar_wall e < ar_wall start).
    assert (P fs) as P0.
    { split; auto. split; [apply same_conf_refl|]. exists (bar_of cur), e. rewrite current_bar by auto. rewrite Ec. auto. }
    assert (forall s s', P s -> fill_step start mo s = inl s' -> P s' /\ exists b e b' e', last (bars s) = Some b /\ b_end b = Some e /\
       last (bars s') = Some b' /\ b_end b' = Some e' /\ ar_wall e' < ar_wall e /\ WALL_MIN <= ar_wall e') as Hstep.
    { intros s s' (S1 & S2 & b & e0 & S3 & S4 & S5 & S6) E. pose proof S2 as (_ & C1 & C2 & C3 & _).
      assert (1 <= fs_max s) as Hmx' by lia.
      pose proof (fill_step_bars start mo s Hmx' S1) as Hf. rewrite E in Hf. destruct Hf as (F1 & F2 & b1 & e1 & e1' & G1 & G2 & G3 & G4 & G5).
      assert (b1 = b) as -> by congruence. assert (e1 = e0) as -> by congruence.
      rewrite C1, C2, Eu, Eq in G4. apply get_frame_end_inv in G4 as (w & W1 & W2 & W3 & _); auto.
      rewrite S5, Hz in W2. apply w_shift_back in W1 as [W4 W5]; auto. split.
      - split; auto. split; [eauto using same_conf_trans|]. rewrite G5, last_snoc. eexists _, e1'. repeat split; try congruence. lia.
      - rewrite G5, last_snoc. eexists _, _, _, _. split; [exact S3|]. split; [exact S4|]. split; [reflexivity|]. split; [reflexivity|]. lia. }
    assert (forall s r, P s -> fill_step start mo s = inr r -> snd r <> Ok () /\ (fs_inds fs = [] -> snd r = Err OverflowError)) as Hstop.
    { intros s r (S1 & S2 & b & e0 & S3 & S4 & S5 & S6) E. pose proof S2 as (_ & C1 & C2 & C3 & _ & C4).
      assert (1 <= fs_max s) as Hmx' by lia. unfold fill_step in E. pose proof (current_bar s Hmx' S1) as Hcb. rewrite S3 in Hcb.
      destruct (fs_current s) as [c|]; [|discriminate]. injection Hcb as ->. simpl in S4. rewrite S4 in E.
      rewrite arrow_ltb_same in E by congruence. rewrite (proj2 (Z.ltb_lt _ _) S6) in E.
      destruct (get_frame_end _ _ _) as [e1|x] eqn:Eg.
      - pose proof (create_no_ind s (fr_last c) e0 (Some e1) mo Hmx' S1) as Hcn.
        destruct (create_new_frame _ _ _ _ _) as [s' [[]|y]]; [discriminate|]. injection E as <-. simpl in *. split; [discriminate|].
        intros Hi. rewrite C4 in Hcn. specialize (Hcn Hi). discriminate.
      - injection E as <-. simpl. split; [discriminate|]. intros _. f_equal.
        rewrite C1, C2, Eu, Eq in Eg. unfold get_frame_end, arrow_shift in Eg.
        assert (rbind (w_shift u q (ar_wall e0)) (fun w => Ok (arrow_of_wall (ar_tz e0) (tz_resolve (ar_tz e0) w))) = Err x) as Eg' by (destruct u; auto; congruence).
        destruct (w_shift u q (ar_wall e0)) eqn:Ew; [discriminate|]. simpl in Eg'. injection Eg' as ->. eapply w_shift_err; eauto. }
    split.
    - intros fuel lst. rewrite Hgo. unfold create_new_frame_timed. rewrite Eu, Eq, Es.
      destruct (get_frame_end u q start); [|discriminate].
      pose proof (ploop_ind (fill_step start mo) P (fun r => snd r <> Ok ()) fuel fs) as Hp.
      specialize (Hp (fun s s' H1 H2 => proj1 (Hstep s s' H1 H2)) (fun s r H1 H2 => proj1 (Hstop s r H1 H2)) P0).
      destruct (ploop _ _ _) as [s|[s [[]|x]]]; [discriminate|simpl in Hp; congruence|discriminate].
    - intros Hi Hend.
      set (m := fun s : fset F => match last (bars s) with Some b => match b_end b with Some e => ar_wall e - WALL_MIN | None => 0 end | None => 0 end).
      exists (Z.to_pos (m fs + 1)). intros fuel lst Hfuel. rewrite Hgo. unfold create_new_frame_timed. rewrite Eu, Eq, Es.
      destruct (get_frame_end u q start); [|discriminate].
      destruct (ploop_measure (fill_step start mo) P m fuel fs) as [r Er].
      + intros s s' Hs E. destruct (Hstep s s' Hs E) as (H1 & b & e0 & b' & e0' & G1 & G2 & G3 & G4 & G5 & G6). split; auto.
        unfold m. rewrite G1, G2, G3, G4. lia.
      + intros s s' Hs E. destruct (Hstep s s' Hs E) as (H1 & b & e0 & b' & e0' & G1 & G2 & G3 & G4 & G5 & G6).
        unfold m. rewrite G1, G2. lia.
      + exact P0.
      + clear -Hfuel. assert (Zpos (Z.to_pos (m fs + 1)) <= Zpos fuel) as Hp by lia.
        destruct (Z.lt_ge_cases 0 (m fs + 1)) as [L|L]; [rewrite Z2Pos.id in Hp by auto; lia|lia].
      + pose proof (ploop_ind (fill_step start mo) P (fun r => snd r = Err OverflowError) fuel fs) as Hp.
        specialize (Hp (fun s s' H1 H2 => proj1 (Hstep s s' H1 H2)) (fun s r H1 H2 => proj2 (Hstop s r H1 H2) Hi) P0).
        rewrite Er in *. destruct r as [s r]. simpl in Hp. subst r. reflexivity.
  Qed.
End final.

(** On exact numbers the values are always comparable. *)
Lemma comparable_Q (l : list (tick Q)) : comparable l.
Proof.
  assert (forall x y : Q, fltb x y = true <-> (x < y)%Q) as Hlt.
  { intros x y. unfold fltb, NumQ. rewrite negb_true_iff, <- not_true_iff_false, Qle_bool_iff. split; [apply Qnot_le_lt|apply Qlt_not_le]. }
  assert (forall x y : Q, fltb x y = false <-> (y <= x)%Q) as Hge.
  { intros x y. rewrite <- not_true_iff_false, Hlt. split; [apply Qnot_lt_le|intros A B; apply (Qlt_not_le _ _ B A)]. }
  split; [intros x _; apply Hge, Qle_refl|]. split; intros x y z _ _ _; rewrite ?Hlt, ?Hge; intros A B.
  - eapply Qlt_trans; eauto.
  - eapply Qle_trans; eauto.
Qed.

(** ** C37, with the hypotheses on the unit as the user states them *)
Lemma frames_per_period' {F} `{Num F} z u q mx (ts : list (tick F)) (fs : fset F) fuel tk mo lst fs' t0 bl :
  1 <= mx -> u <> TICK -> 0 < q -> no_skip z -> fs_run u q mx ts fs -> in_order z (ts ++ [tk]) -> last ts = Some t0 ->
  fs_on_new_tick fuel fs tk mo lst = (fs', Ok ()) -> elapsed u q (tk_wall t0) (tk_wall tk) bl ->
  length (fs_heap fs') = (length (fs_heap fs) + length bl)%nat.
Proof. intros Hmx Hu Hq Hz Hr. eapply frames_per_period; eauto. eapply run_good; eauto. Qed.
Lemma tick_no_exception' {F} `{Num F} z u q mx (ts : list (tick F)) (fs : fset F) tk mo lst :
  1 <= mx -> u <> TICK -> 0 < q -> no_skip z -> fs_run u q mx ts fs -> in_order z (ts ++ [tk]) -> fs_inds fs = [] ->
  (forall t, t ∈ ts ++ [tk] -> WALL_MIN <= tk_wall t) -> (u = YEAR -> q <= w_year (tk_wall tk)) ->
  (forall e, next_boundary u q (tk_wall tk) e -> e <= WALL_MAX) ->
  exists fs', fs_on_new_tick (gap_fuel fs tk) fs tk mo lst = (fs', Ok ()).
Proof. intros Hmx Hu Hq Hz Hr. eapply tick_no_exception; eauto. eapply run_good; eauto. Qed.
