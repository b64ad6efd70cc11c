(** Termination of the gap filling, tick-count frames, one frame per elapsed period. *)
From Verif Require Export FrameTimeProofs.
Open Scope Z_scope.

(** ** A shift by a positive quantity moves at least one second forward *)
Lemma w_add_months_fwd w k w' : 0 < k -> w_add_months w k = Ok w' -> w + US_SEC <= w'.
Proof.
  intros Hk. unfold w_add_months, w_ymd. destruct (civil_from_days (w_days w)) as [[y m] d] eqn:E. cbv zeta.
  pose proof (civil_valid (w_days w)) as Hv. rewrite E in Hv. destruct Hv as [_ Hd].
  pose proof (civil_month _ _ _ _ E) as Hc. cbv zeta in Hc. destruct Hc as (H1 & H2 & H3 & H4).
  set (t := y * 12 + (m - 1) + k). destruct (_ && _); [|discriminate]. intros Ew. injection Ew as <-.
  unfold w_of_date. rewrite days_from_civil_day.
  assert (days_from_civil (t / 12) (t mod 12 + 1) 1 = month_first t) as Hf by reflexivity.
  rewrite Hf. set (t0 := 12 * y + (m - 1)) in *.
  assert (month_first (t0 + 1) <= month_first t) as Hmf.
  { destruct (Z.eq_dec (t0 + 1) t) as [<-|]; [lia|]. pose proof (month_first_mono (t0 + 1) t). unfold t, t0 in *. lia. }
  pose proof (days_in_month_pos (t / 12) (t mod 12 + 1)).
  assert (w = w_days w * US_DAY + w_tod w) as Hw by (unfold w_days, w_tod; pose proof (Z.div_mod w US_DAY ltac:(us; lia)); lia).
  rewrite Hw at 1. us. nia.
Qed.
Lemma w_shift_fwd u q w w' : u <> TICK -> 0 < q -> w_shift u q w = Ok w' -> w + US_SEC <= w'.
Proof.
  intros Hu Hq. assert (forall d, US_SEC <= d -> w_add w d = Ok w' -> w + US_SEC <= w') as Hadd.
  { intros d Hd. unfold w_add. destruct (in_range _); [|discriminate]. intros E. injection E as <-. lia. }
  destruct u; simpl; try congruence; try (apply Hadd; us; nia); apply w_add_months_fwd; lia.
Qed.
Lemma end_fwd u q s e : u <> TICK -> 0 < q -> resolves_forward (ar_tz s) -> get_frame_end u q s = Ok e ->
  ar_wall s + US_SEC <= ar_wall e /\ ar_tz e = ar_tz s.
Proof.
  intros Hu Hq Hz E. apply get_frame_end_inv in E as (w & H1 & H2 & H3 & _); auto. split; auto.
  apply w_shift_fwd in H1; auto. rewrite H2. specialize (Hz w). lia.
Qed.

(** The model's own error values never come out of date computations. *)
Definition model_err (e : exn) : Prop := e = Diverges \/ e = Dangling.
Definition sane {A} (r : res A) : Prop := forall e, r = Err e -> ~ model_err e.
Lemma sane_ok {A} (a : A) : sane (Ok a). Proof. intros e E. discriminate. Qed.
Lemma sane_err {A} e : ~ model_err e -> sane (@Err A e). Proof. intros Hn e' [= <-]. auto. Qed.
Lemma sane_bind {A B} (x : res A) (k : A -> res B) : sane x -> (forall a, x = Ok a -> sane (k a)) -> sane (let! y := x in k y).
Proof. intros H1 H2. destruct x; simpl; auto. intros e' [= <-]. now apply H1. Qed.
Global Hint Resolve sane_ok : core.
Ltac sane_tac := repeat (apply sane_bind; [|intros ? _]); auto; try (apply sane_err; intros [|]; discriminate).
Lemma sane_w_add w d : sane (w_add w d). Proof. unfold w_add. destruct (in_range _); sane_tac. Qed.
Lemma sane_start u q dt : sane (get_frame_start u q dt).
Proof.
  unfold get_frame_start, pymod, arrow_sub_td, w_replace_first. cbv zeta.
  destruct u; auto; destruct (q =? 0); sane_tac; auto using sane_w_add;
    match goal with |- context [if ?b then _ else _] => destruct b end; sane_tac.
Qed.
Lemma sane_end u q s : sane (get_frame_end u q s).
Proof.
  unfold get_frame_end, arrow_shift, w_shift, w_add_months. cbv zeta.
  destruct u; auto; sane_tac; auto using sane_w_add; destruct (w_ymd _) as [[y m] d];
    match goal with |- context [if ?b then _ else _] => destruct b end; sane_tac.
Qed.

Section more.
  Context {F : Type} `{Num F}.
  Implicit Types fs : fset F.
  Implicit Types f : frame F.
  Implicit Types h : heap F.

  Lemma sane_fdivr (x y : F) : sane (fdivr x y).
  Proof. unfold fdivr. destruct (feqb _ _); sane_tac. Qed.

  (** ** Walking back the previous frames *)
  Definition prev_ok h (o : option nat) : Prop := match o with Some p => (p < length h)%nat | None => True end.
  Lemma linked_prev h l p f : linked h l -> h !! p = Some f ->
    match fr_prev f with Some p' => (p' < p)%nat | None => True end.
  Proof.
    intros [H1 H2 H3 H4] Hp. destruct (Nat.lt_ge_cases p (length h - length l)) as [Hlt|Hge].
    - destruct (H3 _ _ Hp Hlt) as [-> _]. auto.
    - destruct (H4 _ _ Hp Hge) as [-> _]. destruct (Nat.eqb_spec p (length h - length l)); [auto|lia].
  Qed.
  Lemma find_previous_ok h l ref fuel o : linked h l ->
    (match o with Some p => p < length h /\ p < fuel | None => True end)%nat ->
    exists r, find_previous fuel h ref o = Ok r /\
      match r with Some (pid, iv) => exists pf, h !! pid = Some pf /\ dict_get (fr_inds pf) ref = Some (Some iv) | None => True end.
  Proof.
    intros Hl. revert o. induction fuel as [|fuel IH]; intros [p|] Ho; simpl; try (eexists; split; [reflexivity|exact I]); [lia|].
    destruct (lookup_lt_is_Some_2 h p ltac:(lia)) as [f Hf]. rewrite Hf.
    pose proof (linked_prev _ _ _ _ Hl Hf) as Hpf.
    assert (match fr_prev f with Some p0 => p0 < length h /\ p0 < fuel | None => True end)%nat as Hnext by (destruct (fr_prev f); [lia|auto]).
    destruct (dict_get (fr_inds f) ref) as [[iv|]|] eqn:Ed; auto. eexists. split; [reflexivity|]. simpl. eauto.
  Qed.
  Lemma sane_previous h l f ref : linked h l -> prev_ok h (fr_prev f) -> sane (previous h f ref).
  Proof.
    intros Hl Hp. destruct (find_previous_ok h l ref (S (length h)) (fr_prev f) Hl) as (r & E & _).
    - destruct (fr_prev f); simpl in *; [lia|auto].
    - unfold previous. rewrite E. auto.
  Qed.
  Lemma sane_extended h f lc : prev_ok h (fr_prev f) -> sane (extended_changes h f lc).
  Proof.
    intros Hp. unfold extended_changes. destruct (fr_prev f) as [p|]; auto. simpl in Hp.
    destruct (lookup_lt_is_Some_2 h p ltac:(lia)) as [g ->]. auto.
  Qed.
  Lemma sane_update_rsi h f n lc old : prev_ok h (fr_prev f) -> sane (update_rsi h f n lc old).
  Proof.
    intros Hp. unfold update_rsi. apply sane_bind; [now apply sane_extended|]. intros ext _.
    destruct (_ =? _); auto. apply sane_bind; auto. unfold build_rsi. destruct (build_sums ext) as [ps ns].
    destruct (feqb ns f0); auto. destruct (feqb ps f0); auto. sane_tac; apply sane_fdivr.
  Qed.
  Lemma sane_user {A} (x : option A) : sane (user_code x).
  Proof. destruct x; unfold user_code; sane_tac; auto. Qed.
  Lemma sane_build_value h l f i mo : linked h l -> prev_ok h (fr_prev f) -> sane (build_value h f i mo).
  Proof.
    intros Hl Hp. unfold build_value. destruct (_ || _); auto. apply sane_bind; auto. unfold build_data.
    destruct (in_kind i) as [| |mp|p [n|]|mk tl]; auto; [| |sane_tac|].
    - apply sane_bind; [eapply sane_previous; eauto|]. intros [[pid piv]|] _; apply sane_bind; auto.
      destruct (iv_data piv); sane_tac. destruct (h !! pid); sane_tac.
    - destruct (n =? 0); [sane_tac|]. apply sane_bind; [eapply sane_previous; eauto|]. intros [[pid piv]|] E.
      + apply sane_bind; [|intros lc _; apply sane_bind; auto; now apply sane_update_rsi].
        destruct (iv_data piv); sane_tac. destruct (h !! pid) as [pf|] eqn:Ep; sane_tac. apply sane_extended.
        pose proof (linked_prev _ _ _ _ Hl Ep) as Hq. pose proof (lookup_lt_Some _ _ _ Ep). destruct (fr_prev pf); simpl; [lia|auto].
      + apply sane_bind; auto. intros lc _. apply sane_bind; auto. now apply sane_update_rsi.
    - apply sane_bind; [apply sane_user|auto].
  Qed.
  Lemma sane_upsert h l f tk mo inds : linked h l -> prev_ok h (fr_prev f) -> sane (snd (upsert h f tk mo inds)).
  Proof.
    intros Hl. revert f. induction inds as [|[ref i] inds IH]; intros f Hp; simpl; auto.
    assert (sane (snd (match build_value h f i mo with
            | Ok v => upsert h (fr_set_inds f (dict_set (fr_inds f) (in_ref i) v)) tk mo inds
            | Err e => (f, Err e) end))) as Hb.
    { pose proof (sane_build_value h l f i mo Hl Hp) as Hs. destruct (build_value h f i mo); [now apply IH|]. apply sane_err, Hs. auto. }
    destruct (dict_get (fr_inds f) ref) as [[iv|]|]; auto.
    assert (sane (iv_on_new_tick h f iv tk mo)) as Hs.
    { unfold iv_on_new_tick. destruct (iv_data _); auto; apply sane_bind; auto; [now apply sane_update_rsi|apply sane_user]. }
    destruct (iv_on_new_tick h f iv tk mo); [now apply IH|]. apply sane_err, Hs. auto.
  Qed.
  Lemma current_prev_ok fs : 1 <= fs_max fs -> wf fs -> prev_ok (fs_heap fs) (fs_current_id fs).
  Proof. intros Hmx Hwf. rewrite (wf_current fs Hmx Hwf). destruct (length (fs_heap fs)) eqn:E; simpl; [auto|lia]. Qed.
  Lemma clean_length mx h l h2 l2 r2 : clean_old_frames mx h l = (h2, l2, r2) -> length h2 = length h.
  Proof.
    revert h. induction l as [|a l IH]; intros h; simpl.
    - destruct (_ <=? _); intros [= <- <- <-]; auto.
    - destruct (_ <=? _); [intros [= <- <- <-]; auto|]. destruct l as [|b l]; [intros [= <- <- <-]; auto|].
      intros E. apply IH in E. rewrite E, !alter_length. auto.
  Qed.
  (** A frame creation fails only because of an indicator. *)
  Lemma create_err fs tk s e mo fs' x : 1 <= fs_max fs -> wf fs -> create_new_frame fs tk s e mo = (fs', Err x) ->
    snd (upsert (fs_heap fs) (frame_new tk s e (fs_current_id fs)) tk mo (fs_inds fs)) = Err x.
  Proof.
    intros Hmx Hwf Ec. pose proof (create_spec _ _ _ _ _ _ _ Hmx Hwf Ec) as [[-> _]|(E & _)]; [|discriminate].
    unfold create_new_frame in Ec. destruct (upsert _ _ _ _ _) as [fr [[]|y]]; [|now injection Ec as <-].
    destruct (clean_old_frames _ _ _) as [[h2 l2] r2] eqn:Ecl. exfalso.
    apply (f_equal (fun p => fs_heap (fst p))) in Ec. simpl in Ec. apply clean_length in Ecl.
    rewrite app_length, Ec in Ecl. simpl in Ecl. destruct (fs_current_id fs); rewrite ?alter_length in Ecl; lia.
  Qed.
  Lemma sane_create fs tk s e mo : 1 <= fs_max fs -> wf fs -> sane (snd (create_new_frame fs tk s e mo)).
  Proof.
    intros Hmx Hwf. destruct (create_new_frame fs tk s e mo) as [fs' [[]|x]] eqn:Ec; simpl; auto.
    apply create_err in Ec; auto. apply sane_err.
    pose proof (sane_upsert (fs_heap fs) (fs_frames fs) (frame_new tk s e (fs_current_id fs)) tk mo (fs_inds fs) (proj1 Hwf)) as Hs.
    now apply Hs; [apply current_prev_ok|].
  Qed.
  Lemma sane_add fs tk mo : 1 <= fs_max fs -> wf fs -> sane (snd (add_tick_to_last fs tk mo)).
  Proof.
    intros Hmx Hwf. unfold add_tick_to_last. pose proof (current_prev_ok fs Hmx Hwf) as Hc.
    destruct (fs_current_id fs) as [i|]; [|simpl; auto]. simpl in Hc. destruct (lookup_lt_is_Some_2 (fs_heap fs) i Hc) as [cur Ecur]. rewrite Ecur.
    unfold frame_on_new_tick. pose proof (sane_upsert (fs_heap fs) (fs_frames fs) (frame_tick cur tk) tk mo (fs_inds fs) (proj1 Hwf)) as Hs.
    destruct (upsert _ _ _ _ _) as [fr r]. simpl in *. apply Hs.
    pose proof (linked_prev _ _ _ _ (proj1 Hwf) Ecur). destruct (fr_prev cur); simpl; [lia|auto].
  Qed.

  (** ** Termination *)
  (** Every end of a frame lies in zone [z]. *)
  Definition ends_in (z : tzinfo) (bs : list (bar (F:=F))) : Prop := Forall (fun b => forall e, b_end b = Some e -> ar_tz e = z) bs.
  Lemma ends_gap u q s bs bs' z : u <> TICK -> ends_in z bs -> gap_bar u q s bs bs' -> ends_in z bs'.
  Proof.
    intros Hu Hz (b & e & e' & Hb & He & _ & Hg & ->). apply Forall_app. split; auto. apply Forall_singleton. simpl.
    intros x [= <-]. apply end_tz in Hg; auto. rewrite Hg. apply last_Some in Hb as [l ->].
    apply Forall_app in Hz as [_ Hz]. rewrite Forall_singleton in Hz. auto.
  Qed.
  Lemma ends_fill z start mo fs : fs_unit fs <> TICK -> 1 <= fs_max fs -> wf fs -> ends_in z (bars fs) ->
    match fill_step start mo fs with
    | inl fs' => wf fs' /\ same_conf fs fs' /\ ends_in z (bars fs') /\ gap_bar (fs_unit fs) (fs_q fs) start (bars fs) (bars fs')
    | inr (fs', r) => fs' = fs
    end.
  Proof.
    intros Hu Hmx Hwf Hz. pose proof (fill_step_bars start mo fs Hmx Hwf) as Hf.
    destruct (fill_step start mo fs) as [fs'|[fs' r]] eqn:E.
    - destruct Hf as (H1 & H2 & H3). split; [auto|]. split; [auto|]. split; [|auto]. eapply ends_gap; eauto.
    - unfold fill_step in E. destruct (fs_current fs) as [cur|]; [|now injection E as <-].
      destruct (fr_end cur) as [e|]; [|now injection E as <-]. destruct (arrow_ltb e start); [|now injection E as <-].
      destruct (get_frame_end _ _ _) as [e'|]; [|now injection E as <-].
      destruct (create_new_frame _ _ _ _ _) as [fs1 r1] eqn:Ec. apply create_spec in Ec; auto.
      destruct Ec as [[-> [x ->]]|(-> & _)]; [|discriminate]. now injection E as <-.
  Qed.
  (** The states of the loop, when it ends. *)
  Lemma fill_loop z start mo fuel fs r : fs_unit fs <> TICK -> 1 <= fs_max fs -> wf fs -> ends_in z (bars fs) ->
    ploop fuel (fill_step start mo) fs = r ->
    match r with inl s | inr (s, _) => wf s /\ same_conf fs s /\ ends_in z (bars s) end.
  Proof.
    intros Hu Hmx Hwf Hz <-.
    pose proof (ploop_ind (fill_step start mo) (fun s => wf s /\ same_conf fs s /\ ends_in z (bars s))
                  (fun x => wf x.1 /\ same_conf fs x.1 /\ ends_in z (bars x.1)) fuel fs) as Hp.
    assert (forall s, wf s /\ same_conf fs s /\ ends_in z (bars s) -> fs_unit s <> TICK /\ 1 <= fs_max s) as Hc.
    { intros s (_ & (_ & C1 & _ & C2 & _) & _). rewrite C1, C2. auto. }
    destruct (ploop fuel (fill_step start mo) fs) as [s|[s r]]; [|change s with ((s, r).1)]; apply Hp; auto using same_conf_refl;
      try (intros a a' Ha E; pose proof (Hc _ Ha) as [C1 C2]; destruct Ha as (A1 & A2 & A3);
           pose proof (ends_fill z start mo a C1 C2 A1 A3) as Hf; rewrite E in Hf; destruct Hf as (B1 & B2 & B3 & _);
           eauto using same_conf_trans);
      intros a [a' r'] Ha E; pose proof (Hc _ Ha) as [C1 C2]; destruct Ha as (A1 & A2 & A3);
      pose proof (ends_fill z start mo a C1 C2 A1 A3) as Hf; rewrite E in Hf; subst a'; auto.
  Qed.
  Lemma reach_in_inv z u q mx fs : 1 <= mx -> fs_reach_in z u q mx fs -> 0 < q ->
    wf fs /\ fs_max fs = mx /\ fs_unit fs = u /\ fs_q fs = q /\ unit_ok u q /\ (u <> TICK -> ends_in z (bars fs)).
  Proof.
    intros Hmx Hr Hq. induction Hr as [ref fs E|fs i Hr IH|fs e Hr IH|fs fuel tk mo lst Hr IH Htz].
    - apply fset_init_wf in E as (E1 & E2 & E3 & E4 & E5 & E6). apply check_unit_spec in E6; auto. repeat (split; [auto|]). intros _. unfold bars. rewrite E2. constructor.
    - destruct (add_indicator_frames fs i) as (E1 & E2 & E4 & E5 & E3). unfold wf, bars in *. rewrite E1, E2, E3, E4, E5. exact IH.
    - exact IH.
    - destruct IH as (I1 & I2 & I3 & I4 & I0 & I5). destruct (fs_on_new_tick fuel fs tk mo lst) as [fs' r] eqn:E. simpl.
      assert (1 <= fs_max fs) as Hmx' by lia. pose proof (fs_tick_wf _ _ _ _ _ _ _ Hmx' I1 E) as [E1 (_ & E3 & E4 & E2 & _)].
      split; [auto|]. split; [congruence|]. split; [congruence|]. split; [congruence|]. split; [auto|]. intros Hu. specialize (I5 Hu).
      assert ((if is_frame_over_timed fs tk then create_new_frame_timed fuel fs tk mo else add_tick_to_last fs tk mo) = (fs', r)) as E'
        by (revert E; unfold fs_on_new_tick; rewrite I3; destruct u; congruence).
      clear E. destruct (is_frame_over_timed fs tk).
      + unfold create_new_frame_timed in E'. rewrite I3, I4 in E'.
        destruct (get_frame_start _ _ _) as [start|] eqn:Es; [|injection E' as <- <-; auto].
        destruct (get_frame_end _ _ _) as [e1|] eqn:Ee; [|injection E' as <- <-; auto].
        destruct (ploop fuel (fill_step start mo) fs) as [s|[s [[]|x]]] eqn:Ep;
          (apply (fill_loop z) in Ep; [|congruence|lia|auto|auto]); destruct Ep as (P1 & P2 & P3);
          try (injection E' as <- <-; auto).
        pose proof P2 as (_ & _ & _ & P4 & _).
        apply create_spec in E'; [|lia|auto]. destruct E' as [[-> _]|(_ & _ & _ & ->)]; auto.
        apply Forall_app. split; auto. apply Forall_singleton. simpl. intros y [= <-].
        rewrite (end_tz _ _ _ _ Hu Ee), (start_tz _ _ _ _ Hq Hu Es). exact Htz.
      + apply add_tick_spec in E' as (_ & _ & ->); [|lia|auto].
        destruct (last (bars fs)) as [b|] eqn:Eb; auto. apply last_Some in Eb as [l El]. rewrite El in *.
        apply Forall_app in I5 as [I5 I6]. rewrite Forall_singleton in I6.
        rewrite app_length. simpl. replace (length l + 1 - 1)%nat with (length l) by lia. rewrite take_app.
        apply Forall_app. split; auto.
  Qed.

  Lemma last_end_in z fs cur e : 1 <= fs_max fs -> wf fs -> ends_in z (bars fs) -> fs_current fs = Some cur -> fr_end cur = Some e ->
    ar_tz e = z.
  Proof.
    intros Hmx Hwf Hz Hc He. pose proof (current_bar fs Hmx Hwf) as Hb. rewrite Hc in Hb. simpl in Hb.
    apply last_Some in Hb as [l El]. rewrite El in Hz. apply Forall_app in Hz as [_ Hz]. rewrite Forall_singleton in Hz. apply Hz. exact He.
  Qed.

  (** [gap_fuel] is enough. *)
  Lemma fill_terminates z fs tk mo start p : fs_unit fs <> TICK -> 0 < fs_q fs -> 1 <= fs_max fs -> wf fs -> ends_in z (bars fs) ->
    resolves_forward z -> ar_tz (tk_dt tk) = z -> is_frame_over_timed fs tk = true ->
    ar_tz start = z -> ar_wall start <= ar_wall (tk_dt tk) -> (gap_fuel fs tk <= p)%positive ->
    exists r, ploop p (fill_step start mo) fs = inr r.
  Proof.
    intros Hu Hq Hmx Hwf He Hz Htz Hover Hstz Hsle Hp.
    set (m := fun s : fset F => match fs_current s with
              | Some cur => match fr_end cur with Some e => (ar_wall start - ar_wall e) / US_SEC + 1 | None => 0 end
              | None => 0 end).
    set (P := fun s : fset F => wf s /\ same_conf fs s /\ ends_in z (bars s)).
    assert (forall s s', P s -> fill_step start mo s = inl s' -> P s' /\ m s' + 1 <= m s /\ 0 < m s) as Hstep.
    { intros s s' (S1 & S2 & S3) E. pose proof S2 as (_ & C1 & C2 & C3 & _).
      pose proof (ends_fill z start mo s ltac:(congruence) ltac:(congruence) S1 S3) as Hf. rewrite E in Hf.
      destruct Hf as (B1 & B2 & B3 & (b & e & e' & G1 & G2 & G3 & G4 & G5)).
      split; [split; [auto|split; [eauto using same_conf_trans|auto]]|].
      pose proof B2 as (_ & _ & _ & D3 & _).
      pose proof (current_bar s ltac:(congruence) S1) as Hcb. rewrite G1 in Hcb.
      destruct (fs_current s) as [cur|] eqn:Ecur; [|discriminate]. injection Hcb as ->. simpl in G2.
      pose proof (current_bar s' ltac:(congruence) B1) as Hcb'. rewrite G5, last_snoc in Hcb'.
      destruct (fs_current s') as [cur'|] eqn:Ecur'; [|discriminate]. injection Hcb' as _ _ _ _ _ G6 _.
      unfold m. rewrite Ecur, Ecur', G2, <- G6.
      assert (ar_tz e = z) as Tz by (eapply (last_end_in z s); eauto; congruence).
      rewrite arrow_ltb_same in G3 by congruence. apply Z.ltb_lt in G3.
      apply end_fwd in G4; [|congruence|congruence|now rewrite Tz]. destruct G4 as [G4 _].
      assert ((ar_wall start - ar_wall e') / US_SEC <= (ar_wall start - ar_wall e) / US_SEC - 1).
      { replace ((ar_wall start - ar_wall e) / US_SEC - 1) with ((ar_wall start - ar_wall e + (-1) * US_SEC) / US_SEC)
          by (rewrite Z_div_plus_full by (us; lia); lia).
        apply Z.div_le_mono; [us; lia|lia]. }
      assert (0 <= (ar_wall start - ar_wall e) / US_SEC) by (apply Z.div_pos; [lia|us; lia]). lia. }
    apply (ploop_measure _ P m).
    - intros s s' Hs E. destruct (Hstep s s' Hs E) as (A & B & _). auto.
    - intros s s' Hs E. destruct (Hstep s s' Hs E) as (A & _ & B). auto.
    - split; auto. split; auto using same_conf_refl.
    - assert (Zpos (gap_fuel fs tk) <= Zpos p) as Hp' by lia. revert Hp'. unfold m, gap_fuel.
      destruct (fs_current fs) as [cur|] eqn:Ecur; [|lia]. destruct (fr_end cur) as [e|] eqn:Ee; [|lia].
      unfold is_frame_over_timed in Hover. rewrite Ecur, Ee in Hover. unfold arrow_geb in Hover. apply negb_true_iff in Hover.
      rewrite arrow_ltb_same in Hover by (rewrite (last_end_in z fs cur e); auto). apply Z.ltb_ge in Hover.
      assert (0 <= (ar_wall (tk_dt tk) - ar_wall e) / US_SEC) by (apply Z.div_pos; [lia|us; lia]).
      rewrite Z2Pos.id by lia.
      assert ((ar_wall start - ar_wall e) / US_SEC <= (ar_wall (tk_dt tk) - ar_wall e) / US_SEC) by (apply Z.div_le_mono; [us; lia|lia]). lia.
  Qed.

  (** Processing a tick ends, whatever the gap: the fuel of the model is never exhausted and any larger
      bound gives the same result. *)
  Lemma tick_terminates z u q mx fs tk mo lst fuel : 1 <= mx -> 0 < q -> resolves_forward z ->
    fs_reach_in z u q mx fs -> ar_tz (tk_dt tk) = z -> (gap_fuel fs tk <= fuel)%positive ->
    fs_on_new_tick fuel fs tk mo lst = fs_on_new_tick (gap_fuel fs tk) fs tk mo lst /\
    sane (snd (fs_on_new_tick fuel fs tk mo lst)).
  Proof.
    intros Hmx Hq Hz Hr Htz Hfuel. apply reach_in_inv in Hr as (R1 & R2 & R3 & R4 & R0 & R5); auto.
    destruct (decide (u = TICK)) as [->|Hu].
    { unfold fs_on_new_tick. rewrite R3. split; auto. unfold create_new_frame_tick.
      destruct (is_frame_over_tick _ _ _); [apply sane_create|apply sane_add]; auto; lia. }
    specialize (R5 Hu). unfold fs_on_new_tick. rewrite R3.
    assert (forall p, (gap_fuel fs tk <= p)%positive ->
      (if is_frame_over_timed fs tk then create_new_frame_timed p fs tk mo else add_tick_to_last fs tk mo) =
      (if is_frame_over_timed fs tk then create_new_frame_timed (gap_fuel fs tk) fs tk mo else add_tick_to_last fs tk mo) /\
      sane (snd (if is_frame_over_timed fs tk then create_new_frame_timed p fs tk mo else add_tick_to_last fs tk mo))) as Hgo;
      [|destruct u; [congruence|..]; now apply Hgo].
    intros p Hp. destruct (is_frame_over_timed fs tk) eqn:Eo; [|split; [reflexivity|apply sane_add; auto; lia]].
    unfold create_new_frame_timed. rewrite R3, R4.
    pose proof (sane_start u q (tk_dt tk)) as Hss. destruct (get_frame_start u q (tk_dt tk)) as [start|x] eqn:Es; [|split; [reflexivity|apply sane_err, Hss; auto]].
    pose proof (sane_end u q start) as Hse. destruct (get_frame_end u q start) as [e1|x] eqn:Ee; [|split; [reflexivity|apply sane_err, Hse; auto]].
    assert (ar_tz start = z /\ ar_wall start <= ar_wall (tk_dt tk)) as [S1 S2].
    { pose proof Es as Es'. apply get_frame_start_wall in Es' as (_ & T & _); auto. split; [congruence|].
      destruct (frame_start_bnd u q _ _ (mk_good _ _ Hu Hq R0) Es) as (k & E1 & E2 & _). lia. }
    destruct (fill_terminates z fs tk mo start p) as [r Er]; auto; try congruence; try lia.
    destruct (fill_terminates z fs tk mo start (gap_fuel fs tk)) as [r' Er']; auto; try congruence; try lia.
    assert (r' = r) as ->.
    { apply ploop_inr in Er as (n & a & _ & Ha & Hra). apply ploop_inr in Er' as (n' & a' & Hn' & Ha' & Hra').
      pose proof (nsteps_stuck _ _ _ _ _ _ _ Ha Hra Ha'). pose proof (nsteps_stuck _ _ _ _ _ _ _ Ha' Hra' Ha).
      assert (n = n') as -> by lia. rewrite (nsteps_fun _ _ _ _ _ Ha Ha') in Hra. congruence. }
    rewrite Er, Er'. split; auto.
    pose proof (fill_loop z start mo p fs _ ltac:(congruence) ltac:(lia) R1 R5 Er) as Hl. destruct r as [s [[]|x]].
    - destruct Hl as (L1 & (_ & _ & _ & L2 & _) & _). apply sane_create; auto. lia.
    - apply sane_err. apply ploop_inr in Er as (n & a & _ & Ha & Hra).
      assert (wf a /\ same_conf fs a) as [A1 A2].
      { eapply (nsteps_inv (fill_step start mo) (fun s => wf s /\ same_conf fs s)); [|exact Ha|]; auto using same_conf_refl.
        intros b b' [B1 B2] E. pose proof B2 as (_ & _ & _ & B3 & _).
        pose proof (fill_step_wf start mo b ltac:(lia) B1) as Hf. rewrite E in Hf. destruct Hf. eauto using same_conf_trans. }
      pose proof A2 as (_ & A3 & A4 & A5 & _). unfold fill_step in Hra.
      destruct (fs_current a) as [cur|]; [|discriminate]. destruct (fr_end cur) as [e|]; [|injection Hra as <- <-; intros [|]; discriminate].
      destruct (arrow_ltb e start); [|discriminate].
      pose proof (sane_end (fs_unit a) (fs_q a) e) as Hs2. destruct (get_frame_end (fs_unit a) (fs_q a) e) as [e'|]; [|injection Hra as <- <-; now apply Hs2].
      pose proof (sane_create a (fr_last cur) e (Some e') mo ltac:(lia) A1) as Hs3.
      destruct (create_new_frame a (fr_last cur) e (Some e') mo) as [b [[]|y]]; [discriminate|]. injection Hra as <- <-. simpl in Hs3. now apply Hs3.
  Qed.

  (** ** One frame per elapsed period *)
  Lemma gap_head u q s (bs bs1 : list (bar (F:=F))) : rtc (gap_bar u q s) bs bs1 -> head bs <> None -> head bs1 = head bs.
  Proof.
    intros Hr. induction Hr as [|bs bs' bs1 Hs Hr IH]; intros Hne; auto.
    destruct Hs as (b & e & e' & _ & _ & _ & _ & ->). destruct bs; [simpl in Hne; congruence|]. rewrite IH; auto.
  Qed.
  Lemma timed_step_head u q (bs : list (bar (F:=F))) tk bs' : timed_step u q bs tk bs' -> head bs <> None -> b_start <$> head bs' = b_start <$> head bs.
  Proof.
    intros [(b & e & Hb & _ & _ & ->)|(s & e & bs1 & _ & _ & _ & Hr & _ & ->)] Hne.
    - destruct bs as [|c bs]; [simpl in Hne; congruence|]. destruct bs as [|d bs]; simpl in *; auto. now injection Hb as ->.
    - pose proof (gap_head _ _ _ _ _ Hr Hne) as E. destruct bs as [|c bs]; [simpl in Hne; congruence|].
      destruct bs1 as [|c1 bs1]; simpl in *; congruence.
  Qed.
  Lemma bnd_inj u q a b : good u q -> bnd u q a = bnd u q b -> a = b.
  Proof.
    intros Hg E. destruct (Z.lt_trichotomy a b) as [L|[L|L]]; auto; apply (bnd_mono u q _ _ Hg) in L; lia.
  Qed.
  Lemma bnd_index u q a b w : good u q -> bnd u q a <= w < bnd u q (a + 1) -> bnd u q b <= w < bnd u q (b + 1) -> a = b.
  Proof.
    intros Hg H1 H2. assert (a < b + 1) by (apply (bnd_inj_lt u q); auto; lia).
    assert (b < a + 1) by (apply (bnd_inj_lt u q); auto; lia). lia.
  Qed.
  Lemma frames_per_period z u q mx ts fs fuel tk mo lst fs' t0 bl : 1 <= mx -> good u q -> no_skip z ->
    fs_run u q mx ts fs -> in_order z (ts ++ [tk]) -> last ts = Some t0 ->
    fs_on_new_tick fuel fs tk mo lst = (fs', Ok ()) -> elapsed u q (tk_wall t0) (tk_wall tk) bl ->
    length (fs_heap fs') = (length (fs_heap fs) + length bl)%nat.
  Proof.
    intros Hmx Hg Hz Hr Ho Ht0 E [Hnd Hbl]. pose proof Hg as (Hu & Hq & _).
    pose proof (in_order_snoc _ _ _ Ho) as (Ho1 & Htz & Hle).
    assert (ts <> []) as Hne by (intros ->; discriminate).
    pose proof (run_tick u q mx _ _ _ _ _ _ _ Hr E) as Hr'.
    pose proof (fs_run_wf _ _ _ _ _ Hmx Hr) as (W1 & W2 & W3 & W4 & _).
    assert (1 <= fs_max fs) as Hmx' by lia.
    pose proof (timed_tick_bars _ _ _ _ _ _ ltac:(rewrite W3; exact Hu) Hmx' W1 E) as Hst. rewrite W3, W4 in Hst.
    destruct (BI_run z u q Hg Hz mx ts fs Hmx Hr Ho1 Hne) as (k0 & HB & Hl).
    destruct (BI_run z u q Hg Hz mx (ts ++ [tk]) fs' Hmx Hr' Ho ltac:(destruct ts; discriminate)) as (k0' & HB' & Hl').
    specialize (Hl _ Ht0). specialize (Hl' tk (last_snoc _ _)).
    assert (k0' = k0) as ->.
    { assert (head (bars fs) <> None) as Hh by (destruct HB as [_ _ B3 _]; destruct (bars fs); [congruence|discriminate]).
      pose proof (timed_step_head _ _ _ _ _ Hst Hh) as Eh.
      destruct (bars fs) as [|b bs] eqn:Eb; [simpl in Hh; congruence|]. destruct (bars fs') as [|b' bs'] eqn:Eb'; [discriminate|].
      simpl in Eh. injection Eh as Eh. destruct HB as [B1 _ _ _]. destruct HB' as [B1' _ _ _].
      destruct (B1 0%nat b eq_refl) as (S1 & _). destruct (B1' 0%nat b' eq_refl) as (S2 & _).
      rewrite S1, S2 in Eh. apply (f_equal ar_wall) in Eh. cbn in Eh. rewrite !Z.add_0_r in Eh. now apply (bnd_inj u q). }
    assert (length (bars fs) = length (fs_heap fs)) as L1 by (unfold bars; apply fmap_length).
    assert (length (bars fs') = length (fs_heap fs')) as L2 by (unfold bars; apply fmap_length).
    rewrite L1 in *. rewrite L2 in *.
    destruct HB as [_ B2 B3 _]. destruct HB' as [_ B2' B3' _]. rewrite L1 in B2. rewrite L2 in B2'.
    assert (t0 ∈ ts) as Hin by (apply last_Some in Ht0 as [l' ->]; set_solver).
    pose proof (B2 _ Hin) as Hb0. pose proof (B2' tk ltac:(set_solver)) as Hb1. specialize (Hle _ Hin).
    set (n := length (fs_heap fs)) in *. set (n' := length (fs_heap fs')) in *.
    assert (n <> 0%nat) as Hn by (intros En; destruct (bars fs); simpl in *; [congruence|lia]).
    assert (n' <> 0%nat) as Hn' by (intros En; destruct (bars fs'); simpl in *; [congruence|lia]).
    assert (Z.of_nat n <= Z.of_nat n') as Hnn.
    { assert (k0 + Z.of_nat n - 1 < k0 + Z.of_nat n'); [|lia]. apply (bnd_inj_lt u q); auto. lia. }
    assert (Permutation bl ((fun i => bnd u q (k0 + Z.of_nat i)) <$> seq n (n' - n))) as Hp.
    { apply NoDup_Permutation; auto.
      - apply NoDup_fmap_2; [|apply NoDup_seq]. intros i j Eij. apply (bnd_inj u q) in Eij; auto. lia.
      - intros x. rewrite Hbl, elem_of_list_fmap. split.
        + intros [Hb [Hx1 Hx2]]. apply boundary_bnd in Hb; auto. destruct Hb as [k ->].
          assert (k0 + Z.of_nat n - 1 < k) by (apply (bnd_inj_lt u q); auto; lia).
          assert (k < k0 + Z.of_nat n') by (apply (bnd_inj_lt u q); auto; lia).
          exists (Z.to_nat (k - k0)). split; [f_equal; lia|]. apply elem_of_seq. lia.
        + intros (i & -> & Hi). apply elem_of_seq in Hi. split; [apply boundary_bnd; eauto|]. split.
          * pose proof (bnd_mono_le u q (k0 + Z.of_nat n) (k0 + Z.of_nat i) Hg ltac:(lia)). lia.
          * pose proof (bnd_mono_le u q (k0 + Z.of_nat i) (k0 + Z.of_nat n' - 1) Hg ltac:(lia)). lia. }
    apply Permutation_length in Hp. rewrite Hp, fmap_length, seq_length. lia.
  Qed.

  (** ** No exception without indicators *)
  Lemma create_no_ind fs tk s e mo : 1 <= fs_max fs -> wf fs -> fs_inds fs = [] -> snd (create_new_frame fs tk s e mo) = Ok ().
  Proof.
    intros Hmx Hwf Hi. destruct (create_new_frame fs tk s e mo) as [fs' [[]|x]] eqn:Ec; auto.
    apply create_err in Ec; auto. rewrite Hi in Ec. discriminate.
  Qed.
  Lemma tick_no_exception z u q mx ts fs tk mo lst : 1 <= mx -> good u q -> no_skip z ->
    fs_run u q mx ts fs -> in_order z (ts ++ [tk]) -> fs_inds fs = [] ->
    (forall t, t ∈ ts ++ [tk] -> WALL_MIN <= tk_wall t) -> (u = YEAR -> q <= w_year (tk_wall tk)) ->
    (forall e, next_boundary u q (tk_wall tk) e -> e <= WALL_MAX) ->
    exists fs', fs_on_new_tick (gap_fuel fs tk) fs tk mo lst = (fs', Ok ()).
  Proof.
    intros Hmx Hg Hz Hr Ho Hi Hmin Hy Hmax. pose proof Hg as (Hu & Hq & Hok).
    pose proof (in_order_snoc _ _ _ Ho) as (Ho1 & Htz & Hle).
    pose proof (fs_run_wf _ _ _ _ _ Hmx Hr) as (W1 & W2 & W3 & W4 & _). assert (1 <= fs_max fs) as Hmx' by lia.
    assert (forall (p : fset F * res ()), snd p = Ok () -> exists fs', p = (fs', Ok ())) as Hsnd by (intros [? ?] [= ->]; eauto).
    apply Hsnd. clear Hsnd.
    assert (snd (if is_frame_over_timed fs tk then create_new_frame_timed (gap_fuel fs tk) fs tk mo else add_tick_to_last fs tk mo) = Ok ()) as Hgo;
      [|unfold fs_on_new_tick; rewrite W3; destruct u; [congruence|..]; exact Hgo].
    destruct (is_frame_over_timed fs tk) eqn:Eo.
    2:{ unfold add_tick_to_last. pose proof (current_prev_ok fs Hmx' W1) as Hc. destruct (fs_current_id fs) as [i|]; [|auto].
        simpl in Hc. destruct (lookup_lt_is_Some_2 (fs_heap fs) i Hc) as [cur ->]. unfold frame_on_new_tick. rewrite Hi. reflexivity. }
    destruct (start_bnd u q (tk_wall tk) Hg) as (k & Ek & Hk).
    assert (WALL_MIN <= tk_wall tk <= WALL_MAX) as Hrange.
    { split; [apply Hmin; set_solver|]. specialize (Hmax (bnd u q (k + 1))).
      assert (next_boundary u q (tk_wall tk) (bnd u q (k + 1))) as Hn; [|specialize (Hmax Hn); lia].
      split; [apply boundary_bnd; eauto|]. split; [lia|]. intros b Hb Hlt. apply boundary_bnd in Hb; auto. destruct Hb as [j ->].
      apply bnd_mono_le; auto. assert (k < j); [|lia]. apply (bnd_inj_lt u q); auto. lia. }
    destruct (frame_start_total u q (tk_dt tk) Hg Hrange Hy) as [start Es].
    destruct (start_at z u q Hg (tk_dt tk) start Htz Es) as (k' & Est & Hk').
    assert (k' = k) as -> by (apply (bnd_index u q k' k (tk_wall tk)); auto).
    assert (bnd u q (k + 1) <= WALL_MAX) as Hmaxk.
    { apply Hmax. split; [apply boundary_bnd; eauto|]. split; [lia|]. intros b Hb Hlt. apply boundary_bnd in Hb; auto. destruct Hb as [j ->].
      apply bnd_mono_le; auto. assert (k < j); [|lia]. apply (bnd_inj_lt u q); auto. lia. }
    assert (WALL_MIN <= bnd u q k) as Hmink.
    { subst start. clear -Es Hu Hq. revert Es. unfold get_frame_start, pymod, arrow_sub_td, w_add, w_replace_first. cbv zeta.
      destruct (Z.eqb_spec q 0) as [Eq|_]; [lia|]. cbn [rbind].
      assert (forall x, (let! w := if in_range x then Ok x else Err OverflowError in Ok (arrow_of_wall (ar_tz (tk_dt tk)) w)) =
        Ok (arrow_of_wall z (bnd u q k)) -> WALL_MIN <= bnd u q k) as Hx.
      { intros x. destruct (in_range x) eqn:Ex; [|discriminate]. apply in_range_spec in Ex. simpl. intros E. injection E as _ E _. lia. }
      assert (forall y m, (let! s := if (1 <=? y) && (y <=? 9999) && (1 <=? m) && (m <=? 12) then Ok (w_of_date y m 1) else Err ValueError in
        Ok (arrow_of_wall (ar_tz (tk_dt tk)) s)) = Ok (arrow_of_wall z (bnd u q k)) -> WALL_MIN <= bnd u q k) as Hm.
      { intros y m. destruct (_ && _) eqn:Ey; [|discriminate]. simpl. intros E. injection E as _ E _. rewrite <- E.
        rewrite !andb_true_iff, !Z.leb_le in Ey. unfold w_of_date. rewrite wall_min_month.
        replace (days_from_civil y m 1) with (month_first (12 * y + (m - 1))).
        - destruct (Z.eq_dec 12 (12 * y + (m - 1))) as [<-|]; [lia|]. pose proof (month_first_mono 12 (12 * y + (m - 1)) ltac:(lia)). us. lia.
        - unfold month_first. f_equal; [|].
          + rewrite Z.add_comm, Z.mul_comm, Z_div_plus_full, Z.div_small by lia. lia.
          + replace (12 * y + (m - 1)) with (m - 1 + y * 12) by lia. rewrite Z_mod_plus_full, Z.mod_small by lia. lia. }
      destruct u; eauto; congruence. }
    destruct (frame_end_total u q start Hg) as [e1 Ee].
    { rewrite Est. simpl. apply boundary_bnd; eauto. }
    { rewrite Est. exact Hmink. }
    { rewrite Est. simpl. intros e (E1 & E2 & E3). pose proof (E3 (bnd u q (k + 1)) ltac:(apply boundary_bnd; eauto) ltac:(apply bnd_mono; auto; lia)). lia. }
    unfold create_new_frame_timed. rewrite W3, W4, Es, Ee.
    assert (resolves_forward z) as Hzf by (intros w; rewrite Hz; lia).
    assert (ends_in z (bars fs)) as Hends.
    { destruct (decide (ts = [])) as [->|Hne].
      - apply fs_run_bars in Hr as [[_ ->]|(? & ? & ? & E & _)]; auto; [constructor|destruct x; discriminate].
      - destruct (BI_run z u q Hg Hz mx ts fs Hmx Hr Ho1 Hne) as (k0 & [B1 _ _ _] & _). apply Forall_lookup. intros i b Hb e He.
        destruct (B1 i b Hb) as (_ & E2 & _). rewrite E2 in He. now injection He as <-. }
    assert (ar_tz start = z /\ ar_wall start <= ar_wall (tk_dt tk)) as [S1 S2] by (rewrite Est; split; [auto|apply Hk']).
    destruct (fill_terminates z fs tk mo start (gap_fuel fs tk)) as [r Er]; auto; try congruence; try lia.
    pose proof (fill_loop z start mo _ fs _ ltac:(congruence) ltac:(lia) W1 Hends Er) as Hl.
    rewrite Er. apply ploop_inr in Er as (n & a & _ & Ha & Hra).
    assert (wf a /\ same_conf fs a /\ rtc (gap_bar u q start) (bars fs) (bars a)) as (A1 & A2 & A3).
    { clear -Ha W1 W3 W4 Hmx'. revert a Ha. induction n as [|n IH]; intros a Ha.
      - inversion Ha; subst. split; [auto|]. split; [apply same_conf_refl|apply rtc_refl].
      - replace (S n) with (n + 1)%nat in Ha by lia. apply nsteps_split in Ha as (b & Hb & Hc).
        inversion Hc as [|? ? ? ? Hc1 Hc2]; subst. inversion Hc2; subst. destruct (IH _ Hb) as (X1 & X2 & X3).
        pose proof (fill_step_bars start mo b) as Hf. unfold pstep in Hc1. rewrite Hc1 in Hf.
        pose proof X2 as (_ & C2 & C3 & C4 & _). rewrite C2, C3, C4 in Hf. destruct (Hf Hmx' X1) as (Y1 & Y2 & Y3).
        split; auto. split; [eapply same_conf_trans; eauto|]. eapply rtc_r; eauto. }
    pose proof A2 as (_ & C1 & C2 & C3 & _ & C4). assert (1 <= fs_max a) as Hmxa by lia.
    destruct r as [s [[]|x]].
    - simpl in Hl. destruct Hl as (L1 & (_ & _ & _ & L2 & _ & L3) & _). apply create_no_ind; auto; [lia|congruence].
    - exfalso. pose proof (current_bar a Hmxa A1) as Hcb. unfold fill_step in Hra. destruct (fs_current a) as [cur|]; [|discriminate].
      simpl in Hcb.
      assert (ts <> []) as Hne.
      { intros ->. apply fs_run_bars in Hr as [[_ E]|(? & ? & ? & E & _)]; auto; [|destruct x0; discriminate].
        rewrite E in A3. apply rtc_inv in A3 as [A3|(y & (b & e & e' & Hb & _) & _)]; [rewrite <- A3 in Hcb|]; discriminate. }
      destruct (BI_run z u q Hg Hz mx ts fs Hmx Hr Ho1 Hne) as (k0 & HB & _).
      assert (k0 + Z.of_nat (length (bars fs)) <= k) as Hk0.
      { destruct HB as [B1 _ _ (b & t & B4 & _)]. pose proof (current_bar fs Hmx' W1) as Hcf. rewrite B4 in Hcf.
        unfold is_frame_over_timed in Eo. destruct (fs_current fs) as [cf|]; [|discriminate]. injection Hcf as ->.
        apply last_Some in B4 as [l El]. destruct (B1 (length l) (bar_of cf)) as (_ & E2 & _).
        - rewrite El, lookup_app_r, Nat.sub_diag by lia. auto.
        - simpl in E2. rewrite E2 in Eo. unfold arrow_geb in Eo. apply negb_true_iff in Eo.
          rewrite arrow_ltb_same in Eo by auto. apply Z.ltb_ge in Eo. simpl in Eo. rewrite El, app_length. simpl.
          enough (k0 + Z.of_nat (length l) + 1 < k + 1) by lia. apply (bnd_inj_lt u q); auto. unfold tk_wall in *. lia. }
      rewrite Est in A3. destruct (BI_gaps z u q Hg Hz ts k0 _ k _ HB A3 Hk0) as [HBa _].
      destruct HBa as [B1 B2 _ _]. pose proof Hcb as Hcb'. apply last_Some in Hcb' as [l El]. destruct (B1 (length l) (bar_of cur)) as (_ & E2 & _).
      { rewrite El, lookup_app_r, Nat.sub_diag by lia. auto. }
      simpl in E2. rewrite E2 in Hra. destruct (arrow_ltb _ start) eqn:El2; [|discriminate].
      rewrite Est in El2. apply at_ltb in El2; auto.
      destruct (frame_end_total u q (arrow_of_wall z (bnd u q (k0 + Z.of_nat (length l) + 1))) Hg) as [e' Ee'].
      { simpl. apply boundary_bnd; eauto. }
      { simpl. destruct ts as [|t ts]; [congruence|]. pose proof (B2 t ltac:(set_solver)) as Hb. pose proof (Hmin t ltac:(set_solver)).
        rewrite El, app_length in Hb. simpl in Hb. replace (k0 + Z.of_nat (length l + 1)) with (k0 + Z.of_nat (length l) + 1) in Hb by lia. lia. }
      { simpl. intros e (E1 & E3 & E4). pose proof (E4 (bnd u q k) ltac:(apply boundary_bnd; eauto) ltac:(apply bnd_mono; auto; lia)).
        pose proof (bnd_mono u q k (k + 1) Hg ltac:(lia)). lia. }
      rewrite C1, C2, W3, W4, Ee' in Hra.
      pose proof (create_no_ind a (fr_last cur) (arrow_of_wall z (bnd u q (k0 + Z.of_nat (length l) + 1))) (Some e') mo Hmxa A1 ltac:(congruence)) as Hcr.
      destruct (create_new_frame _ _ _ _ _) as [y r]. simpl in Hcr. subst r. discriminate.
  Qed.

  (** ** Tick-count frames *)
  Definition chunk (n : nat) (i : nat) (ts : list (tick F)) : list (tick F) := take n (drop (i * n) ts).
  Record BT (n : nat) (ts : list (tick F)) (bs : list (bar (F:=F))) : Prop := {
    bt_bar : forall i b, bs !! i = Some b -> bsum (chunk n i ts) b;
    bt_len : (length ts <= length bs * n)%nat;
    bt_len' : bs <> [] -> ((length bs - 1) * n < length ts)%nat }.
  Lemma bt_run q mx ts fs : 1 <= mx -> 1 <= q -> fs_run_epic TICK q mx ts fs ->
    wf fs /\ fs_max fs = mx /\ fs_unit fs = TICK /\ fs_q fs = q /\ BT (Z.to_nat q) ts (bars fs).
  Proof.
    intros Hmx Hq Hr. induction Hr as [ref fs E|ts fs i Hr IH|ts fs e Hr IH|ts fs fuel tk mo fs' Hr IH E].
    - apply fset_init_wf in E as (E1 & E2 & E3 & E4 & E5 & _). repeat (split; [auto|]). unfold bars. rewrite E2. split.
      + intros i b Hi. simpl in Hi. rewrite lookup_nil in Hi. discriminate.
      + simpl. lia.
      + simpl. congruence.
    - destruct (add_indicator_frames fs i) as (E1 & E2 & E4 & E5 & E3). unfold wf, bars in *. rewrite E1, E2, E3, E4, E5. exact IH.
    - exact IH.
    - destruct IH as (I1 & I2 & I3 & I4 & [T1 T2 T3]). assert (1 <= fs_max fs) as Hmx' by lia.
      pose proof (fs_tick_wf _ _ _ _ _ _ _ Hmx' I1 E) as [E1 (_ & E3 & E4 & E2 & _)].
      split; [auto|]. split; [congruence|]. split; [congruence|]. split; [congruence|].
      unfold fs_on_new_tick in E. rewrite I3 in E. unfold is_frame_over_tick in E. rewrite Z.ltb_irrefl, I4 in E.
      pose proof (current_bar fs Hmx' I1) as Hcb. set (n := Z.to_nat q) in *. assert (1 <= n)%nat as Hn by lia.
      assert (forall i, (S i * n <= length ts)%nat -> chunk n i (ts ++ [tk]) = chunk n i ts) as Hsame.
      { intros i Hi. unfold chunk. rewrite drop_app_le by lia. rewrite take_app_le by (rewrite drop_length; lia). auto. }
      assert (forall b, last (bars fs) = Some b -> exists l, bars fs = l ++ [b] /\ bsum (chunk n (length l) ts) b /\ (length l * n < length ts <= (length l + 1) * n)%nat) as Hlast.
      { intros b Hb. apply last_Some in Hb as [l El]. exists l. split; auto. split.
        - apply T1. rewrite El, lookup_app_r, Nat.sub_diag by lia. auto.
        - rewrite El, app_length in T2, T3. simpl in T2, T3. specialize (T3 ltac:(destruct l; discriminate)).
          replace (length l + 1 - 1)%nat with (length l) in T3 by lia. lia. }
      destruct (fs_current fs) as [cur|] eqn:Ecur.
      + simpl in Hcb. rewrite orb_false_r in E. destruct (Hlast _ Hcb) as (l & El & (Hb1 & Hb2 & Hb3 & Hb4) & Hlen). simpl in Hb3.
        assert (length (chunk n (length l) ts) = (length ts - length l * n)%nat) as Hcl.
        { unfold chunk. rewrite take_length, drop_length. lia. }
        destruct (Z.leb_spec q (fr_nb cur)) as [L|L].
        * apply create_spec in E as [[_ [x Ex]]|(_ & _ & _ & ->)]; auto; [discriminate|].
          assert (length ts = (length l + 1) * n)%nat as Hts by lia.
          rewrite El. split.
          -- intros i b Hi. apply lookup_app_Some in Hi as [Hi|[Hi1 Hi]].
             ++ pose proof (lookup_lt_Some _ _ _ Hi) as Hlt. rewrite app_length in Hlt. simpl in Hlt.
                rewrite Hsame by nia. apply T1. now rewrite El.
             ++ destruct (i - length (l ++ [bar_of cur]))%nat as [|j] eqn:Ei; [|destruct j; discriminate]. injection Hi as <-.
                assert (i = (length l + 1)%nat) as -> by (rewrite app_length in *; simpl in *; lia).
                unfold chunk. rewrite drop_app_ge by lia. rewrite Hts, Nat.sub_diag. simpl.
                rewrite take_ge by (simpl; lia). apply bsum_one.
          -- rewrite !app_length. simpl. lia.
          -- intros _. rewrite !app_length. simpl. nia.
        * apply add_tick_spec in E as (_ & _ & ->); auto. rewrite Hcb, El, app_length. simpl.
          replace (length l + 1 - 1)%nat with (length l) by lia. rewrite take_app.
          assert (length ts < (length l + 1) * n)%nat as Hts by lia. split.
          -- intros i b Hi. apply lookup_app_Some in Hi as [Hi|[Hi1 Hi]].
             ++ pose proof (lookup_lt_Some _ _ _ Hi) as Hlt. rewrite Hsame by nia. apply T1. rewrite El. now apply lookup_app_l_Some.
             ++ destruct (i - length l)%nat as [|j] eqn:Ei; [|destruct j; discriminate]. injection Hi as <-.
                assert (i = length l) as -> by lia.
                replace (chunk n (length l) (ts ++ [tk])) with (chunk n (length l) ts ++ [tk]); [apply bsum_snoc; exact (conj Hb1 (conj Hb2 (conj Hb3 Hb4)))|].
                unfold chunk. rewrite drop_app_le by lia. rewrite take_ge by (rewrite drop_length; lia).
                rewrite take_ge; auto. rewrite app_length, drop_length. simpl. lia.
          -- rewrite !app_length. simpl. lia.
          -- intros _. rewrite !app_length. simpl. replace (length l + 1 - 1)%nat with (length l) by lia. lia.
      + simpl in Hcb. apply last_None in Hcb. rewrite Hcb in T2. simpl in T2.
        apply create_spec in E as [[_ [x Ex]]|(_ & _ & _ & ->)]; auto; [discriminate|].
        assert (ts = []) as -> by (destruct ts; [auto|simpl in T2; lia]). rewrite Hcb. split.
        * intros i b Hi. destruct i; [|discriminate]. injection Hi as <-. unfold chunk. simpl. rewrite take_ge by (simpl; lia). apply bsum_one.
        * simpl. lia.
        * intros _. simpl. lia.
  Qed.
End more.
