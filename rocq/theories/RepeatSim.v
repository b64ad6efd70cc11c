(** C76: frame sets that differ by the numbers of ticks of their frames only answer the same ticks the same way. *)
From Verif Require Import EpicMoreProofs TimeframeProofs SimProofs.
From Verif Require Export RepeatProofs.
Open Scope Z_scope.

Section frames.
  Context {F : Type} `{Num F}.
  Implicit Types (fs : fset F) (f fr : frame F) (i : indicator F) (tk : tick F) (iv : ivalue F) (h : heap F).
  Hypothesis LT : less_than F.
  Notation RC := (recounted (F := F)).

  Lemma rc_find ref h h' : Forall2 RC h h' -> forall n o, find_previous n h' ref o = find_previous n h ref o.
  Proof.
    intros Hh. induction n as [|n IH]; intros [p|]; simpl; auto. pose proof (F2_lookup _ _ _ p Hh) as Hp. destruct (h !! p) as [g|], (h' !! p) as [g'|]; try easy.
    rewrite (rc_inds _ _ Hp), (rc_before _ _ Hp). destruct (dict_get _ _) as [[u|]|]; auto.
  Qed.
  Lemma rc_previous h h' f f' ref : Forall2 RC h h' -> RC f f' -> previous h' f' ref = previous h f ref.
  Proof. intros Hh Hf. unfold previous. rewrite <- (Forall2_length _ _ _ Hh), (rc_before _ _ Hf). now apply rc_find. Qed.
  Lemma rc_changes h h' f f' l : Forall2 RC h h' -> RC f f' -> extended_changes h' f' l = extended_changes h f l.
  Proof.
    intros Hh Hf. unfold extended_changes. rewrite (rc_before _ _ Hf). destruct (fr_prev f) as [p|]; [|auto]. pose proof (F2_lookup _ _ _ p Hh) as Hp.
    destruct (h !! p) as [g|], (h' !! p) as [g'|]; try easy. now rewrite (rc_last _ _ Hf), (rc_last _ _ Hp).
  Qed.
  Lemma rc_rsi h h' f f' n l o : Forall2 RC h h' -> RC f f' -> update_rsi h' f' n l o = update_rsi h f n l o.
  Proof. intros Hh Hf. unfold update_rsi. now rewrite (rc_changes h h' f f'). Qed.
  Lemma rc_data h h' f f' i : Forall2 RC h h' -> RC f f' -> of_library i -> build_data h' f' i = build_data h f i.
  Proof.
    intros Hh Hf Hk. unfold build_data, of_library in *. destruct (in_kind i) as [ha|ol|mp|n rp|mk tl]; auto; [| |easy].
    - rewrite (rc_previous h h' f f') by auto. destruct (previous h f (in_ref i)) as [[[p u]|]|e]; auto. simpl. pose proof (F2_lookup _ _ _ p Hh) as Hg.
      destruct (iv_data u); auto; destruct (h !! p) as [g|], (h' !! p) as [g'|]; try easy. unfold extended_closes. now rewrite (rc_last _ _ Hg).
    - destruct rp as [m|]; [|auto]. destruct (m =? 0); [auto|]. rewrite (rc_previous h h' f f') by auto. destruct (previous h f (in_ref i)) as [[[p u]|]|e]; auto; simpl.
      + pose proof (F2_lookup _ _ _ p Hh) as Hg. destruct (iv_data u); auto; destruct (h !! p) as [g|], (h' !! p) as [g'|]; try easy. rewrite (rc_changes h h' g g') by auto.
        destruct (extended_changes h g last_changes); [|auto]. simpl. now rewrite (rc_rsi h h' f f').
      + now rewrite (rc_rsi h h' f f').
  Qed.
  Lemma rc_build h h' f f' i mo : Forall2 RC h h' -> RC f f' -> of_library i -> build_value h' f' i mo = build_value h f i mo.
  Proof. intros Hh Hf Hk. unfold build_value. rewrite (rc_data h h' f f') by auto. now rewrite (rc_last _ _ Hf). Qed.
  Lemma rc_iv h h' f f' iv tk mo : Forall2 RC h h' -> RC f f' -> plain_data (iv_data iv) -> iv_on_new_tick h' f' iv tk mo = iv_on_new_tick h f iv tk mo.
  Proof.
    intros Hh Hf Hp. unfold iv_on_new_tick. cbv zeta. assert (iv_data (iv_base_tick iv tk mo) = iv_data iv) as -> by (unfold iv_base_tick; now destruct (negb _ || mo)).
    destruct (iv_data iv); auto; [|easy]. now rewrite (rc_rsi h h' f f').
  Qed.
  Lemma rc_set_inds f f' a : RC f f' -> RC (fr_set_inds f a) (fr_set_inds f' a).
  Proof. intros []. now constructor. Qed.
  Definition plain_frame f : Prop := forall k iv, dict_get (fr_inds f) k = Some (Some iv) -> plain_data (iv_data iv).
  Lemma plain_set f k v : plain_frame f -> match v with Some iv => plain_data (iv_data iv) | None => True end -> plain_frame (fr_set_inds f (dict_set (fr_inds f) k v)).
  Proof.
    intros Hf Hv j iv. simpl. rewrite dict_get_set. destruct (String.eqb k j); [|apply Hf]. intros [= ->]. exact Hv.
  Qed.
  Lemma rc_upsert h h' tk mo inds : Forall2 RC h h' -> (forall k i, (k, i) ∈ inds -> of_library i) -> forall f f', RC f f' -> plain_frame f ->
    RC (fst (upsert h f tk mo inds)) (fst (upsert h' f' tk mo inds)) /\ snd (upsert h' f' tk mo inds) = snd (upsert h f tk mo inds).
  Proof.
    intros Hh. induction inds as [|[ref i] inds IH]; intros Hl f f' Hf Hp; [now split|]. cbn [upsert]. rewrite (rc_inds _ _ Hf).
    assert (of_library i) as Hi by (apply (Hl ref); left). assert (forall k j, (k, j) ∈ inds -> of_library j) as Hl' by (intros k j Hj; apply (Hl k); now right).
    rewrite (rc_build h h' f f' i mo Hh Hf Hi).
    assert (forall v, build_value h f i mo = Ok v -> match v with Some iv => plain_data (iv_data iv) | None => True end) as Hb.
    { intros v Hv. apply build_plain in Hv; [|auto]. destruct v; [|exact I]. apply Hv. }
    destruct (dict_get (fr_inds f) ref) as [[u|]|] eqn:Eg.
    - rewrite (rc_iv h h' f f' u tk mo Hh Hf (Hp _ _ Eg)). destruct (iv_on_new_tick h f u tk mo) as [x|e] eqn:Ex; [|now split]. apply IH; [auto|now apply rc_set_inds|].
      apply plain_set; [auto|]. exact (proj1 (tick_plain h f u tk mo x (Hp _ _ Eg) Ex)).
    - destruct (build_value h f i mo) as [x|e] eqn:Ex; [|now split]. apply IH; [auto|now apply rc_set_inds|]. apply plain_set; [auto|now apply (Hb x)].
    - destruct (build_value h f i mo) as [x|e] eqn:Ex; [|now split]. apply IH; [auto|now apply rc_set_inds|]. apply plain_set; [auto|now apply (Hb x)].
  Qed.
  Lemma rc_tick f f' tk : RC f f' -> RC (frame_tick f tk) (frame_tick f' tk).
  Proof. intros [E1 E2 E3 E4 E5 E6 E7 E8 E9]. split; simpl; rewrite ?E2, ?E3; congruence. Qed.
  Lemma rc_next_set f f' n : RC f f' -> RC (fr_set_next f n) (fr_set_next f' n). Proof. intros []. constructor; simpl; auto. Qed.
  Lemma rc_prev_set f f' n : RC f f' -> RC (fr_set_prev f n) (fr_set_prev f' n). Proof. intros []. constructor; simpl; auto. Qed.
  Lemma rc_clean mx l : forall h h', Forall2 RC h h' -> let x := clean_old_frames mx h l in let y := clean_old_frames mx h' l in Forall2 RC x.1.1 y.1.1 /\ y.1.2 = x.1.2 /\ y.2 = x.2.
  Proof.
    induction l as [|a l IH]; intros h h' Hh; cbn [clean_old_frames]; [destruct (_ <=? mx); repeat split; auto|]. destruct (_ <=? mx); [repeat split; auto|]. destruct l as [|b l]; [repeat split; auto|].
    apply IH. apply F2_alter; [intros; now apply rc_next_set|]. apply F2_alter; [intros; now apply rc_prev_set|auto].
  Qed.
  Lemma rc_current s s' : fs_recounted s s' -> fs_current_id s' = fs_current_id s /\ match fs_current s, fs_current s' with Some x, Some y => RC x y | None, None => True | _, _ => False end.
  Proof.
    intros Hs. unfold fs_current, fs_current_id. rewrite (rs_frames _ _ Hs). split; [auto|]. destruct (last (fs_frames s)) as [j|]; [|auto]. apply F2_lookup. apply (rs_heap _ _ Hs).
  Qed.
  Lemma rc_set_frames s s' h h' l : fs_recounted s s' -> Forall2 RC h h' -> fs_recounted (fs_set_frames s h l) (fs_set_frames s' h' l).
  Proof. intros [] Hh. constructor; simpl; auto. Qed.
  Definition alike (x y : fset F * res unit) : Prop := fs_recounted x.1 y.1 /\ y.2 = x.2.
  Lemma rc_create s s' tk a e mo : sound_fs s -> fs_recounted s s' -> alike (create_new_frame s tk a e mo) (create_new_frame s' tk a e mo).
  Proof.
    intros S Hs. unfold create_new_frame. cbv zeta. destruct (rc_current s s' Hs) as [-> _]. rewrite (rs_inds _ _ Hs). set (p := fs_current_id s).
    pose proof (rc_upsert (fs_heap s) (fs_heap s') tk mo (fs_inds s) (rs_heap _ _ Hs) (so_lib s S) _ _ (rc_refl (frame_new tk a e p)) ltac:(intros k iv; discriminate)) as [Hf Hr].
    destruct (upsert (fs_heap s) _ tk mo _) as [fr r], (upsert (fs_heap s') _ tk mo _) as [fr' r']. simpl in Hf, Hr. subst r'. destruct r as [u|x]; [|now split].
    rewrite <- (Forall2_length _ _ _ (rs_heap _ _ Hs)), (rs_max _ _ Hs), (rs_frames _ _ Hs).
    set (h1 := match p with Some c => _ | None => fs_heap s end). set (h1' := match p with Some c => _ | None => fs_heap s' end).
    assert (Forall2 RC h1 h1') as H1. { unfold h1, h1'. destruct p; [|apply (rs_heap _ _ Hs)]. apply F2_alter; [intros; now apply rc_next_set|apply (rs_heap _ _ Hs)]. }
    assert (Forall2 RC (h1 ++ [fr]) (h1' ++ [fr'])) as H2 by (apply Forall2_app; [auto|constructor; [auto|constructor]]).
    pose proof (rc_clean (fs_max s) (fs_frames s ++ [length (fs_heap s)]) _ _ H2) as Hc. cbv zeta in Hc.
    destruct (clean_old_frames (fs_max s) (h1 ++ [fr]) _) as [[h2 l2] r2], (clean_old_frames (fs_max s) (h1' ++ [fr']) _) as [[h2' l2'] r2']. simpl in Hc. destruct Hc as (Hh & -> & ->).
    split; [now apply rc_set_frames|auto].
  Qed.
  Definition sr s s' : Prop := sound_fs s /\ fs_recounted s s'.
  Definition rel_end (x y : fset F + fset F * res unit) : Prop :=
    match x, y with
    | inl s, inl s' => sr s s'
    | inr (s, r), inr (s', r') => fs_recounted s s' /\ r' = r /\ match r with Ok _ => sound_fs s | Err _ => True end
    | _, _ => False
    end.
  Lemma rc_fill a mo s s' : sr s s' -> rel_end (fill_step a mo s) (fill_step a mo s').
  Proof.
    intros [S Hs]. unfold fill_step. destruct (rc_current s s' Hs) as [_ Hc]. destruct (fs_current s) as [c|], (fs_current s') as [c'|]; try easy.
    rewrite (rc_end _ _ Hc). destruct (fr_end c) as [e|]; [|now split]. destruct (arrow_ltb e a); [|now split]. rewrite (rs_unit _ _ Hs), (rs_q _ _ Hs).
    destruct (get_frame_end (fs_unit s) (fs_q s) e) as [g|x] eqn:Eg; [|now split]. rewrite (rc_last _ _ Hc).
    pose proof (rc_create s s' (fr_last c) e (Some g) mo S Hs) as [R E]. destruct (create_new_frame s _ _ _ _) as [s1 r] eqn:Ec, (create_new_frame s' _ _ _ _) as [s1' r']. simpl in R, E. subst r'.
    destruct r as [[]|]; [|now split]. split; [eapply so_create; eauto|auto].
  Qed.
  Lemma rc_loop p (f g : fset F -> fset F + fset F * res unit) : (forall s s', sr s s' -> rel_end (f s) (g s')) -> forall s s', sr s s' -> rel_end (ploop p f s) (ploop p g s').
  Proof.
    intros Hfg. induction p as [p IH|p IH|]; intros s s' Hs; simpl; [| |now apply Hfg].
    - pose proof (Hfg s s' Hs) as T1. destruct (f s) as [a|[a r]], (g s') as [b|[b r']]; try easy.
      pose proof (IH a b T1) as T2. destruct (ploop p f a) as [a1|[a1 r]], (ploop p g b) as [b1|[b1 r']]; try easy; now apply IH.
    - pose proof (IH s s' Hs) as T2. destruct (ploop p f s) as [a1|[a1 r]], (ploop p g s') as [b1|[b1 r']]; try easy; now apply IH.
  Qed.
  Lemma rc_timed p s s' tk mo : sr s s' -> alike (create_new_frame_timed p s tk mo) (create_new_frame_timed p s' tk mo).
  Proof.
    intros [S Hs]. unfold create_new_frame_timed. rewrite (rs_unit _ _ Hs), (rs_q _ _ Hs).
    destruct (get_frame_start (fs_unit s) (fs_q s) (tk_dt tk)) as [a|x]; [|now split]. destruct (get_frame_end (fs_unit s) (fs_q s) a) as [e|x]; [|now split].
    pose proof (rc_loop p _ _ (fun s s' => rc_fill a mo s s') s s' (conj S Hs)) as Hl.
    destruct (ploop p (fill_step a mo) s) as [s1|[s1 r]], (ploop p (fill_step a mo) s') as [s1'|[s1' r']]; try easy; simpl in Hl.
    - destruct Hl as [_ Hl]. now split.
    - destruct Hl as (Hl & -> & Hr). destruct r as [[]|]; [|now split]. now apply rc_create.
  Qed.
  Lemma rc_add s s' tk mo : sound_fs s -> fs_recounted s s' -> alike (add_tick_to_last s tk mo) (add_tick_to_last s' tk mo).
  Proof.
    intros S Hs. unfold add_tick_to_last. destruct (rc_current s s' Hs) as [-> _]. destruct (fs_current_id s) as [j|]; [|now split].
    pose proof (F2_lookup _ _ _ j (rs_heap _ _ Hs)) as Hi. destruct (fs_heap s !! j) as [f|] eqn:Ef, (fs_heap s' !! j) as [f'|]; try easy. unfold frame_on_new_tick. rewrite (rs_inds _ _ Hs).
    pose proof (rc_upsert (fs_heap s) (fs_heap s') tk mo (fs_inds s) (rs_heap _ _ Hs) (so_lib s S) _ _ (rc_tick f f' tk Hi)) as Hu.
    destruct Hu as [Hf Hr]. { intros k iv Hk. pose proof (slot_sound s j f k S Ef) as X. unfold slot in X. simpl in Hk. rewrite Hk in X. apply X. }
    destruct (upsert (fs_heap s) _ tk mo _) as [fr r], (upsert (fs_heap s') _ tk mo _) as [fr' r']. simpl in Hf, Hr. subst r'. rewrite (rs_frames _ _ Hs).
    split; [|auto]. apply rc_set_frames; [auto|]. apply Forall2_insert; [apply (rs_heap _ _ Hs)|auto].
  Qed.
  Lemma rc_over s s' tk : fs_recounted s s' -> is_frame_over_timed s' tk = is_frame_over_timed s tk.
  Proof.
    intros Hs. unfold is_frame_over_timed. destruct (rc_current s s' Hs) as [_ Hc]. destruct (fs_current s) as [c|], (fs_current s') as [c'|]; try easy. now rewrite (rc_end _ _ Hc).
  Qed.
  Lemma rc_fuel s s' tk : fs_recounted s s' -> gap_fuel s' tk = gap_fuel s tk.
  Proof.
    intros Hs. unfold gap_fuel. destruct (rc_current s s' Hs) as [_ Hc]. destruct (fs_current s) as [c|], (fs_current s') as [c'|]; try easy. now rewrite (rc_end _ _ Hc).
  Qed.
  Lemma rc_fs p s s' tk mo l l' : sound_fs s -> fs_recounted s s' -> alike (fs_on_new_tick p s tk mo l) (fs_on_new_tick p s' tk mo l').
  Proof.
    intros S Hs. assert (alike (if is_frame_over_timed s tk then create_new_frame_timed p s tk mo else add_tick_to_last s tk mo) (if is_frame_over_timed s' tk then create_new_frame_timed p s' tk mo else add_tick_to_last s' tk mo)) as Hg.
    { rewrite (rc_over s s' tk Hs). destruct (is_frame_over_timed s tk); [now apply rc_timed|now apply rc_add]. }
    unfold fs_on_new_tick. rewrite (rs_unit _ _ Hs). pose proof (so_unit s S). destruct (fs_unit s); auto. easy.
  Qed.
  Lemma rs_refl (s : fset F) : fs_recounted s s. Proof. split; auto. apply Forall2_same_length_lookup_2; [auto|]. intros j x y Hx Hy. assert (x = y) as -> by congruence. apply rc_refl. Qed.
  Lemma rc_trans (f g k : frame F) : RC f g -> RC g k -> RC f k. Proof. intros [] []. split; congruence. Qed.
  Lemma rs_trans (s t u : fset F) : fs_recounted s t -> fs_recounted t u -> fs_recounted s u.
  Proof.
    intros [A1 A2 A3 A4 A5 A6 A7 A8] [B1 B2 B3 B4 B5 B6 B7 B8]. split; try congruence. clear -A6 B6. revert B6. generalize (fs_heap u) as z. induction A6 as [|a b x y Ha Hy IH]; intros z Hz; inversion Hz; subst; constructor; [eapply rc_trans; eauto|auto].
  Qed.
  Lemma rs_sound (s s' : fset F) : sound_fs s -> fs_recounted s s' -> sound_fs s'.
  Proof.
    intros S [R1 R2 R3 R4 R5 R6 R7 R8]. destruct S as [S1 S2 S3 S4 S5 S6 S7 S8 S9].
    assert (forall ref, vals ref s' = vals ref s) as Hv. { intros ref. unfold vals. symmetry. clear -R6. induction R6 as [|a b x y Ha Hy IH]; [reflexivity|]. simpl. f_equal; [|exact IH]. unfold slot. now rewrite (rc_inds _ _ Ha). }
    split; try congruence.
    2: { intros k i. rewrite R8. apply S4. }
    2: { intros b Hb. unfold bars in Hb. apply elem_of_list_fmap in Hb as (f & -> & Hf). apply elem_of_list_lookup in Hf as [j Hf]. pose proof (F2_lookup _ _ _ j R6) as Hi. rewrite Hf in Hi. destruct (fs_heap s !! j) as [g|] eqn:Eg; [|easy].
      simpl. rewrite (rc_high _ _ Hi), (rc_low _ _ Hi). apply (S5 (bar_of g)). unfold bars. apply (elem_of_list_lookup_2 _ j). now rewrite list_lookup_fmap, Eg. }
    2: { intros ref v. rewrite Hv. apply S6. }
    destruct S1 as [[L1 L2 L3 L4] K]. pose proof (Forall2_length _ _ _ R6) as El. unfold FramesProofs.wf. rewrite R7, R4, <- El. split; [|exact K]. split; rewrite <- ?El; auto.
    - intros j f Hf Hj. pose proof (F2_lookup _ _ _ j R6) as Hi. rewrite Hf in Hi. destruct (fs_heap s !! j) as [g|] eqn:Eg; [|easy]. rewrite (rc_before _ _ Hi), (rc_after _ _ Hi). eauto.
    - intros j f Hf Hj. pose proof (F2_lookup _ _ _ j R6) as Hi. rewrite Hf in Hi. destruct (fs_heap s !! j) as [g|] eqn:Eg; [|easy]. rewrite (rc_before _ _ Hi), (rc_after _ _ Hi). eauto.
  Qed.
End frames.
