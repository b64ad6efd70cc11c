(** C76: quotes delivered more than once. *)
From Verif Require Import EpicMoreProofs TimeframeProofs.
From Verif Require Export SpecRepeat IndicatorProofs ChartProofs.
Open Scope Z_scope.

Section frames.
  Context {F : Type} `{Num F}.
  Implicit Types (fs : fset F) (f fr : frame F) (i : indicator F) (tk : tick F) (iv : ivalue F).
  Hypothesis LT : less_than F.

  (** ** What frame sets of library indicators keep *)
  Definition plain_data (d : idata F) : Prop := match d with DCustom _ _ => False | _ => True end.
  Definition sound_value iv : Prop := fltb (tk_value (iv_high iv)) (tk_value (iv_low iv)) = false /\ plain_data (iv_data iv).
  Definition sound_slot (v : option (ivalue F)) : Prop := match v with Some iv => sound_value iv | None => True end.
  Record sound_fs fs : Prop := {
    so_wf : FramesProofs.wf fs; so_max : 1 <= fs_max fs; so_inds : inds_ok (fs_inds fs); so_lib : forall k i, (k, i) ∈ fs_inds fs -> of_library i;
    so_bars : forall b, b ∈ bars fs -> fltb (tk_value (b_high b)) (tk_value (b_low b)) = false;
    so_vals : forall ref v, v ∈ vals ref fs -> sound_slot v;
    so_unit : fs_unit fs <> TICK; so_q : 0 < fs_q fs; so_ok : unit_ok (fs_unit fs) (fs_q fs) }.

  Lemma build_plain h fr i mo v : of_library i -> build_value h fr i mo = Ok v ->
    match v with Some iv => iv_mopen iv = in_mopen i /\ negb (in_mopen i) || mo = true /\ iv_ref iv = in_ref i /\ iv_first iv = fr_last fr /\ iv_high iv = fr_last fr /\ iv_low iv = fr_last fr /\ iv_last iv = fr_last fr /\
      build_data h fr i = Ok (iv_data iv) /\ plain_data (iv_data iv) | None => negb (in_mopen i) || mo = false end.
  Proof.
    intros Hl. unfold build_value. destruct (negb (in_mopen i) || mo); [|now intros [= <-]]. destruct (build_data h fr i) as [d|x] eqn:Ed; [|discriminate]. simpl. intros [= <-]. simpl. repeat (split; [reflexivity|]).
    unfold of_library, build_data in *. destruct (in_kind i) as [ha|ol|mp|n rp|mk tl]; [injection Ed as <-; exact I|injection Ed as <-; exact I| | |easy].
    - destruct (previous _ _ _) as [o|]; [|discriminate]. simpl in Ed. destruct (match o with Some _ => _ | None => _ end); [|discriminate]. simpl in Ed. injection Ed as <-. exact I.
    - destruct rp as [m|]; [|discriminate]. destruct (m =? 0); [discriminate|]. destruct (previous _ _ _) as [o|]; [|discriminate]. simpl in Ed.
      destruct (match o with Some _ => _ | None => _ end); [|discriminate]. simpl in Ed. destruct (update_rsi _ _ _ _ _); [|discriminate]. simpl in Ed. injection Ed as <-. exact I.
  Qed.
  Lemma higher (b c d : F) : fltb b d = false -> fltb (if fltb b c then c else b) (if fltb b c then d else if fltb c d then c else d) = false.
  Proof.
    destruct LT as [Li Lt]. intros Hb. destruct (fltb b c) eqn:E1.
    - destruct (fltb c d) eqn:E2; [|auto]. rewrite (Lt _ _ _ E1 E2) in Hb. congruence.
    - destruct (fltb c d) eqn:E2; auto.
  Qed.
  Lemma tick_plain h fr iv tk mo iv' : plain_data (iv_data iv) -> iv_on_new_tick h fr iv tk mo = Ok iv' ->
    plain_data (iv_data iv') /\ iv_set_data (iv_base_tick iv tk mo) (iv_data iv') = iv' /\
    match iv_data iv, iv_data iv' with DRSI n lc old, DRSI n' lc' v => n' = n /\ lc' = lc /\ update_rsi h fr n lc old = Ok v | DRSI _ _ _, _ => False | a, b => b = a end.
  Proof.
    intros Hp. unfold iv_on_new_tick. assert (iv_data (iv_base_tick iv tk mo) = iv_data iv) as Ed by (unfold iv_base_tick; now destruct (negb _ || mo)). rewrite Ed.
    assert (iv_set_data (iv_base_tick iv tk mo) (iv_data iv) = iv_base_tick iv tk mo) as Es by (rewrite <- Ed; now destruct (iv_base_tick iv tk mo)).
    destruct (iv_data iv) as [ha|ol|l|n lc old|tl d] eqn:Ei; [| | | |easy].
    1-3: intros [= <-]; rewrite Ed; repeat split; exact Es.
    destruct (update_rsi h fr n lc old) as [v|x] eqn:Eu; [|discriminate]. simpl. intros [= <-]. split; [exact I|]. split; [reflexivity|]. simpl. repeat split.
  Qed.
  Lemma base_sound iv tk mo : fltb (tk_value (iv_high iv)) (tk_value (iv_low iv)) = false -> fltb (tk_value (iv_high (iv_base_tick iv tk mo))) (tk_value (iv_low (iv_base_tick iv tk mo))) = false.
  Proof.
    intros Hs. unfold iv_base_tick. destruct (negb _ || mo); [|auto]. simpl. pose proof (higher (tk_value (iv_high iv)) (tk_value tk) (tk_value (iv_low iv)) Hs) as Hh.
    destruct (fltb (tk_value (iv_high iv)) (tk_value tk)); [auto|]. destruct (fltb (tk_value tk) (tk_value (iv_low iv))); auto.
  Qed.
  Lemma step_val_sound h fr i tk mo v v' : of_library i -> sound_slot v -> step_val h fr i tk mo v v' -> sound_slot v'.
  Proof.
    intros Hl Hv. destruct v as [iv|]; simpl.
    - intros (iv' & E & ->). destruct Hv as [Hv Hp]. destruct (tick_plain h fr iv tk mo iv' Hp E) as (P1 & P2 & _). split; [|auto]. rewrite <- P2. simpl. now apply base_sound.
    - intros E. apply build_plain in E; [|auto]. destruct v' as [iv|]; [|exact I]. destruct E as (_ & _ & _ & _ & E1 & E2 & _ & _ & Hp). split; [rewrite E1, E2; apply LT|auto].
  Qed.
  Lemma so_create fs tk s e mo fs' : sound_fs fs -> create_new_frame fs tk s e mo = (fs', Ok ()) -> sound_fs fs'.
  Proof.
    intros [] E. destruct (create_spec fs tk s e mo fs' _ so_max0 so_wf0 E) as [[_ [x Hx]]|(_ & W & (C1 & C2 & C3 & C4 & C5 & C6) & B)]; [discriminate|].
    split; rewrite ?C2, ?C3, ?C4, ?C6; auto.
    - intros b. rewrite B. intros [Hb|Hb]%elem_of_app; [auto|]. apply elem_of_list_singleton in Hb as ->. apply LT.
    - intros ref v. destruct (create_vals fs tk s e mo fs' ref so_max0 so_wf0 so_inds0 E) as (v1 & -> & Hv1). intros [Hv|Hv]%elem_of_app; [eauto|]. apply elem_of_list_singleton in Hv as ->.
      destruct (dict_get (fs_inds fs) ref) as [i|] eqn:Ei; [|now subst]. eapply (step_val_sound _ _ i tk mo None); [|exact I|exact Hv1]. eapply so_lib0, dict_get_elem, Ei.
  Qed.
  Lemma so_add fs tk mo fs' r : sound_fs fs -> add_tick_to_last fs tk mo = (fs', r) -> sound_fs fs'.
  Proof.
    intros [] E. destruct (add_tick_spec fs tk mo fs' r so_max0 so_wf0 E) as (W & (C1 & C2 & C3 & C4 & C5 & C6) & B).
    split; rewrite ?C2, ?C3, ?C4, ?C6; auto.
    - intros b. rewrite B. destruct (last (bars fs)) as [b0|] eqn:Eb; [|auto]. intros [Hb|Hb]%elem_of_app; [apply so_bars0; now apply elem_of_take in Hb as (j & Hj & _); apply elem_of_list_lookup_2 in Hj|].
      apply elem_of_list_singleton in Hb as ->. simpl. assert (b0 ∈ bars fs) as H0 by (rewrite last_lookup in Eb; eapply elem_of_list_lookup_2; eauto).
      pose proof (higher (tk_value (b_high b0)) (tk_value tk) (tk_value (b_low b0)) (so_bars0 b0 H0)) as Hh.
      destruct (fltb (tk_value (b_high b0)) (tk_value tk)); [auto|]. destruct (fltb (tk_value tk) (tk_value (b_low b0))); auto.
    - intros ref v Hv. pose proof (add_vals fs tk mo fs' r ref so_max0 so_wf0 so_inds0 E) as Ha. destruct (length (fs_heap fs)) as [|n]; [subst; eauto|].
      destruct Ha as (cur & v0 & v' & Hc & Hs & Ev & Hd). rewrite Ev in Hv. apply elem_of_app in Hv as [Hv|Hv]; [apply elem_of_take in Hv as (j & Hj & _); eapply so_vals0, elem_of_list_lookup_2; eauto|].
      apply elem_of_list_singleton in Hv as ->. assert (sound_slot v0) as S0. { apply (so_vals0 ref). unfold vals. apply (elem_of_list_lookup_2 _ n). rewrite list_lookup_fmap, Hc. simpl. now rewrite Hs. }
      destruct (dict_get (fs_inds fs) ref) as [i|] eqn:Ei; [|now subst]. destruct Hd as [Hd|[-> _]]; [|auto]. eapply step_val_sound; [|exact S0|exact Hd]. eapply so_lib0, dict_get_elem, Ei.
  Qed.
  Lemma so_steps fs fs' tk mo : rtc (estep tk mo) fs fs' -> sound_fs fs -> sound_fs fs'.
  Proof. intros R. induction R as [|a b c E R IH]; [auto|]. intros S. apply IH. destruct E as [fs cur s e fs' _ E|fs s e fs' E|fs fs' r E]; [eapply so_create|eapply so_create|eapply so_add]; eauto. Qed.
  Lemma so_tick fuel fs tk mo lst : sound_fs fs -> sound_fs (fst (fs_on_new_tick fuel fs tk mo lst)).
  Proof. intros S. destruct (fs_on_new_tick fuel fs tk mo lst) as [fs' r] eqn:E. eapply so_steps; [|exact S]. eapply tick_steps; eauto; apply S. Qed.
  Lemma so_gsteps mo fs fs' : rtc (gstep mo) fs fs' -> sound_fs fs -> sound_fs fs'.
  Proof. intros R. induction R as [|a b c (cur & s & e & _ & E) R IH]; [auto|]. intros S. apply IH. eapply so_create; eauto. Qed.
  Lemma so_indicator fs i : of_library i -> sound_fs fs -> sound_fs (fst (add_indicator fs i)).
  Proof.
    intros Hl []. destruct (add_indicator_frames fs i) as (E1 & E2 & E3 & E4 & E5). set (fs' := fst (add_indicator fs i)) in *.
    assert (exists j, in_ref j = in_ref i /\ of_library j /\ fs_inds fs' = dict_set (fs_inds fs) (in_ref j) j) as (j & J1 & J2 & J3).
    { unfold fs', add_indicator, of_library in *. destruct (in_kind i) as [ha|ol|mp|n rp|mk tl] eqn:Ek; [| | | |easy].
      1-3: exists i; rewrite Ek; repeat split.
      exists {| in_ref := in_ref i; in_mopen := in_mopen i; in_kind := KRSI n (Some (n * fs_q fs)) |}. repeat split. }
    split; rewrite ?E3, ?E4, ?E5; auto.
    - unfold FramesProofs.wf. now rewrite E1, E2, E5.
    - rewrite J3. now apply inds_ok_set.
    - intros k x. rewrite J3. intros Hx. apply LedgerProofs.dict_set_elem in Hx as [Hx|[= -> ->]]; eauto.
    - unfold bars. now rewrite E1.
    - unfold vals. now rewrite E1.
  Qed.
  Lemma so_epic fs e : sound_fs fs -> sound_fs (fs_set_epic fs e).
  Proof. intros []. split; auto. Qed.
  Lemma so_init u q ref mx fs : fset_init u q ref mx = Ok fs -> u <> TICK -> 0 < q -> 1 <= mx -> sound_fs fs.
  Proof.
    intros E Hu Hq Hm. destruct (fset_init_wf _ _ _ _ _ E) as (W & Eh & E1 & E2 & E3 & Ec). assert (fs_inds fs = []) as Ei by (unfold fset_init in E; destruct (check_unit u q); [now injection E as <-|discriminate]).
    split; rewrite ?E1, ?E2, ?E3, ?Ei; auto.
    - apply inds_ok_nil.
    - intros k i Hk. now apply elem_of_nil in Hk.
    - unfold bars. rewrite Eh. intros b Hb. now apply elem_of_nil in Hb.
    - unfold vals. rewrite Eh. intros r v Hv. now apply elem_of_nil in Hv.
    - now apply check_unit_spec.
  Qed.

  (** ** The same tick again *)
  Lemma dict_set_same {V} (d : dict V) k v : dict_get d k = Some v -> dict_set d k v = d.
  Proof. induction d as [|[a b] d IH]; simpl; [discriminate|]. destruct (String.eqb a k); [now intros [= ->]|]. intros E. now rewrite IH. Qed.
  Lemma upsert_keys h fr tk mo inds fr' : (forall k i, (k, i) ∈ inds -> in_ref i = k) -> upsert h fr tk mo inds = (fr', Ok ()) ->
    forall ref, dict_get (fr_inds fr) ref <> None \/ ref ∈ map fst inds -> dict_get (fr_inds fr') ref <> None.
  Proof.
    revert fr. induction inds as [|[k i] inds IH]; intros fr Hr E ref Hd; simpl in E.
    - injection E as <-. destruct Hd as [Hd|Hd]; [auto|]. now apply elem_of_nil in Hd.
    - assert (in_ref i = k) as Hk by (apply Hr; left). assert (forall a b, (a, b) ∈ inds -> in_ref b = a) as Hr' by (intros a b Hab; apply Hr; now right).
      assert (forall v, upsert h (fr_set_inds fr (dict_set (fr_inds fr) k v)) tk mo inds = (fr', Ok ()) -> dict_get (fr_inds fr') ref <> None) as Hc.
      { intros v Ev. eapply IH; [exact Hr'|exact Ev|]. simpl. rewrite dict_get_set. destruct (String.eqb_spec k ref) as [->|Hn]; [left; discriminate|]. destruct Hd as [Hd|Hd]; [auto|]. apply elem_of_cons in Hd as [Hd|Hd]; [|auto]. simpl in Hd. congruence. }
      destruct (dict_get (fr_inds fr) k) as [[iv|]|].
      + destruct (iv_on_new_tick h fr iv tk mo); [|discriminate]. eauto.
      + destruct (build_value h fr i mo); [|discriminate]. rewrite Hk in E. eauto.
      + destruct (build_value h fr i mo); [|discriminate]. rewrite Hk in E. eauto.
  Qed.
  Lemma upsert_settled h fr tk mo inds : (forall k i, (k, i) ∈ inds -> in_ref i = k /\ exists v, dict_get (fr_inds fr) k = Some v /\ step_val h fr i tk mo v v) ->
    upsert h fr tk mo inds = (fr, Ok ()).
  Proof.
    induction inds as [|[k i] inds IH]; intros Hs; [reflexivity|]. simpl. destruct (Hs k i ltac:(left)) as (Hk & v & Ev & Hv). rewrite Ev.
    assert (fr_set_inds fr (fr_inds fr) = fr) as Ef by now destruct fr. destruct v as [iv|]; simpl in Hv.
    - destruct Hv as (iv' & -> & [= <-]). rewrite (dict_set_same _ _ _ Ev), Ef. apply IH. intros a b Hab. apply Hs. now right.
    - rewrite Hv, Hk, (dict_set_same _ _ _ Ev), Ef. apply IH. intros a b Hab. apply Hs. now right.
  Qed.
  (** What the second delivery reads of the heap: the same changes, or no previous frame any more (values just built). *)
  Definition rereads h fr h' fr' (new : Prop) : Prop := (forall l, extended_changes h' fr' l = extended_changes h fr l) \/ fr_prev fr' = None /\ new.
  Lemma rsi_again h fr h' fr' n lc old v : update_rsi h fr n lc old = Ok v -> rereads h fr h' fr' (n <> 0) -> update_rsi h' fr' n lc v = Ok v.
  Proof.
    intros E. unfold update_rsi in *. intros [Hx|[Hx Hn]].
    - rewrite Hx. destruct (extended_changes h fr lc) as [l|x]; [|discriminate]. simpl in *. destruct (_ =? n); [|auto]. destruct (build_rsi n l); [|discriminate]. simpl in *. now injection E as <-.
    - unfold extended_changes. rewrite Hx. simpl. destruct n; [congruence|reflexivity|reflexivity].
  Qed.
  Lemma base_again iv tk mo : fltb (tk_value (iv_high iv)) (tk_value (iv_low iv)) = false -> let iv' := iv_base_tick iv tk mo in iv_base_tick iv' tk mo = iv'.
  Proof.
    intros Hs iv'. pose proof (base_sound iv tk mo Hs) as Hs'. fold iv' in Hs'. destruct LT as [Li Lt]. unfold iv' in *. clear iv'. unfold iv_base_tick in *. destruct (negb (iv_mopen iv) || mo) eqn:Em; [|now rewrite Em]. simpl in *. rewrite Em.
    destruct (fltb (tk_value (iv_high iv)) (tk_value tk)) eqn:E1.
    - rewrite Li, Hs'. f_equal. 
    - rewrite E1. destruct (fltb (tk_value tk) (tk_value (iv_low iv))) eqn:E2; [now rewrite Li|now rewrite E2].
  Qed.
  Lemma set_data_twice iv tk mo d : iv_base_tick (iv_set_data iv d) tk mo = iv_set_data (iv_base_tick iv tk mo) d.
  Proof. unfold iv_base_tick. simpl. now destruct (negb _ || mo). Qed.
  Lemma val_again h fr h' fr' i tk mo v v' : of_library i -> sound_slot v -> fr_last fr = tk -> step_val h fr i tk mo v v' ->
    rereads h fr h' fr' (v = None) -> step_val h' fr' i tk mo v' v'.
  Proof.
    intros Hl Hs El Hv Hr. destruct v as [iv|]; simpl in Hv.
    - destruct Hv as (iv' & E & ->). destruct Hs as [Hs Hp]. destruct (tick_plain h fr iv tk mo iv' Hp E) as (P1 & P2 & P3). exists iv'. split; [|auto].
      destruct Hr as [Hr|[_ Hr]]; [|discriminate]. unfold iv_on_new_tick. assert (iv_base_tick iv' tk mo = iv') as Eb. { rewrite <- P2 at 1. now rewrite set_data_twice, base_again. }
      rewrite Eb. destruct (iv_data iv') as [ha|ol|l|n lc old|tl d] eqn:Ed; try reflexivity; [|easy].
      destruct (iv_data iv) as [| | |n0 lc0 old0|]; try easy. destruct P3 as (-> & -> & P3). rewrite (rsi_again h fr h' fr' n0 lc0 old0 old P3) by now left. simpl. rewrite <- Ed. now destruct iv'.
    - pose proof (build_plain h fr i mo v' Hl Hv) as B. destruct v' as [iv|]; simpl.
      + destruct B as (B1 & B2 & B3 & B4 & B5 & B6 & B7 & B8 & B9). exists iv. split; [|auto]. unfold iv_on_new_tick. assert (iv_base_tick iv tk mo = iv) as Eb.
        { unfold iv_base_tick. rewrite B1, B2, B5, B6, El. rewrite !(proj1 LT). rewrite <- El, <- B7. destruct iv; simpl in *. congruence. }
        rewrite Eb. destruct (iv_data iv) as [ha|ol|l|n lc old|tl d] eqn:Ed; try reflexivity; [|easy].
        assert (n <> 0 /\ update_rsi h fr n lc None = Ok old) as [Hn Hu].
        { unfold build_data in B8. destruct (in_kind i) as [| |mp|p rp|]; try discriminate B8.
          - destruct (previous _ _ _) as [o|]; [|discriminate]. simpl in B8. destruct (match o with Some _ => _ | None => _ end); [|discriminate]. discriminate B8.
          - destruct rp as [m|]; [|discriminate]. destruct (Z.eqb_spec m 0); [discriminate|]. destruct (previous _ _ _) as [o|]; [|discriminate]. simpl in B8.
            destruct (match o with Some _ => _ | None => _ end); [|discriminate]. simpl in B8. destruct (update_rsi _ _ _ _ _) eqn:Eu; [|discriminate]. simpl in B8. injection B8 as <- <- <-. auto.
          - destruct (user_code _); discriminate B8. }
        rewrite (rsi_again h fr h' fr' n lc None old Hu); [simpl; rewrite <- Ed; now destruct iv|]. destruct Hr as [Hr|[Hr _]]; [now left|right; auto].
      + unfold build_value. now rewrite B.
  Qed.
  (** The frame of the tick is left as it is, apart from its number of ticks. *)
  Lemma frame_again f tk : fr_last f = tk -> fltb (tk_value (fr_high f)) (tk_value tk) = false -> fltb (tk_value tk) (tk_value (fr_low f)) = false -> recounted f (frame_tick f tk).
  Proof. intros El Hh Hl. split; unfold frame_tick; simpl; auto; now rewrite Hh, ?Hl. Qed.
  Lemma upsert_again h fr tk mo inds fr' h1 fr1 : inds_ok inds -> (forall k i, (k, i) ∈ inds -> of_library i) -> (forall ref, sound_slot (slot ref fr)) -> fr_last fr = tk ->
    upsert h fr tk mo inds = (fr', Ok ()) -> fr_inds fr1 = fr_inds fr' -> rereads h fr h1 fr1 (fr_inds fr = []) -> upsert h1 fr1 tk mo inds = (fr1, Ok ()).
  Proof.
    intros Hok Hlib Hs El E Ei Hr. apply upsert_settled. intros k i Hk. split; [now apply (io_ref _ Hok)|]. assert (dict_get inds k = Some i) as Eg by (apply elem_dict_get; [apply Hok|auto]).
    pose proof (upsert_val h fr tk mo inds fr' _ k Hok E) as Hv. rewrite Eg in Hv. destruct Hv as [Hv|[_ Hv]]; [|congruence].
    pose proof (upsert_keys h fr tk mo inds fr' (io_ref _ Hok) E k) as Hd. destruct (dict_get (fr_inds fr') k) as [v|] eqn:Ev; [|elim Hd; [right; apply elem_of_list_fmap; exists (k, i); auto|auto]].
    exists v. rewrite Ei. split; [auto|]. assert (slot k fr' = v) as Es by (unfold slot; rewrite Ev; now destruct v). rewrite Es in Hv. eapply val_again; eauto.
      destruct Hr as [Hr|[Hr Hn]]; [now left|right]. split; [auto|]. unfold slot. now rewrite Hn.
  Qed.

  Lemma rc_refl f : recounted f f.
  Proof. now split. Qed.
  Lemma recount_insert (h : heap F) n fr g : h !! n = Some fr -> recounted fr g -> Forall2 recounted h (<[n := g]> h).
  Proof.
    intros Hn Hg. apply Forall2_same_length_lookup_2; [now rewrite insert_length|]. intros j x y Hx Hy. destruct (Nat.eq_dec j n) as [->|Hne].
    - rewrite list_lookup_insert in Hy by now apply lookup_lt_Some in Hn. assert (x = fr) as -> by congruence. now injection Hy as <-.
    - rewrite list_lookup_insert_ne in Hy by auto. assert (x = y) as -> by congruence. apply rc_refl.
  Qed.
  Lemma ticked_frame f tk : fltb (tk_value (fr_high f)) (tk_value (fr_low f)) = false -> let g := frame_tick f tk in
    fr_last g = tk /\ fltb (tk_value (fr_high g)) (tk_value tk) = false /\ fltb (tk_value tk) (tk_value (fr_low g)) = false.
  Proof.
    intros Hs. destruct LT as [Li Lt]. simpl. split; [auto|]. destruct (fltb (tk_value (fr_high f)) (tk_value tk)) eqn:E1; (split; [auto|]).
    - destruct (fltb (tk_value tk) (tk_value (fr_low f))) eqn:E2; [|auto]. rewrite (Lt _ _ _ E1 E2) in Hs. congruence.
    - destruct (fltb (tk_value tk) (tk_value (fr_low f))) eqn:E2; auto.
  Qed.
  (** A frame set whose current frame just got the tick. *)
  Definition heard_last fs tk mo : Prop := exists n f, fs_current_id fs = Some n /\ fs_heap fs !! n = Some f /\ fr_last f = tk /\
    fltb (tk_value (fr_high f)) (tk_value tk) = false /\ fltb (tk_value tk) (tk_value (fr_low f)) = false /\
    upsert (fs_heap fs) (frame_tick f tk) tk mo (fs_inds fs) = (frame_tick f tk, Ok ()) /\
    match fr_end f with Some e => arrow_geb (tk_dt tk) e = false | None => False end.
  Lemma heard_again fs tk mo fuel lst : fs_unit fs <> TICK -> heard_last fs tk mo -> exists fs', fs_on_new_tick fuel fs tk mo lst = (fs', Ok ()) /\ fs_recounted fs fs'.
  Proof.
    intros Hu (n & f & Hc & Hf & El & E1 & E2 & Eu & Ee). exists (fs_set_frames fs (<[n := frame_tick f tk]> (fs_heap fs)) (fs_frames fs)). split.
    - assert (is_frame_over_timed fs tk = false) as Ho. { unfold is_frame_over_timed, fs_current. rewrite Hc, Hf. now destruct (fr_end f). }
      assert (add_tick_to_last fs tk mo = (fs_set_frames fs (<[n := frame_tick f tk]> (fs_heap fs)) (fs_frames fs), Ok ())) as Ha by (unfold add_tick_to_last, frame_on_new_tick; now rewrite Hc, Hf, Eu).
      unfold fs_on_new_tick. rewrite Ho. now destruct (fs_unit fs).
    - split; try reflexivity. simpl. eapply recount_insert; [exact Hf|]. now apply frame_again.
  Qed.
  Lemma bar_sound fs n f : sound_fs fs -> fs_heap fs !! n = Some f -> fltb (tk_value (fr_high f)) (tk_value (fr_low f)) = false.
  Proof. intros S Hf. apply (so_bars fs S (bar_of f)). unfold bars. apply (elem_of_list_lookup_2 _ n). now rewrite list_lookup_fmap, Hf. Qed.
  Lemma slot_sound fs n f ref : sound_fs fs -> fs_heap fs !! n = Some f -> sound_slot (slot ref f).
  Proof. intros S Hf. apply (so_vals fs S ref). unfold vals. apply (elem_of_list_lookup_2 _ n). now rewrite list_lookup_fmap, Hf. Qed.
  Lemma add_hears fs tk mo fs1 : sound_fs fs -> is_frame_over_timed fs tk = false -> add_tick_to_last fs tk mo = (fs1, Ok ()) -> heard_last fs1 tk mo.
  Proof.
    intros S Ho. unfold add_tick_to_last, is_frame_over_timed, fs_current in *. pose proof (wf_current fs (so_max fs S) (so_wf fs S)) as Hc. rewrite Hc in *.
    destruct (length (fs_heap fs)) as [|n] eqn:En; [discriminate|]. destruct (fs_heap fs !! n) as [cur|] eqn:Ecur; [|discriminate].
    unfold frame_on_new_tick. destruct (upsert _ _ _ _ _) as [fr r] eqn:Eu. intros [= <- ->]. pose proof (upsert_only_inds _ _ _ _ _ _ _ Eu) as Ef.
    destruct (ticked_frame cur tk (bar_sound fs n cur S Ecur)) as (T1 & T2 & T3). pose proof (lookup_lt_Some _ _ _ Ecur) as Hlt.
    exists n, fr. simpl. split; [exact Hc|]. split; [now apply list_lookup_insert|]. rewrite Ef. cbn [fr_last fr_high fr_low fr_end fr_set_inds]. split; [auto|]. split; [exact T2|]. split; [exact T3|]. rewrite <- Ef. split.
    - eapply (upsert_again (fs_heap fs) (frame_tick cur tk)); [apply S|apply S| | |exact Eu|reflexivity|].
      + intros ref. apply (slot_sound fs n cur ref S Ecur).
      + reflexivity.
      + left. intros l. unfold extended_changes. rewrite Ef. cbn [fr_prev fr_last fr_set_inds frame_tick]. destruct (fr_prev cur) as [p|] eqn:Ep; [|auto].
        assert (p < n)%nat as Hp. { destruct (so_wf fs S) as [[L1 L2 L3 L4] _]. destruct (Nat.lt_ge_cases n (length (fs_heap fs) - length (fs_frames fs))) as [Hn|Hn].
          - destruct (L3 n cur Ecur Hn). congruence.
          - destruct (L4 n cur Ecur Hn) as [Hq _]. rewrite Ep in Hq. destruct (Nat.eqb_spec n (length (fs_heap fs) - length (fs_frames fs))); [discriminate|]. injection Hq as ->. lia. }
        now rewrite list_lookup_insert_ne by lia.
    - simpl. destruct (fr_end cur); [exact Ho|discriminate].
  Qed.
  Lemma clean_inds mx l : forall (h h' : heap F) l' r, clean_old_frames mx h l = (h', l', r) -> fr_inds <$> h' = fr_inds <$> h.
  Proof.
    induction l as [|a l IH]; intros h h' l' r; simpl.
    - destruct (_ <=? _); intros [= <- <- <-]; auto.
    - destruct (_ <=? _); [intros [= <- <- <-]; auto|]. destruct l as [|b l]; [intros [= <- <- <-]; auto|]. intros E. apply IH in E. rewrite E.
      apply list_eq. intros j. rewrite !list_lookup_fmap. destruct (Nat.eq_dec a j) as [->|Hne]; [rewrite list_lookup_alter|rewrite (list_lookup_alter_ne _ _ a j) by auto];
        (destruct (Nat.eq_dec b j) as [->|Hne']; [rewrite list_lookup_alter|rewrite list_lookup_alter_ne by auto]); now destruct (h !! j).
  Qed.
  Lemma create_hears fs tk s e mo fs1 : sound_fs fs -> arrow_geb (tk_dt tk) e = false -> create_new_frame fs tk s (Some e) mo = (fs1, Ok ()) -> heard_last fs1 tk mo.
  Proof.
    intros S He E. pose proof (so_create fs tk s (Some e) mo fs1 S E) as S1. destruct (create_spec fs tk s (Some e) mo fs1 _ (so_max fs S) (so_wf fs S) E) as [[_ [x Hx]]|(_ & _ & (_ & _ & _ & _ & _ & C6) & B)]; [discriminate|].
    set (n := length (fs_heap fs)). assert (length (fs_heap fs1) = Datatypes.S n) as Hn. { apply (f_equal length) in B. unfold bars in B. rewrite app_length, !fmap_length in B. simpl in B. unfold n. lia. }
    destruct (lookup_lt_is_Some_2 (fs_heap fs1) n ltac:(lia)) as [f Hf]. assert (bar_of f = bar_new tk s (Some e)) as Eb.
    { assert (bars fs1 !! n = Some (bar_of f)) as X by (unfold bars; now rewrite list_lookup_fmap, Hf). rewrite B in X. rewrite lookup_app_r in X by (unfold bars; rewrite fmap_length; unfold n; lia).
      unfold bars in X. rewrite fmap_length in X. unfold n in X. rewrite Nat.sub_diag in X. change (Some (bar_new tk s (Some e)) = Some (bar_of f)) in X. congruence. }
    exists n, f. split; [rewrite (wf_current fs1 (so_max fs1 S1) (so_wf fs1 S1)), Hn; reflexivity|]. split; [auto|].
    assert (fr_last f = tk /\ fr_high f = tk /\ fr_low f = tk /\ fr_end f = Some e) as (F1 & F2 & F3 & F4) by (unfold bar_of, bar_new in Eb; repeat split; congruence).
    rewrite F2, F3, F4. split; [auto|]. split; [apply LT|]. split; [apply LT|]. split; [|exact He].
    revert E. unfold create_new_frame. destruct (upsert _ _ _ _ _) as [fr r0] eqn:Eu. destruct r0 as [[]|x]; [|discriminate]. destruct (clean_old_frames _ _ _) as [[h2 l2] r2] eqn:Ec. intros [= Ef ->].
    rewrite C6. eapply (upsert_again (fs_heap fs) (frame_new tk s (Some e) (fs_current_id fs))); [apply S|apply S| | |exact Eu| |].
    - intros ref. exact I.
    - reflexivity.
    - apply clean_inds in Ec. simpl. assert ((fr_inds <$> h2) !! n = Some (fr_inds f)) as X by (rewrite list_lookup_fmap; rewrite <- Ef in Hf; simpl in Hf; now rewrite Hf). rewrite Ec, fmap_app in X.
      assert (length (match fs_current_id fs with Some c => alter (fun f => fr_set_next f (Some (length (fs_heap fs)))) c (fs_heap fs) | None => fs_heap fs end) = n) as En by (destruct (fs_current_id fs); [apply alter_length|reflexivity]).
      rewrite lookup_app_r in X by (rewrite fmap_length; lia). rewrite fmap_length, En, Nat.sub_diag in X. change (Some (fr_inds fr) = Some (fr_inds f)) in X. congruence.
    - destruct (fr_prev f) as [p|] eqn:Ep; [left|right; auto]. intros l. unfold extended_changes. cbn [frame_tick frame_new fr_prev fr_last]. rewrite Ep.
      assert (p = n - 1 /\ 0 < n)%nat as [-> Hpos]. { destruct (so_wf fs1 S1) as [[L1 L2 L3 L4] _]. destruct (Nat.lt_ge_cases n (length (fs_heap fs1) - length (fs_frames fs1))) as [Hq|Hq].
        - destruct (L3 n f Hf Hq). congruence.
        - destruct (L4 n f Hf Hq) as [Hp _]. rewrite Ep in Hp. destruct (Nat.eqb_spec n (length (fs_heap fs1) - length (fs_frames fs1))); [discriminate|]. injection Hp as ->. lia. }
      rewrite (wf_current fs (so_max fs S) (so_wf fs S)). fold n. destruct n as [|m] eqn:Em; [lia|]. replace (Datatypes.S m - 1)%nat with m by lia.
      assert (bar_of <$> fs_heap fs1 !! m = bar_of <$> fs_heap fs !! m) as X. { rewrite <- !list_lookup_fmap. change (bars fs1 !! m = bars fs !! m). rewrite B. apply lookup_app_l. unfold bars. rewrite fmap_length. unfold n in Em. lia. }
      destruct (fs_heap fs1 !! m) as [x|], (fs_heap fs !! m) as [y|]; try discriminate X; [|reflexivity]. simpl in X. assert (fr_last x = fr_last y) as -> by (unfold bar_of in X; congruence). reflexivity.
  Qed.
  Lemma tick_hears fuel fs tk mo lst fs1 : sound_fs fs -> resolves_forward (ar_tz (tk_dt tk)) -> fs_on_new_tick fuel fs tk mo lst = (fs1, Ok ()) -> heard_last fs1 tk mo.
  Proof.
    intros S Hz E. assert (fs_on_new_tick fuel fs tk mo lst = if is_frame_over_timed fs tk then create_new_frame_timed fuel fs tk mo else add_tick_to_last fs tk mo) as Eq
      by (pose proof (so_unit fs S); unfold fs_on_new_tick; now destruct (fs_unit fs)). rewrite Eq in E. destruct (is_frame_over_timed fs tk) eqn:Eo; [|now apply (add_hears fs)].
    revert E. unfold create_new_frame_timed. destruct (get_frame_start _ _ _) as [a|] eqn:Ea; [|discriminate]. destruct (get_frame_end _ _ _) as [e|] eqn:Ee; [|discriminate].
    pose proof (fill_gsteps a mo fuel fs (so_max fs S) (so_wf fs S)) as Hg. destruct (ploop _ _ _) as [fs'|[fs' [u|x]]]; [discriminate| |discriminate]. destruct Hg as (G & _). intros E.
    apply (create_hears fs' tk a e mo fs1); [eapply so_gsteps; eauto| |exact E].
    pose proof (dt_in_frame _ _ _ _ _ (so_unit fs S) (so_q fs S) (so_ok fs S) Hz Ea Ee) as [_ Hd]. unfold arrow_geb. rewrite arrow_ltb_same.
    - apply negb_false_iff, Z.ltb_lt. exact Hd.
    - rewrite (end_tz _ _ _ _ (so_unit fs S) Ee). now rewrite (start_tz _ _ _ _ (so_q fs S) (so_unit fs S) Ea).
  Qed.
End frames.
