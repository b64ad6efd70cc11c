(** Evolution of indicator values along histories of a frame set. *)
From Verif Require Import EpicMoreProofs.
From Verif Require Export SpecIndicators FrameFinalProofs FrameTimeProofs FramesProofs.
Open Scope Z_scope.

Section proofs.
  Context {F : Type} `{Num F}.
  Implicit Types (fs : fset F) (f fr : frame F) (i : indicator F).

  (** ** Elementary steps *)
  Inductive estep (tk : tick F) (mo : bool) : fset F -> fset F -> Prop :=
    | es_gap fs cur s e fs' : fs_current fs = Some cur -> create_new_frame fs (fr_last cur) s e mo = (fs', Ok ()) -> estep tk mo fs fs'
    | es_new fs s e fs' : create_new_frame fs tk s e mo = (fs', Ok ()) -> estep tk mo fs fs'
    | es_add fs fs' r : add_tick_to_last fs tk mo = (fs', r) -> estep tk mo fs fs'.
  Definition gstep (mo : bool) fs fs' : Prop :=
    exists cur s e, fs_current fs = Some cur /\ create_new_frame fs (fr_last cur) s e mo = (fs', Ok ()).
  Definition slot (ref : string) f : option (ivalue F) :=
    match dict_get (fr_inds f) ref with Some (Some iv) => Some iv | _ => None end.
  Definition vals (ref : string) fs : list (option (ivalue F)) := slot ref <$> fs_heap fs.
  Lemma value_at_vals fs ref k : value_at fs ref k = match vals ref fs !! k with Some v => v | None => None end.
  Proof. unfold value_at, vals. rewrite list_lookup_fmap. destruct (fs_heap fs !! k); reflexivity. Qed.
  Lemma vals_length ref fs : length (vals ref fs) = length (fs_heap fs).
  Proof. apply fmap_length. Qed.

  Record inds_ok (d : dict (indicator F)) : Prop := {
    io_nodup : NoDup (map fst d); io_ref : forall k i, (k, i) ∈ d -> in_ref i = k }.
  Lemma inds_ok_nil : inds_ok [].
  Proof. split; [constructor|]. intros k i E. now apply elem_of_nil in E. Qed.
  Lemma dict_set_keys {V} (d : dict V) k v : map fst (dict_set d k v) = if decide (k ∈ map fst d) then map fst d else map fst d ++ [k].
  Proof.
    induction d as [|[a b] d IH]; simpl; [destruct (decide (k ∈ [])) as [E|E]; [now apply elem_of_nil in E|reflexivity]|].
    destruct (String.eqb_spec a k) as [->|Hn]; simpl.
    - destruct (decide (k ∈ k :: map fst d)) as [E|E]; [auto|]. elim E. left.
    - rewrite IH. destruct (decide (k ∈ map fst d)) as [E|E], (decide (k ∈ a :: map fst d)) as [E'|E']; auto.
      + elim E'. now right.
      + apply elem_of_cons in E' as [E'|E']; congruence.
  Qed.
  Lemma inds_ok_set d i : inds_ok d -> inds_ok (dict_set d (in_ref i) i).
  Proof.
    intros [H1 H2]. assert (NoDup (map fst (dict_set d (in_ref i) i))) as Hn.
    { rewrite dict_set_keys. destruct (decide (in_ref i ∈ map fst d)) as [E|E]; [auto|]. apply NoDup_app. split; [auto|]. split; [|apply NoDup_singleton].
      intros x Hx Hx'. apply elem_of_list_singleton in Hx'. congruence. }
    split; [exact Hn|]. intros k j Hk. apply (elem_dict_get _ _ _ Hn) in Hk. rewrite dict_get_set in Hk. destruct (String.eqb_spec (in_ref i) k) as [E|E].
    - now injection Hk as <-.
    - apply dict_get_elem in Hk. auto.
  Qed.

  Lemma build_value_inds h fr d i mo : build_value h (fr_set_inds fr d) i mo = build_value h fr i mo.
  Proof. reflexivity. Qed.
  Lemma iv_tick_inds h fr d iv tk mo : iv_on_new_tick h (fr_set_inds fr d) iv tk mo = iv_on_new_tick h fr iv tk mo.
  Proof. reflexivity. Qed.

  (** One round of [_upsert_indicators] seen by one reference. *)
  Definition step_val h fr i tk mo (v v' : option (ivalue F)) : Prop :=
    match v with
    | Some iv => exists iv', iv_on_new_tick h fr iv tk mo = Ok iv' /\ v' = Some iv'
    | None => build_value h fr i mo = Ok v'
    end.
  Lemma upsert_val h fr tk mo inds fr' r ref : inds_ok inds -> upsert h fr tk mo inds = (fr', r) ->
    match dict_get inds ref with
    | None => slot ref fr' = slot ref fr
    | Some i => step_val h fr i tk mo (slot ref fr) (slot ref fr') \/ (slot ref fr' = slot ref fr /\ r <> Ok ())
    end.
  Proof.
    revert fr. induction inds as [|[k i] inds IH]; intros fr Hok E.
    - simpl in E. injection E as <- <-. reflexivity.
    - destruct Hok as [Hn Hr]. assert (inds_ok inds) as Hok'.
      { split; [now apply NoDup_cons in Hn|]. intros a b Hab. apply Hr. now right. }
      assert (in_ref i = k) as Hk by (apply Hr; left). assert (dict_get inds k = None) as Hnk.
      { apply dict_get_none. now apply NoDup_cons in Hn. }
      assert (forall v, upsert h (fr_set_inds fr (dict_set (fr_inds fr) k v)) tk mo inds = (fr', r) ->
              match dict_get inds ref with
              | None => slot ref fr' = if String.eqb k ref then v else slot ref fr
              | Some j => step_val h fr j tk mo (slot ref fr) (slot ref fr') \/ (slot ref fr' = slot ref fr /\ r <> Ok ())
              end) as Hrec.
      { intros v Ev. specialize (IH _ Hok' Ev).
        assert (slot ref (fr_set_inds fr (dict_set (fr_inds fr) k v)) = if String.eqb k ref then v else slot ref fr) as Es.
        { unfold slot. simpl. rewrite dict_get_set. destruct (String.eqb k ref); [now destruct v|auto]. }
        rewrite Es in IH. destruct (dict_get inds ref) as [j|] eqn:Ej; [|exact IH]. 
        destruct (String.eqb_spec k ref) as [->|Hne]; [congruence|]. exact IH. }
      cbn [upsert] in E. cbn [dict_get]. fold (slot k fr) in E.
      assert ((exists iv, slot k fr = Some iv /\ dict_get (fr_inds fr) k = Some (Some iv)) \/
              (slot k fr = None /\ upsert h fr tk mo ((k, i) :: inds) =
                 match build_value h fr i mo with
                 | Ok v => upsert h (fr_set_inds fr (dict_set (fr_inds fr) (in_ref i) v)) tk mo inds
                 | Err e => (fr, Err e) end)) as [(iv & Es & Ed)|[Es Ed]].
      { unfold slot. cbn [upsert]. destruct (dict_get (fr_inds fr) k) as [[iv|]|]; [left; eauto|right; auto|right; auto]. }
      + rewrite Ed in E. destruct (iv_on_new_tick h fr iv tk mo) as [iv'|x] eqn:Et.
        * apply Hrec in E. destruct (String.eqb_spec k ref) as [->|Hne].
          -- rewrite Hnk in E. left. rewrite Es. simpl. eauto.
          -- destruct (dict_get inds ref); auto.
        * injection E as <- <-. destruct (String.eqb_spec k ref) as [->|Hne].
          -- right. split; [auto|discriminate].
          -- destruct (dict_get inds ref); [right; split; [auto|discriminate]|auto].
      + cbn [upsert] in Ed. rewrite Ed in E. clear Ed. destruct (build_value h fr i mo) as [v|x] eqn:Et.
        * rewrite Hk in E. apply Hrec in E. destruct (String.eqb_spec k ref) as [->|Hne].
          -- rewrite Hnk in E. left. rewrite Es. simpl. congruence.
          -- destruct (dict_get inds ref); auto.
        * injection E as <- <-. destruct (String.eqb_spec k ref) as [->|Hne].
          -- right. split; [auto|discriminate].
          -- destruct (dict_get inds ref); [right; split; [auto|discriminate]|auto].
  Qed.

  (** ** Values after an elementary step *)
  Lemma create_vals fs tk s e mo fs' ref : 1 <= fs_max fs -> wf fs -> inds_ok (fs_inds fs) ->
    create_new_frame fs tk s e mo = (fs', Ok ()) ->
    exists v, vals ref fs' = vals ref fs ++ [v] /\
      match dict_get (fs_inds fs) ref with
      | None => v = None
      | Some i => build_value (fs_heap fs) (frame_new tk s e (fs_current_id fs)) i mo = Ok v
      end.
  Proof.
    intros Hmx Hwf Hok. unfold create_new_frame. destruct (upsert _ _ _ _ _) as [fr r0] eqn:Eu. destruct r0 as [[]|x]; [|discriminate].
    destruct (clean_old_frames _ _ _) as [[h2 l2] r2] eqn:Ec. intros [= <- ->].
    set (h1 := match fs_current_id fs with Some c => alter (fun f => fr_set_next f (Some (length (fs_heap fs)))) c (fs_heap fs) | None => fs_heap fs end) in *.
    assert (slot ref <$> h1 = slot ref <$> fs_heap fs) as Eh1.
    { unfold h1. destruct (fs_current_id fs) as [c|]; [|auto]. apply list_eq. intros j. rewrite !list_lookup_fmap. destruct (Nat.eq_dec c j) as [->|Hne].
      - rewrite list_lookup_alter. now destruct (fs_heap fs !! j).
      - now rewrite list_lookup_alter_ne. }
    assert (forall mx h l h' l' r, clean_old_frames mx h l = (h', l', r) -> slot ref <$> h' = slot ref <$> h) as Hcl.
    { clear. intros mx h l. revert h. induction l as [|a l IH]; intros h h' l' r; simpl.
      - destruct (_ <=? _); intros [= <- <- <-]; auto.
      - destruct (_ <=? _); [intros [= <- <- <-]; auto|]. destruct l as [|b l]; [intros [= <- <- <-]; auto|]. intros E. apply IH in E. rewrite E.
        apply list_eq. intros j. rewrite !list_lookup_fmap. destruct (Nat.eq_dec a j) as [->|Hne]; [rewrite list_lookup_alter|rewrite (list_lookup_alter_ne _ _ a j) by auto];
          (destruct (Nat.eq_dec b j) as [->|Hne']; [rewrite list_lookup_alter|rewrite list_lookup_alter_ne by auto]); now destruct (h !! j). }
    exists (slot ref fr). unfold vals. cbn [fs_set_frames fs_heap]. split.
    - rewrite (Hcl _ _ _ _ _ _ Ec), fmap_app, Eh1. reflexivity.
    - apply (upsert_val _ _ _ _ _ _ _ ref) in Eu; [|auto]. destruct (dict_get (fs_inds fs) ref) as [i|].
      + destruct Eu as [Eu|[_ Eu]]; [exact Eu|congruence].
      + rewrite Eu. reflexivity.
  Qed.

  Lemma add_vals fs tk mo fs' r ref : 1 <= fs_max fs -> wf fs -> inds_ok (fs_inds fs) ->
    add_tick_to_last fs tk mo = (fs', r) ->
    match length (fs_heap fs) with
    | O => fs' = fs
    | S n => exists cur v v', fs_heap fs !! n = Some cur /\ slot ref cur = v /\ vals ref fs' = take n (vals ref fs) ++ [v'] /\
        match dict_get (fs_inds fs) ref with
        | None => v' = v
        | Some i => step_val (fs_heap fs) (frame_tick cur tk) i tk mo v v' \/ (v' = v /\ r <> Ok ())
        end
    end.
  Proof.
    intros Hmx Hwf Hok. unfold add_tick_to_last. rewrite (wf_current fs Hmx Hwf). destruct (length (fs_heap fs)) as [|n] eqn:En; [now intros [= <- <-]|].
    destruct (lookup_lt_is_Some_2 (fs_heap fs) n ltac:(lia)) as [cur Ecur]. rewrite Ecur. unfold frame_on_new_tick. destruct (upsert _ _ _ _ _) as [fr r0] eqn:Eu.
    intros [= <- <-]. apply (upsert_val _ _ _ _ _ _ _ ref) in Eu; [|auto]. exists cur, (slot ref cur), (slot ref fr). split; [auto|]. split; [auto|]. split.
    - unfold vals. cbn [fs_set_frames fs_heap]. rewrite list_fmap_insert. rewrite (insert_take_drop (slot ref <$> fs_heap fs) n) by (rewrite fmap_length; lia).
      rewrite drop_ge by (rewrite fmap_length; lia). reflexivity.
    - destruct (dict_get (fs_inds fs) ref); exact Eu.
  Qed.

  (** ** Decomposition of a tick *)
  Lemma fill_gsteps start mo fuel fs : 1 <= fs_max fs -> wf fs ->
    match ploop fuel (fill_step start mo) fs with
    | inl s => rtc (gstep mo) fs s /\ wf s /\ same_conf fs s
    | inr (s, _) => rtc (gstep mo) fs s /\ wf s /\ same_conf fs s
    end.
  Proof.
    intros Hmx Hwf. set (P s := rtc (gstep mo) fs s /\ wf s /\ same_conf fs s).
    assert (forall s, P s -> match fill_step start mo s with inl s' => P s' | inr y => P (fst y) end) as Hstep.
    { intros s (P1 & P2 & P3). assert (1 <= fs_max s) as Hm by (destruct P3 as (_ & _ & _ & -> & _); auto).
      pose proof (fill_step_wf start mo s Hm P2) as Hf. unfold fill_step in *.
      destruct (fs_current s) as [cur|] eqn:Ecur; [|split; auto]. destruct (fr_end cur) as [e|]; [|split; auto].
      destruct (arrow_ltb e start); [|split; auto]. destruct (get_frame_end _ _ _) as [e'|]; [|split; auto].
      destruct (create_new_frame _ _ _ _ _) as [s' rr] eqn:Ec.
      assert (rtc (gstep mo) s s') as Hc.
      { pose proof Ec as Ec'. apply create_spec in Ec'; auto. destruct Ec' as [[-> _]|(-> & _)]; [apply rtc_refl|].
        apply rtc_once. exists cur, e, (Some e'). auto. }
      destruct rr as [u|x]; destruct Hf as [Hg1 Hf2]; (split; [exact (rtc_transitive _ _ _ P1 Hc)|split; [auto|eauto using same_conf_trans]]). }
    pose proof (ploop_ind (fill_step start mo) P (fun y : fset F * res unit => P (fst y)) fuel fs) as Hq.
    assert (match ploop fuel (fill_step start mo) fs with inl s => P s | inr y => P (fst y) end) as Hq'.
    { apply Hq; [| |split; [apply rtc_refl|split; auto using same_conf_refl]]; intros s s' Hs Es; specialize (Hstep s Hs); rewrite Es in Hstep; auto. }
    destruct (ploop _ _ _) as [s|[s rr]]; exact Hq'.
  Qed.
  Lemma tick_steps fuel fs tk mo lst fs' r : fs_on_new_tick fuel fs tk mo lst = (fs', r) -> 1 <= fs_max fs -> wf fs -> rtc (estep tk mo) fs fs'.
  Proof.
    intros E Hmx Hwf.
    assert (forall g0 s e g1 r1, 1 <= fs_max g0 -> wf g0 -> create_new_frame g0 tk s e mo = (g1, r1) -> rtc (estep tk mo) g0 g1) as Hcr.
    { intros g0 s e g1 r1 H0 H1 Ec. pose proof Ec as Ec'. apply create_spec in Ec'; auto. destruct Ec' as [[-> _]|(-> & _)]; [apply rtc_refl|].
      apply rtc_once. eapply es_new, Ec. }
    assert (forall g1 r1, add_tick_to_last fs tk mo = (g1, r1) -> rtc (estep tk mo) fs g1) as Had by (intros; apply rtc_once; eapply es_add; eauto).
    assert (forall g1 r1, create_new_frame_timed fuel fs tk mo = (g1, r1) -> rtc (estep tk mo) fs g1) as Htd.
    { intros g1 r1. unfold create_new_frame_timed.
      destruct (get_frame_start _ _ _) as [start|]; [|intros [= <- <-]; apply rtc_refl].
      destruct (get_frame_end _ _ _) as [e1|]; [|intros [= <- <-]; apply rtc_refl].
      pose proof (fill_gsteps start mo fuel fs Hmx Hwf) as Hg.
      assert (forall s, rtc (gstep mo) fs s -> rtc (estep tk mo) fs s) as Hsub.
      { intros s. apply (rtc_subrel _ _ fs s). intros a b (cur & st & en & E1 & E2). eapply es_gap; eauto. }
      destruct (ploop _ _ _) as [s|[s [u|x]]]; destruct Hg as (P1 & P2 & P3); [intros [= <- <-]; auto| |intros [= <- <-]; auto].
      intros Ec. apply (rtc_transitive _ s); [auto|]. eapply Hcr; [| |exact Ec]; auto.
      destruct P3 as (_ & _ & _ & -> & _). auto. }
    revert E. unfold fs_on_new_tick, create_new_frame_tick.
    destruct (fs_unit fs); destruct (is_frame_over_tick fs tk lst), (is_frame_over_timed fs tk); eauto.
  Qed.
  (** The shape of a tick processed without exception. *)
  Lemma tick_shape fuel fs tk mo lst fs' : fs_on_new_tick fuel fs tk mo lst = (fs', Ok ()) -> 1 <= fs_max fs -> wf fs ->
    (fs_heap fs <> [] /\ add_tick_to_last fs tk mo = (fs', Ok ())) \/
    (exists fs1 s e, rtc (gstep mo) fs fs1 /\ wf fs1 /\ same_conf fs fs1 /\ create_new_frame fs1 tk s e mo = (fs', Ok ())).
  Proof.
    intros E Hmx Hwf.
    assert (forall b, b = false -> is_frame_over_tick fs tk lst = b \/ is_frame_over_timed fs tk = b -> fs_heap fs <> []) as Hne.
    { intros b -> Hb Hnil. unfold is_frame_over_tick, is_frame_over_timed, fs_current in Hb. rewrite (wf_current fs Hmx Hwf), Hnil in Hb. simpl in Hb. now destruct Hb. }
    assert (create_new_frame_timed fuel fs tk mo = (fs', Ok ()) -> exists fs1 s e, rtc (gstep mo) fs fs1 /\ wf fs1 /\ same_conf fs fs1 /\ create_new_frame fs1 tk s e mo = (fs', Ok ())) as Htd.
    { unfold create_new_frame_timed.
      destruct (get_frame_start _ _ _) as [start|]; [|discriminate].
      destruct (get_frame_end _ _ _) as [e1|]; [|discriminate].
      pose proof (fill_gsteps start mo fuel fs Hmx Hwf) as Hg.
      destruct (ploop _ _ _) as [s|[s [u|x]]]; [discriminate| |discriminate]. intros Ec. exists s, start, (Some e1). tauto. }
    assert (forall s e, create_new_frame fs tk s e mo = (fs', Ok ()) -> exists fs1 s e, rtc (gstep mo) fs fs1 /\ wf fs1 /\ same_conf fs fs1 /\ create_new_frame fs1 tk s e mo = (fs', Ok ())) as Hcr.
    { intros s e Ec. exists fs, s, e. split; [apply rtc_refl|]. split; [auto|]. split; [apply same_conf_refl|auto]. }
    revert E. unfold fs_on_new_tick, create_new_frame_tick.
    destruct (fs_unit fs); destruct (is_frame_over_tick fs tk lst) eqn:E1, (is_frame_over_timed fs tk) eqn:E2; intros E; first [right; solve [eauto]|left; split; [eapply Hne; eauto|exact E]].
  Qed.

  (** ** Closing values *)
  Lemma closes_bars fs : closes fs = map (fun b => tk_value (b_last b)) (bars fs).
  Proof. unfold closes, bars. change (bar_of <$> fs_heap fs) with (map bar_of (fs_heap fs)). rewrite map_map. reflexivity. Qed.

  (** ** Walking back *)
  Lemma find_previous_vals h l ref fuel p : linked h l -> (length h - length l <= p < length h)%nat -> (p < fuel)%nat ->
    exists r, find_previous fuel h ref (Some p) = Ok r /\
      match r with
      | Some (j, iv) => (length h - length l <= j <= p)%nat /\ (slot ref <$> h) !! j = Some (Some iv) /\
          forall j', (j < j' <= p)%nat -> (slot ref <$> h) !! j' = Some None
      | None => forall j', (length h - length l <= j' <= p)%nat -> (slot ref <$> h) !! j' = Some None
      end.
  Proof.
    intros Hl. revert p. induction fuel as [|fuel IH]; intros p Hp Hf; [lia|]. cbn [find_previous].
    destruct (lookup_lt_is_Some_2 h p ltac:(lia)) as [f Ef]. rewrite Ef. fold (slot ref f).
    assert ((slot ref <$> h) !! p = Some (slot ref f)) as Es by (rewrite list_lookup_fmap, Ef; reflexivity).
    assert ((exists iv, slot ref f = Some iv /\ dict_get (fr_inds f) ref = Some (Some iv)) \/
            (slot ref f = None /\ forall (A : Type) (x : ivalue F -> A) (y : A),
               match dict_get (fr_inds f) ref with Some (Some iv) => x iv | _ => y end = y)) as [(iv & E1 & E2)|[E1 E2]].
    { unfold slot. destruct (dict_get (fr_inds f) ref) as [[iv|]|]; [left; eauto|right; auto|right; auto]. }
    - rewrite E2. eexists. split; [reflexivity|]. split; [lia|]. split; [rewrite Es, E1; auto|]. intros j' Hj'. lia.
    - rewrite (E2 _ (fun iv => Ok (Some (p, iv)))). destruct Hl as [H1 H2 H3 H4]. destruct (H4 p f Ef ltac:(lia)) as [Hprev _]. rewrite Hprev. destruct (Nat.eqb_spec p (length h - length l)) as [Ep|Ep].
      + destruct fuel; cbn [find_previous]; (eexists; split; [reflexivity|]; cbn; intros j' Hj'; assert (j' = p) as -> by lia; rewrite Es, E1; auto).
      + destruct (IH (p - 1)%nat ltac:(lia) ltac:(lia)) as (r & Er & Hr). exists r. split; [exact Er|]. destruct r as [[j iv]|].
        * destruct Hr as (R1 & R2 & R3). split; [lia|]. split; [auto|]. intros j' Hj'. destruct (Nat.eq_dec j' p) as [->|Hne]; [rewrite Es, E1; auto|apply R3; lia].
        * intros j' Hj'. destruct (Nat.eq_dec j' p) as [->|Hne]; [rewrite Es, E1; auto|apply Hr; lia].
  Qed.
  Lemma previous_at fs k f ref : 1 <= fs_max fs -> wf fs -> fs_heap fs !! k = Some f ->
    exists r, previous (fs_heap fs) f ref = Ok r /\ previous_value fs ref k r.
  Proof.
    intros Hmx [Hl Hm] Ef. pose proof (lookup_lt_Some _ _ _ Ef) as Hk. unfold previous, previous_value.
    assert (fr_prev f = if (k <=? length (fs_heap fs) - length (fs_frames fs))%nat then None else Some (k - 1)%nat) as Ep.
    { destruct Hl as [H1 H2 H3 H4]. destruct (Nat.leb_spec k (length (fs_heap fs) - length (fs_frames fs))) as [Hle|Hgt].
      - destruct (Nat.eq_dec k (length (fs_heap fs) - length (fs_frames fs))%nat) as [E|E].
        + destruct (H4 k f Ef ltac:(lia)) as [-> _]. rewrite E, Nat.eqb_refl. auto.
        + destruct (H3 k f Ef ltac:(lia)) as [-> _]. auto.
      - destruct (H4 k f Ef ltac:(lia)) as [-> _]. destruct (Nat.eqb_spec k (length (fs_heap fs) - length (fs_frames fs))); [lia|auto]. }
    rewrite Ep. destruct (Nat.leb_spec k (length (fs_heap fs) - length (fs_frames fs))) as [Hle|Hgt].
    - exists None. split; [reflexivity|]. intros j' Hj'. lia.
    - destruct (find_previous_vals (fs_heap fs) (fs_frames fs) ref (S (length (fs_heap fs))) (k - 1)%nat Hl ltac:(lia) ltac:(lia)) as (r & Er & Hr).
      exists r. split; [exact Er|]. assert (forall j v, (slot ref <$> fs_heap fs) !! j = Some v -> value_at fs ref j = v) as Hv.
      { intros j v E. rewrite value_at_vals. unfold vals. now rewrite E. }
      destruct r as [[j iv]|].
      + destruct Hr as (R1 & R2 & R3). split; [lia|]. split; [auto|]. intros j' Hj'. apply Hv, R3. lia.
      + intros j' Hj'. apply Hv, Hr. lia.
  Qed.
  Lemma previous_new fs ref tk s e : 1 <= fs_max fs -> wf fs ->
    exists r, previous (fs_heap fs) (frame_new tk s e (fs_current_id fs)) ref = Ok r /\ previous_value fs ref (length (fs_heap fs)) r.
  Proof.
    intros Hmx [Hl Hm]. unfold previous. cbn [frame_new fr_prev]. rewrite (wf_current fs Hmx) by (split; auto).
    destruct (length (fs_heap fs)) as [|n] eqn:En.
    - exists None. split; [reflexivity|]. intros j Hj. lia.
    - rewrite <- En. destruct (find_previous_vals (fs_heap fs) (fs_frames fs) ref (S (length (fs_heap fs))) n Hl ltac:(lia) ltac:(lia)) as (r & Er & Hr).
      exists r. split; [exact Er|]. assert (forall j v, (slot ref <$> fs_heap fs) !! j = Some v -> value_at fs ref j = v) as Hv.
      { intros j v E. rewrite value_at_vals. unfold vals. now rewrite E. }
      unfold previous_value. destruct r as [[j iv]|].
      + destruct Hr as (R1 & R2 & R3). split; [lia|]. split; [auto|]. intros j' Hj'. apply Hv, R3. lia.
      + intros j' Hj'. apply Hv, Hr. lia.
  Qed.
End proofs.
