(** Frame sets moved to other dates (C74). *)
From Verif Require Export MovedDates.
Open Scope Z_scope.

Section frames.
  Context {F : Type} `{Num F}.
  Variable d : Z.
  Hypothesis Hd : whole_weeks d.
  Implicit Types (fs : fset F) (f fr : frame F) (tk : tick F).
  Local Notation TM := (tick_moved (F:=F) d).
  Local Notation FM := (frame_moved (F:=F) d).
  Local Notation VM := (value_moved (F:=F) d).
  Local Notation SM := (fset_moved (F:=F) d).

  Lemma tm_value tk tk' : TM tk tk' -> tk_value tk' = tk_value tk.
  Proof. intros [_ B A]. unfold tk_value, tk_spread. now rewrite A, B. Qed.
  Lemma F2_last {A B} (R : A -> B -> Prop) l l' : Forall2 R l l' -> match last l, last l' with Some x, Some y => R x y | None, None => True | _, _ => False end.
  Proof. intros Hr. induction Hr as [|x y l l' Hx Hr IH]; simpl; auto. destruct Hr; auto. Qed.
  Definition inds_moved (a b : dict (option (ivalue F))) : Prop := Forall2 (fun x y => y.1 = x.1 /\ opt_moved VM x.2 y.2) a b.
  Lemma inds_get a b ref : inds_moved a b -> match dict_get a ref, dict_get b ref with Some x, Some y => opt_moved VM x y | None, None => True | _, _ => False end.
  Proof.
    intros Hr. induction Hr as [|[k x] [k' y] a b [E Hx] Hr IH]; simpl in *; auto. subst k'. destruct (String.eqb k ref); auto.
  Qed.
  Lemma inds_set a b ref x y : inds_moved a b -> opt_moved VM x y -> inds_moved (dict_set a ref x) (dict_set b ref y).
  Proof.
    intros Hr Hx. induction Hr as [|[k u] [k' v] a b [E Hu] Hr IH]; simpl in *; [repeat constructor; auto|]. subst k'. destruct (String.eqb k ref); constructor; auto.
  Qed.
  (** ** Indicators *)
  Definition prev_moved (x y : res (option (nat * ivalue F))) : Prop :=
    match x, y with Ok (Some (i, u)), Ok (Some (j, v)) => i = j /\ VM u v | Ok None, Ok None => True | Err e, Err e' => e = e' | _, _ => False end.
  Lemma moved_find n h h' ref p : Forall2 FM h h' -> prev_moved (find_previous n h ref p) (find_previous n h' ref p).
  Proof.
    intros Hh. revert p. induction n as [|n IH]; intros [p|]; simpl; auto. pose proof (F2_lookup _ _ _ p Hh) as Hp. destruct (h !! p) as [f|], (h' !! p) as [f'|]; try easy.
    pose proof (inds_get _ _ ref (fm_inds _ _ _ Hp)) as Hg. destruct (dict_get (fr_inds f) ref) as [[u|]|], (dict_get (fr_inds f') ref) as [[v|]|]; try easy; try (inversion Hg; fail).
    - inversion Hg; subst. simpl. auto.
    - rewrite (fm_prev _ _ _ Hp). apply IH.
    - rewrite (fm_prev _ _ _ Hp). apply IH.
  Qed.
  Lemma moved_previous h h' f f' ref : Forall2 FM h h' -> fr_prev f' = fr_prev f -> prev_moved (previous h f ref) (previous h' f' ref).
  Proof. intros Hh E. unfold previous. rewrite <- (Forall2_length _ _ _ Hh), E. now apply moved_find. Qed.
  Lemma moved_closes f f' l : FM f f' -> extended_closes f' l = extended_closes f l.
  Proof. intros Hf. unfold extended_closes. now rewrite (tm_value _ _ (fm_last _ _ _ Hf)). Qed.
  Lemma moved_changes h h' f f' l : Forall2 FM h h' -> FM f f' -> extended_changes h' f' l = extended_changes h f l.
  Proof.
    intros Hh Hf. unfold extended_changes. rewrite (fm_prev _ _ _ Hf). destruct (fr_prev f) as [p|]; [|auto]. pose proof (F2_lookup _ _ _ p Hh) as Hp.
    destruct (h !! p) as [g|], (h' !! p) as [g'|]; try easy. now rewrite (tm_value _ _ (fm_last _ _ _ Hf)), (tm_value _ _ (fm_last _ _ _ Hp)).
  Qed.
  Lemma moved_rsi h h' f f' n l o : Forall2 FM h h' -> FM f f' -> update_rsi h' f' n l o = update_rsi h f n l o.
  Proof. intros Hh Hf. unfold update_rsi. now rewrite (moved_changes h h' f f'). Qed.
  Lemma moved_view ref f f' : FM f f' -> view_moved d (view_of ref f) (view_of ref f').
  Proof.
    intros Hf. destruct Hf. constructor; simpl; auto. pose proof (inds_get _ _ ref fm_inds) as Hg. destruct (dict_get (fr_inds f) ref) as [[u|]|], (dict_get (fr_inds f') ref) as [[v|]|]; try easy; try (inversion Hg; fail).
    inversion Hg; subst. match goal with X : VM u v |- _ => now rewrite (im_data _ _ _ X) end.
  Qed.
  Lemma moved_own f f' : FM f f' -> view_moved d (own_view f) (own_view f').
  Proof. intros []. constructor; simpl; auto. Qed.
  Lemma moved_views h h' ref : Forall2 FM h h' -> Forall2 (view_moved d) (map (view_of ref) h) (map (view_of ref) h').
  Proof. intros Hh. induction Hh; simpl; constructor; auto. now apply moved_view. Qed.
  Lemma moved_data h h' f f' i : Forall2 FM h h' -> FM f f' -> kind_moves d (in_kind i) -> build_data h' f' i = build_data h f i.
  Proof.
    intros Hh Hf Hk. unfold build_data. destruct (in_kind i) as [ha|ol|mp|n rp|mk tl]; auto.
    - pose proof (moved_previous h h' f f' (in_ref i) Hh (fm_prev _ _ _ Hf)) as Hp. destruct (previous h f (in_ref i)) as [[[p u]|]|e], (previous h' f' (in_ref i)) as [[[p' u']|]|e']; try easy.
      + destruct Hp as [<- Hv]. simpl. rewrite (im_data _ _ _ Hv). pose proof (F2_lookup _ _ _ p Hh) as Hg. destruct (iv_data u); auto. destruct (h !! p) as [g|], (h' !! p) as [g'|]; try easy. now rewrite (moved_closes g g').
      + simpl in Hp. now subst.
    - destruct rp as [m|]; [|auto]. destruct (m =? 0); [auto|].
      pose proof (moved_previous h h' f f' (in_ref i) Hh (fm_prev _ _ _ Hf)) as Hp. destruct (previous h f (in_ref i)) as [[[p u]|]|e], (previous h' f' (in_ref i)) as [[[p' u']|]|e']; try easy.
      + destruct Hp as [<- Hv]. simpl. rewrite (im_data _ _ _ Hv). pose proof (F2_lookup _ _ _ p Hh) as Hg. destruct (iv_data u); auto. destruct (h !! p) as [g|], (h' !! p) as [g'|]; try easy. rewrite (moved_changes h h' g g') by auto.
        destruct (extended_changes h g last_changes); [|auto]. simpl. now rewrite (moved_rsi h h' f f').
      + simpl. now rewrite (moved_rsi h h' f f').
      + simpl in Hp. now subst.
    - destruct Hk as [Hm _]. rewrite (Hm _ _ _ _ (moved_views h h' (in_ref i) Hh) (moved_own f f' Hf)). reflexivity.
  Qed.
  Definition resm {A} (R : A -> A -> Prop) (x y : res A) : Prop := match x, y with Ok a, Ok b => R a b | Err e, Err e' => e = e' | _, _ => False end.
  Lemma data_of_kind h f i x : kind_moves d (in_kind i) -> build_data h f i = Ok x -> data_moves d x.
  Proof.
    unfold build_data. destruct (in_kind i) as [ha|ol|mp|n rp|mk tl]; intros Hk E.
    - injection E as <-. exact I.
    - injection E as <-. exact I.
    - destruct (previous _ _ _) as [o|]; [|discriminate]. simpl in E. destruct (match o with Some _ => _ | None => _ end); [|discriminate]. injection E as <-. exact I.
    - destruct rp as [m|]; [|discriminate]. destruct (m =? 0); [discriminate|]. destruct (previous _ _ _) as [o|]; [|discriminate]. simpl in E.
      destruct (match o with Some _ => _ | None => _ end); [|discriminate]. simpl in E. destruct (update_rsi _ _ _ _ _); [|discriminate]. injection E as <-. exact I.
    - destruct (mk _ _); [|discriminate]. injection E as <-. apply Hk.
  Qed.
  Lemma moved_build h h' f f' i mo : Forall2 FM h h' -> FM f f' -> kind_moves d (in_kind i) -> resm (opt_moved VM) (build_value h f i mo) (build_value h' f' i mo).
  Proof.
    intros Hh Hf Hk. unfold build_value. destruct (_ || mo); [|constructor]. rewrite (moved_data h h' f f') by auto. destruct (build_data h f i) as [x|e] eqn:Ex; [|reflexivity].
    simpl. constructor. destruct Hf. constructor; simpl; auto. eapply data_of_kind; eauto.
  Qed.
  Lemma moved_base u v tk tk' mo : VM u v -> TM tk tk' -> VM (iv_base_tick u tk mo) (iv_base_tick v tk' mo).
  Proof.
    intros Hv Hk. unfold iv_base_tick. destruct Hv. rewrite im_mopen. destruct (_ || mo); [|constructor; auto].
    rewrite (tm_value _ _ Hk), (tm_value _ _ im_high), (tm_value _ _ im_low). constructor; simpl; auto.
    - now destruct (fltb _ _).
    - destruct (fltb _ _); [auto|]. now destruct (fltb _ _).
  Qed.
  Lemma moved_set_data u v x : VM u v -> data_moves d x -> VM (iv_set_data u x) (iv_set_data v x).
  Proof. intros [] Hx. constructor; simpl; auto. Qed.
  Lemma moved_iv h h' f f' u v tk tk' mo : Forall2 FM h h' -> FM f f' -> VM u v -> TM tk tk' -> resm VM (iv_on_new_tick h f u tk mo) (iv_on_new_tick h' f' v tk' mo).
  Proof.
    intros Hh Hf Hv Hk. unfold iv_on_new_tick. cbv zeta. pose proof (moved_base u v tk tk' mo Hv Hk) as Hb. pose proof (im_moves _ _ _ Hb) as Hm. rewrite (im_data _ _ _ Hb).
    destruct (iv_data (iv_base_tick u tk mo)) as [ha|ol|l|n l o|tl x]; auto.
    - rewrite (moved_rsi h h' f f') by auto. destruct (update_rsi _ _ _ _ _) as [y|]; [|reflexivity]. simpl. now apply moved_set_data.
    - rewrite (im_ref _ _ _ Hv). simpl in Hm. rewrite (Hm _ _ _ _ _ _ mo x (moved_views h h' (iv_ref u) Hh) (moved_own f f' Hf) Hk). destruct (tl _ _ _ _ _) as [y|]; [|reflexivity]. simpl. now apply moved_set_data.
  Qed.
  Lemma moved_set_inds f f' a b : FM f f' -> inds_moved a b -> FM (fr_set_inds f a) (fr_set_inds f' b).
  Proof. intros [] Hi. constructor; simpl; auto. Qed.
  Lemma moved_upsert h h' tk tk' mo inds : Forall2 FM h h' -> TM tk tk' -> Forall (fun x => kind_moves d (in_kind x.2)) inds -> forall f f', FM f f' ->
    FM (fst (upsert h f tk mo inds)) (fst (upsert h' f' tk' mo inds)) /\ snd (upsert h' f' tk' mo inds) = snd (upsert h f tk mo inds).
  Proof.
    intros Hh Hk Hi. induction Hi as [|[ref i] inds Hi _ IH]; intros f f' Hf; [now split|]. cbn [upsert]. simpl in Hi.
    pose proof (inds_get _ _ ref (fm_inds _ _ _ Hf)) as Hg. pose proof (moved_build h h' f f' i mo Hh Hf Hi) as Hb.
    destruct (dict_get (fr_inds f) ref) as [[u|]|], (dict_get (fr_inds f') ref) as [[v|]|]; try easy; try (inversion Hg; fail).
    - inversion Hg; subst. match goal with X : VM u v |- _ => pose proof (moved_iv h h' f f' u v tk tk' mo Hh Hf X Hk) as Hv end.
      destruct (iv_on_new_tick h f u tk mo) as [x|e], (iv_on_new_tick h' f' v tk' mo) as [y|e']; try easy; [|simpl in Hv; subst; now split]. apply IH. apply moved_set_inds; [auto|].
      apply inds_set; [apply (fm_inds _ _ _ Hf)|now constructor].
    - destruct (build_value h f i mo) as [x|e], (build_value h' f' i mo) as [y|e']; try easy; [|simpl in Hb; subst; now split]. apply IH, moved_set_inds, inds_set; auto. apply (fm_inds _ _ _ Hf).
    - destruct (build_value h f i mo) as [x|e], (build_value h' f' i mo) as [y|e']; try easy; [|simpl in Hb; subst; now split]. apply IH, moved_set_inds, inds_set; auto. apply (fm_inds _ _ _ Hf).
  Qed.

  (** ** Frames *)
  Lemma moved_frame_tick f f' tk tk' : FM f f' -> TM tk tk' -> FM (frame_tick f tk) (frame_tick f' tk').
  Proof.
    intros Hf Hk. destruct Hf. unfold frame_tick. rewrite (tm_value _ _ Hk), (tm_value _ _ fm_high), (tm_value _ _ fm_low). constructor; simpl; auto; [now destruct (fltb _ _)| |congruence].
    destruct (fltb _ _); [auto|]. now destruct (fltb _ _).
  Qed.
  Lemma moved_new tk tk' s s' e e' p : TM tk tk' -> date_moved d s s' -> opt_moved (date_moved d) e e' -> FM (frame_new tk s e p) (frame_new tk' s' e' p).
  Proof. intros. constructor; simpl; auto. Qed.
  Lemma moved_next f f' n : FM f f' -> FM (fr_set_next f n) (fr_set_next f' n). Proof. intros []. constructor; simpl; auto. Qed.
  Lemma moved_prev f f' n : FM f f' -> FM (fr_set_prev f n) (fr_set_prev f' n). Proof. intros []. constructor; simpl; auto. Qed.
  Lemma moved_clean mx l : forall h h', Forall2 FM h h' -> let x := clean_old_frames mx h l in let y := clean_old_frames mx h' l in Forall2 FM x.1.1 y.1.1 /\ y.1.2 = x.1.2 /\ y.2 = x.2.
  Proof.
    induction l as [|a l IH]; intros h h' Hh; cbn [clean_old_frames]; [destruct (_ <=? mx); now repeat split|]. destruct (_ <=? mx); [now repeat split|]. destruct l as [|b l]; [now repeat split|].
    apply IH. apply F2_alter; [intros; now apply moved_next|]. apply F2_alter; [intros; now apply moved_prev|auto].
  Qed.
  Lemma moved_current s s' : SM s s' -> fs_current_id s' = fs_current_id s /\ match fs_current s, fs_current s' with Some x, Some y => FM x y | None, None => True | _, _ => False end.
  Proof.
    intros Hs. unfold fs_current, fs_current_id. rewrite (sm_frames _ _ _ Hs). split; [auto|]. destruct (last (fs_frames s)) as [i|]; [|auto]. apply F2_lookup. apply (sm_heap _ _ _ Hs).
  Qed.
  Lemma moved_set_frames s s' h h' l : SM s s' -> Forall2 FM h h' -> SM (fs_set_frames s h l) (fs_set_frames s' h' l).
  Proof. intros [] Hh. constructor; simpl; auto. Qed.
  (** Computations that correspond: the same outcome, and moved frame sets. *)
  Definition same_end (x y : fset F * res unit) : Prop := SM x.1 y.1 /\ y.2 = x.2.
  (** Computations that correspond as long as neither raises. *)
  Definition both_fine (x y : fset F * res unit) : Prop := match x.2, y.2 with Ok _, Ok _ => SM x.1 y.1 | _, _ => True end.
  Lemma moved_create s s' tk tk' a a' e e' mo : SM s s' -> TM tk tk' -> date_moved d a a' -> opt_moved (date_moved d) e e' ->
    same_end (create_new_frame s tk a e mo) (create_new_frame s' tk' a' e' mo).
  Proof.
    intros Hs Hk Ha He. unfold create_new_frame. cbv zeta. destruct (moved_current s s' Hs) as [-> _]. rewrite (sm_inds _ _ _ Hs). set (p := fs_current_id s).
    pose proof (moved_upsert (fs_heap s) (fs_heap s') tk tk' mo (fs_inds s) (sm_heap _ _ _ Hs) Hk (sm_kinds _ _ _ Hs) _ _ (moved_new tk tk' a a' e e' p Hk Ha He)) as [Hf Hr].
    destruct (upsert (fs_heap s) _ tk mo _) as [fr r], (upsert (fs_heap s') _ tk' mo _) as [fr' r']. simpl in Hf, Hr. subst r'. destruct r as [u|x]; [|now split].
    rewrite <- (Forall2_length _ _ _ (sm_heap _ _ _ Hs)), (sm_max _ _ _ Hs), (sm_frames _ _ _ Hs).
    set (h1 := match p with Some c => _ | None => fs_heap s end). set (h1' := match p with Some c => _ | None => fs_heap s' end).
    assert (Forall2 FM h1 h1') as H1. { unfold h1, h1'. destruct p; [|apply (sm_heap _ _ _ Hs)]. apply F2_alter; [intros; now apply moved_next|apply (sm_heap _ _ _ Hs)]. }
    assert (Forall2 FM (h1 ++ [fr]) (h1' ++ [fr'])) as H2 by (apply Forall2_app; [auto|constructor; [auto|constructor]]).
    pose proof (moved_clean (fs_max s) (fs_frames s ++ [length (fs_heap s)]) _ _ H2) as Hc. cbv zeta in Hc.
    destruct (clean_old_frames (fs_max s) (h1 ++ [fr]) _) as [[h2 l2] r2], (clean_old_frames (fs_max s) (h1' ++ [fr']) _) as [[h2' l2'] r2']. simpl in Hc. destruct Hc as (Hh & -> & ->).
    split; [now apply moved_set_frames|auto].
  Qed.
  Definition trel (x y : fset F + fset F * res unit) : Prop :=
    match x, y with
    | inr (_, Err _), _ => True | _, inr (_, Err _) => True
    | inl s, inl s' => SM s s' | inr (s, Ok _), inr (s', Ok _) => SM s s'
    | _, _ => False
    end.
  Lemma moved_fill a a' mo s s' : SM s s' -> date_moved d a a' -> trel (fill_step a mo s) (fill_step a' mo s').
  Proof.
    intros Hs Ha. unfold fill_step. destruct (moved_current s s' Hs) as [_ Hc]. destruct (fs_current s) as [c|], (fs_current s') as [c'|]; try easy.
    pose proof (fm_end _ _ _ Hc) as He. destruct (fr_end c) as [e|], (fr_end c') as [e'|]; try (inversion He; fail); [|exact I]. assert (date_moved d e e') as He1 by now inversion He.
    rewrite (moved_ltb d _ _ _ _ He1 Ha). destruct (arrow_ltb e a); [|exact Hs]. rewrite (sm_unit _ _ _ Hs), (sm_q _ _ _ Hs).
    destruct (get_frame_end (fs_unit s) (fs_q s) e) as [g|x] eqn:Eg; [|exact I]. destruct (get_frame_end (fs_unit s) (fs_q s) e') as [g'|x'] eqn:Eg'.
    2: { destruct (create_new_frame _ _ _ _ _) as [? [?|?]]; exact I. }
    pose proof (moved_end d _ _ _ _ _ _ (sm_moves _ _ _ Hs) He1 Eg Eg') as Hg.
    pose proof (moved_create s s' _ _ e e' (Some g) (Some g') mo Hs (fm_last _ _ _ Hc) He1 (om_some _ _ _ Hg)) as [R E].
    destruct (create_new_frame s _ _ _ _) as [s1 r], (create_new_frame s' _ _ _ _) as [s1' r']. simpl in R, E. subst r'. destruct r; [exact R|exact I].
  Qed.
  Lemma moved_loop p (f g : fset F -> fset F + fset F * res unit) : (forall s s', SM s s' -> trel (f s) (g s')) -> forall s s', SM s s' -> trel (ploop p f s) (ploop p g s').
  Proof.
    intros Hfg. induction p as [p IH|p IH|]; intros s s' Hs; simpl; [| |now apply Hfg].
    - pose proof (Hfg s s' Hs) as T1. destruct (f s) as [a|[a [?|?]]], (g s') as [b|[b [?|?]]]; try easy.
      + pose proof (IH a b T1) as T2. destruct (ploop p f a) as [a1|[a1 [?|?]]], (ploop p g b) as [b1|[b1 [?|?]]]; try easy; [now apply IH|]. simpl. destruct (ploop p f a1) as [?|[? [?|?]]]; exact I.
      + simpl. destruct (ploop p f a) as [a1|[a1 [?|?]]]; try exact I. destruct (ploop p f a1) as [?|[? [?|?]]]; exact I.
    - pose proof (IH s s' Hs) as T2. destruct (ploop p f s) as [a1|[a1 [?|?]]], (ploop p g s') as [b1|[b1 [?|?]]]; try easy; [now apply IH|]. simpl. destruct (ploop p f a1) as [?|[? [?|?]]]; exact I.
  Qed.
  Lemma moved_timed p s s' tk tk' mo : SM s s' -> TM tk tk' -> both_fine (create_new_frame_timed p s tk mo) (create_new_frame_timed p s' tk' mo).
  Proof.
    intros Hs Hk. unfold create_new_frame_timed, both_fine. rewrite (sm_unit _ _ _ Hs), (sm_q _ _ _ Hs).
    destruct (get_frame_start (fs_unit s) (fs_q s) (tk_dt tk)) as [a|x] eqn:Ea; [|exact I].
    destruct (get_frame_start (fs_unit s) (fs_q s) (tk_dt tk')) as [a'|x] eqn:Ea'; [|destruct (match get_frame_end _ _ a with Ok _ => _ | Err _ => _ end) as [? [?|?]]; exact I].
    pose proof (moved_start d Hd _ _ _ _ _ _ (sm_moves _ _ _ Hs) (km_dt _ _ _ Hk) Ea Ea') as Ha.
    destruct (get_frame_end (fs_unit s) (fs_q s) a) as [e|x] eqn:Ee; [|exact I].
    destruct (get_frame_end (fs_unit s) (fs_q s) a') as [e'|x] eqn:Ee'; [|destruct (match ploop p _ s with inl _ => _ | inr _ => _ end) as [? [?|?]]; exact I].
    pose proof (moved_end d _ _ _ _ _ _ (sm_moves _ _ _ Hs) Ha Ee Ee') as He.
    pose proof (moved_loop p _ _ (fun s s' Hs => moved_fill a a' mo s s' Hs Ha) s s' Hs) as Hl.
    destruct (ploop p (fill_step a mo) s) as [s1|[s1 [u|x]]], (ploop p (fill_step a' mo) s') as [s1'|[s1' [u'|x']]]; try easy; try (simpl; destruct (create_new_frame _ _ _ _ _) as [? [?|?]]; exact I).
    pose proof (moved_create s1 s1' tk tk' a a' (Some e) (Some e') mo Hl Hk Ha (om_some _ _ _ He)) as [R E]. destruct (create_new_frame s1 _ _ _ _) as [? r], (create_new_frame s1' _ _ _ _) as [? r']. simpl in R, E. subst r'.
    destruct r; [exact R|exact I].
  Qed.
  Lemma moved_add s s' tk tk' mo : SM s s' -> TM tk tk' -> same_end (add_tick_to_last s tk mo) (add_tick_to_last s' tk' mo).
  Proof.
    intros Hs Hk. unfold add_tick_to_last. destruct (moved_current s s' Hs) as [-> _]. destruct (fs_current_id s) as [i|]; [|now split].
    pose proof (F2_lookup _ _ _ i (sm_heap _ _ _ Hs)) as Hi. destruct (fs_heap s !! i) as [f|], (fs_heap s' !! i) as [f'|]; try easy. unfold frame_on_new_tick. rewrite (sm_inds _ _ _ Hs).
    pose proof (moved_upsert (fs_heap s) (fs_heap s') tk tk' mo (fs_inds s) (sm_heap _ _ _ Hs) Hk (sm_kinds _ _ _ Hs) _ _ (moved_frame_tick f f' tk tk' Hi Hk)) as [Hf Hr].
    destruct (upsert (fs_heap s) _ tk mo _) as [fr r], (upsert (fs_heap s') _ tk' mo _) as [fr' r']. simpl in Hf, Hr. subst r'. rewrite (sm_frames _ _ _ Hs).
    split; [|auto]. apply moved_set_frames; [auto|]. apply Forall2_insert; [apply (sm_heap _ _ _ Hs)|auto].
  Qed.
  Lemma same_both x y : same_end x y -> both_fine x y.
  Proof. intros [R E]. unfold both_fine. rewrite E. now destruct (x.2). Qed.
  Lemma moved_over s s' tk tk' : SM s s' -> TM tk tk' -> is_frame_over_timed s' tk' = is_frame_over_timed s tk.
  Proof.
    intros Hs Hk. unfold is_frame_over_timed. destruct (moved_current s s' Hs) as [_ Hc]. destruct (fs_current s) as [c|], (fs_current s') as [c'|]; try easy.
    pose proof (fm_end _ _ _ Hc) as He. destruct (fr_end c) as [e|], (fr_end c') as [e'|]; try (inversion He; fail); [|auto]. assert (date_moved d e e') as He1 by now inversion He.
    unfold arrow_geb. f_equal. apply (moved_ltb d); auto. apply (km_dt _ _ _ Hk).
  Qed.
  Lemma moved_fuel s s' tk tk' : SM s s' -> TM tk tk' -> gap_fuel s' tk' = gap_fuel s tk.
  Proof.
    intros Hs Hk. unfold gap_fuel. destruct (moved_current s s' Hs) as [_ Hc]. destruct (fs_current s) as [c|], (fs_current s') as [c'|]; try easy.
    pose proof (fm_end _ _ _ Hc) as He. destruct (fr_end c) as [e|], (fr_end c') as [e'|]; try (inversion He; fail); [|auto]. assert (date_moved d e e') as He1 by now inversion He.
    rewrite (dm_wall _ _ _ He1), (dm_wall _ _ _ (km_dt _ _ _ Hk)). f_equal. f_equal. f_equal. ring.
  Qed.
  (** [frame_set.on_new_tick]; [l], [l'] are the dates of the last ticks of the epics. *)
  Definition later (l l' : option arrow) tk tk' : Prop := match l, l' with
    | None, None => True
    | Some a, Some a' => (arrow_date a' <? arrow_date (tk_dt tk')) = (arrow_date a <? arrow_date (tk_dt tk))
    | _, _ => False end.
  Lemma moved_fs p s s' tk tk' mo l l' : SM s s' -> TM tk tk' -> later l l' tk tk' -> both_fine (fs_on_new_tick p s tk mo l) (fs_on_new_tick p s' tk' mo l').
  Proof.
    intros Hs Hk Hl. unfold fs_on_new_tick. rewrite (sm_unit _ _ _ Hs), (moved_over s s' tk tk' Hs Hk).
    assert (is_frame_over_tick s' tk' l' = is_frame_over_tick s tk l) as Ho.
    { unfold is_frame_over_tick. destruct (moved_current s s' Hs) as [_ Hc]. destruct (fs_current s) as [c|], (fs_current s') as [c'|]; try easy. rewrite (sm_q _ _ _ Hs), (fm_nb _ _ _ Hc).
      f_equal. destruct l, l'; try easy. }
    rewrite Ho. assert (both_fine (if is_frame_over_tick s tk l then create_new_frame_tick s tk mo else add_tick_to_last s tk mo)
      (if is_frame_over_tick s tk l then create_new_frame_tick s' tk' mo else add_tick_to_last s' tk' mo)) as Ht.
    { destruct (is_frame_over_tick s tk l); apply same_both; [|now apply moved_add]. apply moved_create; auto; [apply (km_dt _ _ _ Hk)|constructor]. }
    assert (both_fine (if is_frame_over_timed s tk then create_new_frame_timed p s tk mo else add_tick_to_last s tk mo)
      (if is_frame_over_timed s tk then create_new_frame_timed p s' tk' mo else add_tick_to_last s' tk' mo)) as Hg.
    { destruct (is_frame_over_timed s tk); [now apply moved_timed|]. now apply same_both, moved_add. }
    destruct (fs_unit s); auto.
  Qed.
End frames.
