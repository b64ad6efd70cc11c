(** Strategies do not influence each other, nor do epics: whole runs (C64, C65). *)
From Verif Require Export OwnProofs ReentrantProofs.
Open Scope Z_scope.

Section proofs.
  Context {F : Type} `{Num F} (sid : nat) (ine inf : nat -> bool).
  Implicit Types (w v : world F) (t : trade F).
  Notation own := (own sid ine inf). Notation own_ids := (own_ids sid). Notation twins := (twins sid). Notation both := (both sid ine inf). Notation wired := (wired sid ine inf).

  Lemma any_script (s : script F) : script_ok any_call s.
  Proof. induction s as [|e|c k IH]; simpl; auto. split; [exact I|auto]. Qed.
  Lemma any_programs (pr : programs F) : programs_ok any_call pr.
  Proof. intros s cb eid w. apply any_script. Qed.
  Lemma any_op (o : op F) : op_ok any_call o.
  Proof. destruct o; exact I. Qed.

  (** ** The wiring lasts *)
  Lemma cmd_fsets w c : w_fsets (fst (run_cmd w c)) = w_fsets w.
  Proof. pose proof (cmd_rest w c) as E. unfold rest in E. congruence. Qed.
  Lemma wired_cmd w c : wfw w -> wired w -> match c with COpen e _ _ s _ => s = Some sid -> ine e = true | _ => True end -> wired (fst (run_cmd w c)).
  Proof.
    intros W Wi Hc. pose proof (cmd_fsets w c) as Ef. destruct (is_open_call c) eqn:Eo; [|apply (wired_upd_trades sid ine inf w); [now apply keeps_cmd|auto|auto]].
    destruct c as [e d q s ref| | | | | | | | | | ]; try discriminate. cbn [run_cmd] in *. destruct (epic_open_trade w e d q s ref) as [v r] eqn:Ev. cbn [fst] in *.
    apply open_inv in Ev as [(-> & _)|(ep & t & wn & He & Ho & _ & K & C)]; [auto|]. destruct (open_fields _ _ _ _ _ _ _ Ho) as (_ & _ & Hte & Hts & _).
    destruct (own_append sid ine inf w t W) as [A1 A2]. apply (wired_own sid ine inf _ _ (eq_sym A1)) in Wi.
    assert (w_fsets wn = w_fsets w) as Efn.
    { destruct C as [->| ->]; [auto|]. rewrite <- Ef. unfold base_open_trade. destruct (w_trades wn !! _) as [x|]; [|auto]. now destruct (tr_strat x). }
    assert (wired wn) as Wn by (apply (wired_upd_trades sid ine inf _ _ K); auto). destruct C as [->| ->]; [auto|].
    destruct (keeps_t _ _ (length (w_trades w)) t K) as (t' & Ht' & (X1 & X2 & _)); [now apply list_lookup_middle|].
    rewrite (base_open_some _ _ _ _ Ht'). destruct Wn as [W1 W2 W3 W4 W5]. constructor; auto.
    intros i x Hi Hx. cbn [w_trades upd_strats upd_provs add_thread] in Hx. unfold SpecOwn.own_ids in Hi, W5. cbn [w_strats upd_strats upd_provs add_thread] in Hi.
    destruct (tr_strat t') as [s'|] eqn:Es; [|now apply (W5 i)]. destruct (decide (s' = sid)) as [->|Hne].
    - rewrite list_lookup_alter in Hi. destruct (w_strats wn !! sid) as [y|]; [|now apply (W5 i)]. cbn [fmap option_fmap option_map st_set_trades st_trades] in Hi.
      apply elem_of_app in Hi as [Hi|Hi]; [now apply (W5 i)|]. apply elem_of_list_singleton in Hi as ->. change (w_trades wn !! length (w_trades w) = Some x) in Hx.
      assert (x = t') as -> by congruence. rewrite X1, Hte. apply Hc. congruence.
    - rewrite list_lookup_alter_ne in Hi by auto. now apply (W5 i).
  Qed.
  Lemma wired_same_call w w' c c' : wfw w -> wired w -> same_call sid ine w w' c c' -> wired (fst (run_cmd w c)).
  Proof. intros W Wi Hc. apply wired_cmd; auto. destruct Hc; auto. Qed.

  (** ** Callback bodies *)
  Lemma pair_script w w' s s' : same_script sid ine inf w w' s s' -> wired w -> own w = own w' -> reach any_call w -> reach any_call w' ->
    both (run_script w s) (run_script w' s') /\ wired (fst (run_script w s)).
  Proof.
    intros Hs. induction Hs as [w w'|w w' e|w w' c c' k k' v v' r Hc Ev Ev' Hk IH]; intros Wi E R R'; [split; [now split|auto]|split; [now split|auto]|]. simpl.
    pose proof (wired_same_call w w' c c' (reach_wf _ _ R) Wi Hc) as Wv.
    destruct (pair_call sid ine inf w w' c c' Wi E (reach_wf _ _ R) (reach_wf _ _ R') Hc) as [P1 P2].
    pose proof (reach_call any_call w c R Logic.I) as Rv. pose proof (reach_call any_call w' c' R' Logic.I) as Rv'.
    rewrite Ev in *. destruct (run_cmd w' c') as [u' r']; simpl in *. subst u' r'. now apply IH.
  Qed.
  Lemma off_script w s : keeps_off sid w s -> reach any_call w -> own (fst (run_script w s)) = own w /\ snd (run_script w s) = Ok ().
  Proof.
    revert w. induction s as [|e|c k IH]; intros w Hs R; simpl in *; [auto|contradiction|]. destruct Hs as [Hc Hk].
    pose proof (elsewhere_own sid ine inf w c (reach_wf _ _ R) Hc) as E. pose proof (reach_call any_call w c R Logic.I) as Rv.
    destruct (run_cmd w c) as [v r]; simpl in *. destruct (IH v r v Hk Rv) as [A B]. split; [congruence|auto].
  Qed.

  (** ** Ticks *)
  Lemma own_log w w' e : own w = own w' -> own (upd_log w (w_log w ++ [e])) = own (upd_log w' (w_log w' ++ [e])).
  Proof. intros E. apply own_parts in E as (E1 & E2 & E3 & E4 & E5 & E6 & E7). apply own_eq; auto. simpl. rewrite !List.filter_app. now rewrite E3. Qed.
  Lemma own_log_out w e : ev_strat e <> sid -> own (upd_log w (w_log w ++ [e])) = own w.
  Proof. intros He. apply own_eq; auto. simpl. rewrite List.filter_app. simpl. rewrite (proj2 (Nat.eqb_neq _ _) He). apply app_nil_r. Qed.
  Lemma wired_log w l : wired w -> wired (upd_log w l).
  Proof. apply wired_upd_trades; [apply keeps_log|auto]. Qed.
  Lemma pair_callback pr pr' cb eid w w' : own_program sid ine inf (pr sid) (pr' sid) -> ine eid = true -> wired w -> own w = own w' -> reach any_call w -> reach any_call w' ->
    both (run_callback pr sid cb eid w) (run_callback pr' sid cb eid w') /\ wired (fst (run_callback pr sid cb eid w)).
  Proof.
    intros Hp Hin Wi E R R'. unfold run_callback. cbv zeta. apply pair_script; [|now apply wired_log|now apply own_log|now apply reach_log|now apply reach_log]. now apply Hp.
  Qed.
  Lemma off_callback pr s cb eid w : others_keep_off sid pr -> s <> sid -> reach any_call w ->
    own (fst (run_callback pr s cb eid w)) = own w /\ snd (run_callback pr s cb eid w) = Ok ().
  Proof.
    intros Hp Hs R. unfold run_callback. cbv zeta. destruct (off_script (upd_log w (w_log w ++ [{| ev_strat := s; ev_cb := cb; ev_epic := eid |}])) (pr s cb eid w)) as [A B].
    - now apply Hp.
    - now apply reach_log.
    - split; [|auto]. rewrite A. now apply own_log_out.
  Qed.
  Lemma pair_andthen x x' k k' : both x x' /\ wired (fst x) -> reach any_call x.1 -> reach any_call x'.1 ->
    (forall v v', wired v -> own v = own v' -> reach any_call v -> reach any_call v' -> both (k v) (k' v') /\ wired (fst (k v))) ->
    both (andthen x k) (andthen x' k') /\ wired (fst (andthen x k)).
  Proof. intros [[A B] C] R R' Hk. destruct x as [v [u|e]], x' as [v' [u'|e']]; simpl in *; try discriminate; [now apply Hk|]. split; auto. split; auto. Qed.
  Lemma pair_strategy pr pr' eid mo ref w w' : own_program sid ine inf (pr sid) (pr' sid) -> ine eid = true -> wired w -> own w = own w' -> reach any_call w -> reach any_call w' ->
    both (execute_strategy pr eid mo w (ref, sid)) (execute_strategy pr' eid mo w' (ref, sid)) /\ wired (fst (execute_strategy pr eid mo w (ref, sid))).
  Proof.
    intros Hp Hin Wi E R R'. unfold execute_strategy. cbn [snd]. pose proof (own_parts _ _ _ _ _ E) as (E1 & E2 & E3 & E4 & E5 & E6 & E7). rewrite <- (own_epic _ _ _ _ _ _ E Hin).
    destruct (w_strats w !! sid) as [s|] eqn:S1, (w_strats w' !! sid) as [s'|] eqn:S2; try discriminate E2; [|split; [now split|auto]].
    destruct (w_epics w !! eid) as [e|] eqn:Ee; [|split; [now split|auto]].
    pose proof (wired_upd_trades sid ine inf w _ (keeps_active w sid s (tk_dt (ep_last e)) S1) eq_refl Wi) as Wa. pose proof (reach_active any_call w sid s (tk_dt (ep_last e)) R S1) as Ra. pose proof (reach_active any_call w' sid s' (tk_dt (ep_last e)) R' S2) as Ra'.
    assert (st_paused s = st_paused s' /\ st_stopped s = st_stopped s') as [F1 F2] by (injection E2; auto).
    assert (snd (is_active s (tk_dt (ep_last e))) = snd (is_active s' (tk_dt (ep_last e))) /\
      own (upd_strats w (<[sid := fst (is_active s (tk_dt (ep_last e)))]> (w_strats w))) = own (upd_strats w' (<[sid := fst (is_active s' (tk_dt (ep_last e)))]> (w_strats w')))) as [A1 A2].
    { assert (forall z z', st_trades z = st_trades s -> st_ref z = st_ref s -> st_epics z = st_epics s -> st_trades z' = st_trades s' -> st_ref z' = st_ref s' -> st_epics z' = st_epics s' ->
        st_paused z = st_paused z' -> st_stopped z = st_stopped z' -> own (upd_strats w (<[sid := z]> (w_strats w))) = own (upd_strats w' (<[sid := z']> (w_strats w')))) as Hz.
      { intros z z' Z1 Z2 Z3 Z1' Z2' Z3' Z4 Z5. apply own_eq; auto; unfold SpecOwn.own_ids in *; simpl; rewrite ?list_lookup_insert by (eapply lookup_lt_Some; eauto).
        - rewrite S1, S2 in E1. now rewrite Z1, Z1'.
        - simpl. congruence.
        - rewrite (fmap_insert_same _ _ _ _ _ S1), (fmap_insert_same _ _ _ _ _ S2) by congruence. exact E7. }
      unfold is_active. rewrite <- F1, <- F2. destruct (st_stopped s) eqn:Eb; [split; [auto|]; apply Hz; simpl; congruence|].
      destruct (st_paused s) as [u|] eqn:Eu; [|split; [auto|]; apply Hz; simpl; congruence]. destruct (arrow_ltb _ u); (split; [auto|]); apply Hz; simpl; congruence. }
    destruct (is_active s (tk_dt (ep_last e))) as [z a], (is_active s' (tk_dt (ep_last e))) as [z' a']. simpl in A1, A2, Ra, Ra', Wa. subst a'. destruct a; [|split; [now split|auto]].
    pose proof (any_programs pr) as Q. pose proof (any_programs pr') as Q'.
    apply pair_andthen.
    - destruct (eqb mo (ep_mopen e)); [split; [now split|auto]|]. destruct mo; now apply pair_callback.
    - destruct (eqb mo (ep_mopen e)); [auto|]. destruct mo; now apply callback_reach.
    - destruct (eqb mo (ep_mopen e)); [auto|]. destruct mo; now apply callback_reach.
    - intros v v' Wv Ev Rv Rv'. apply pair_andthen.
      + destruct (ep_mopen e); [|split; [now split|auto]]. now apply pair_callback.
      + destruct (ep_mopen e); [now apply callback_reach|auto].
      + destruct (ep_mopen e); [now apply callback_reach|auto].
      + intros u u' Wu Eu Ru Ru'. now apply pair_callback.
  Qed.
  Lemma off_strategy pr eid mo x w : others_keep_off sid pr -> x.2 <> sid -> reach any_call w -> is_Some (w_strats w !! x.2) -> is_Some (w_epics w !! eid) ->
    own (fst (execute_strategy pr eid mo w x)) = own w /\ snd (execute_strategy pr eid mo w x) = Ok ().
  Proof.
    intros Hp Hx R [s Es] [e Ee]. unfold execute_strategy. rewrite Es, Ee. pose proof (reach_active any_call w x.2 s (tk_dt (ep_last e)) R Es) as Ra.
    assert (own (upd_strats w (<[x.2 := fst (is_active s (tk_dt (ep_last e)))]> (w_strats w))) = own w) as A.
    { apply own_eq; auto; unfold SpecOwn.own_ids; simpl; rewrite ?list_lookup_insert_ne by auto; auto. apply (fmap_insert_same _ _ _ _ s); [auto|]. unfold is_active.
      destruct (st_stopped s); [auto|]. destruct (st_paused s); [|auto]. now destruct (arrow_ltb _ _). }
    destruct (is_active s (tk_dt (ep_last e))) as [z a]. simpl in A, Ra. destruct a; [|auto].
    pose proof (any_programs pr) as Q.
    set (P := fun y : world F * res unit => own y.1 = own w /\ y.2 = Ok () /\ reach any_call y.1).
    assert (forall cb v, own v = own w -> reach any_call v -> P (run_callback pr x.2 cb eid v)) as Hcb.
    { intros cb v Ev Rv. destruct (off_callback pr x.2 cb eid v Hp Hx Rv) as [B1 B2]. split; [congruence|]. split; [auto|]. now apply callback_reach. }
    assert (forall y k, P y -> (forall v, own v = own w -> reach any_call v -> P (k v)) -> P (andthen y k)) as Hat.
    { intros [v [u|er]] k (B1 & B2 & B3) Hk; simpl in *; [auto|discriminate]. }
    match goal with |- own (fst ?y) = _ /\ _ => assert (P y) as (B1 & B2 & _); [|auto] end.
    apply Hat; [|intros v Ev Rv; apply Hat; [|intros u Eu Ru; now apply Hcb]].
    - destruct (eqb mo (ep_mopen e)); [split; auto|]. destruct mo; now apply Hcb.
    - destruct (ep_mopen e); [now apply Hcb|]. split; auto.
  Qed.

  Lemma imap_insert {A B} (f : nat -> A -> B) i x l : imap f (<[i := x]> l) = <[i := f i x]> (imap f l).
  Proof.
    apply list_eq. intros j. rewrite list_lookup_imap. destruct (decide (i = j)) as [->|Hne].
    - destruct (l !! j) as [y|] eqn:E.
      + rewrite !list_lookup_insert; [auto|rewrite imap_length|]; eapply lookup_lt_Some; eauto.
      + rewrite !list_insert_ge by (rewrite ?imap_length; now apply lookup_ge_None). now rewrite list_lookup_imap.
    - rewrite !list_lookup_insert_ne by auto. now rewrite list_lookup_imap.
  Qed.
  Lemma imap_insert_same {A B} (f : nat -> A -> B) i x y l : l !! i = Some y -> f i x = f i y -> imap f (<[i := x]> l) = imap f l.
  Proof. intros Hy Hf. rewrite imap_insert, Hf. apply list_insert_id. now rewrite list_lookup_imap, Hy. Qed.
  Lemma wired_fset tk x w : wired w -> wired (fst (update_frame_set tk w x)).
  Proof.
    apply wired_keeps; [apply keeps_fset|]. intros f fs'. unfold update_frame_set. destruct (w_fsets w !! x.2) as [fs|] eqn:Ef; [|eauto].
    destruct (fs_epic_state w fs) as [mo l]. pose proof (fs_tick_conf (gap_fuel fs tk) fs tk mo l) as C. destruct (fs_on_new_tick _ fs tk mo l) as [fs1 r]. cbn [fst w_fsets upd_fsets] in *.
    destruct (decide (f = x.2)) as [->|Hne]; [|rewrite list_lookup_insert_ne by auto; eauto]. rewrite list_lookup_insert by (eapply lookup_lt_Some; eauto).
    intros X. injection X as <-. exists fs. split; [auto|]. apply C.
  Qed.
  Lemma pair_fset tk x w w' : inf x.2 = true -> wired w -> own w = own w' -> both (update_frame_set tk w x) (update_frame_set tk w' x).
  Proof.
    intros Hx Wi E. pose proof (own_parts _ _ _ _ _ E) as (E1 & E2 & E3 & E4 & E5 & E6 & E7). unfold update_frame_set. rewrite <- (own_fset _ _ _ _ _ _ E Hx). destruct (w_fsets w !! x.2) as [fs|] eqn:Ef; [|now split].
    assert (fs_epic_state w' fs = fs_epic_state w fs) as ->.
    { unfold fs_epic_state. destruct (fs_epic fs) as [i|] eqn:Ei; [|auto]. now rewrite <- (own_epic _ _ _ _ _ _ E (wired_epic _ _ _ _ Wi _ _ _ Ef Hx Ei)). }
    destruct (fs_epic_state w fs) as [mo l].
    destruct (fs_on_new_tick _ fs tk mo l) as [fs' r]. split; [|auto]. cbn [fst]. apply own_eq; auto. cbn [w_fsets upd_fsets]. rewrite !imap_insert. congruence.
  Qed.
  Lemma off_fset tk x w : inf x.2 = false -> own (fst (update_frame_set tk w x)) = own w.
  Proof.
    intros Hx. unfold update_frame_set. destruct (w_fsets w !! x.2) as [fs|] eqn:Ef; [|auto]. destruct (fs_epic_state w fs) as [mo l].
    pose proof (fs_tick_conf (gap_fuel fs tk) fs tk mo l) as (C & _). destruct (fs_on_new_tick _ fs tk mo l) as [fs' r]. cbn [fst] in *. apply own_eq; auto.
    cbn [w_fsets upd_fsets]. apply (imap_insert_same _ _ _ fs); [auto|]. rewrite Hx. now rewrite C.
  Qed.
  Lemma pair_value pid tk w w' : own w = own w' -> wfw w -> wfw w' -> own (update_open_trades w pid tk) = own (update_open_trades w' pid tk).
  Proof.
    intros E W W'. pose proof (own_parts _ _ _ _ _ E) as (E1 & E2 & E3 & E4 & E5 & E6 & E7). apply (f_equal (fun l => l !! pid)) in E6. rewrite !list_lookup_fmap in E6.
    destruct (w_provs w !! pid) as [p|] eqn:P1, (w_provs w' !! pid) as [p'|] eqn:P2; try discriminate E6.
    2: { unfold update_open_trades. now rewrite P1, P2. }
    assert (forall w p, w_provs w !! pid = Some p -> update_open_trades w pid tk = upd_trades w (w_trades (update_open_trades w pid tk))) as Hu.
    { clear. intros w p Hp. unfold update_open_trades. now rewrite Hp. }
    rewrite (Hu w p P1), (Hu w' p' P2). clear Hu. apply own_trades; [auto|]. intros i i' T.
    rewrite (value_lookup w pid p), (value_lookup w' pid p') by (first [assumption|apply increasing_nodup; first [apply (wf_prov _ W _ _ P1)|apply (wf_prov _ W' _ _ P2)]]).
    pose proof (own_twin _ _ _ _ _ _ _ E T) as Et.
    assert (bool_decide (i ∈ opened_trades w p) = bool_decide (i' ∈ opened_trades w' p')) as ->.
    { assert (forall w p i, wfw w -> w_provs w !! pid = Some p -> i ∈ own_ids w -> i ∈ opened_trades w p <-> trade_open_b w i = true /\ at_prov w pid i = true) as Hin.
      { clear. intros w p i W Hp Hi. pose proof (own_opened sid w pid p W Hp) as Eo. destruct (ids_wf sid w W) as [_ Hm]. specialize (Hm i Hi).
        assert (i ∈ List.filter (mine sid w) (opened_trades w p) <-> i ∈ opened_trades w p) as <-.
        { rewrite !elem_of_list_In, filter_In. intuition. }
        rewrite Eo. rewrite elem_of_list_In, filter_In, <- elem_of_list_In, elem_of_reverse, elem_of_list_In, filter_In, <- elem_of_list_In. intuition. }
      destruct (twins_in _ _ _ _ _ T) as [T1 T2]. apply bool_decide_ext. rewrite (Hin w p i W P1 T1), (Hin w' p' i' W' P2 T2).
      now rewrite (twin_open _ _ _ _ _ _ _ E T), (twin_prov _ _ _ _ _ pid _ _ E T). }
    destruct (bool_decide _); [|auto]. destruct (w_trades w !! i) as [t|], (w_trades w' !! i') as [t'|]; try discriminate Et; [|auto].
    apply (inj Some) in Et. cbn [fmap option_fmap option_map]. rewrite <- !erase_update_tick. now rewrite Et.
  Qed.
  Lemma off_value pid tk w e ep : wired w -> wfw w -> w_epics w !! e = Some ep -> ep_prov ep = pid -> ine e = false -> own (update_open_trades w pid tk) = own w.
  Proof.
    intros Wi W He Hp Hin. unfold update_open_trades. destruct (w_provs w !! pid) as [p|] eqn:P; [|auto].
    match goal with |- own (upd_trades w ?ts) = _ => assert (update_open_trades w pid tk = upd_trades w ts) as Hu by (unfold update_open_trades; now rewrite P); rewrite <- Hu end.
    assert (update_open_trades w pid tk = upd_trades w (w_trades (update_open_trades w pid tk))) as -> by now rewrite Hu. apply own_same_trades. intros i Hi.
    rewrite (value_lookup w pid p) by (first [assumption|apply increasing_nodup; apply (wf_prov _ W _ _ P)]). rewrite bool_decide_eq_false_2; [auto|]. intros C.
    apply opened_trades_elem in C as [C _]. destruct (wf_prov _ W _ _ P) as [_ P2]. destruct (P2 _ C) as (t & ep' & Ht & He' & Hp').
    pose proof (wired_trades _ _ _ _ Wi _ _ Hi Ht) as X. rewrite (wired_provs _ _ _ _ Wi _ _ _ _ He' He) in X; congruence.
  Qed.
  Lemma pair_loop {A} (f g : world F -> A -> world F * res unit) l (Q : world F -> world F -> Prop) w w' :
    (forall v v' x, x ∈ l -> own v = own v' -> Q v v' -> both (f v x) (g v' x) /\ Q (fst (f v x)) (fst (g v' x))) -> own w = own w' -> Q w w' ->
    both (forM f w l) (forM g w' l) /\ Q (fst (forM f w l)) (fst (forM g w' l)).
  Proof.
    revert w w'. induction l as [|x l IH]; intros w w' Hf E HQ; simpl; [now repeat split|]. destruct (Hf w w' x ltac:(left) E HQ) as [[B1 B2] B3].
    destruct (f w x) as [v [u|e]], (g w' x) as [v' [u'|e']]; simpl in *; try discriminate; [|now repeat split]. apply IH; auto. intros a b y Hy. apply Hf. now right.
  Qed.
  Lemma wired_accept w eid e tk b : w_epics w !! eid = Some e -> wired w -> wired (upd_epics w (<[eid := ep_set_last e tk b]> (w_epics w))).
  Proof. intros He. apply wired_upd_trades; [now apply keeps_accept|auto]. Qed.
  Lemma value_epics w pid tk : w_epics (update_open_trades w pid tk) = w_epics w.
  Proof. unfold update_open_trades. now destruct (w_provs w !! pid). Qed.
  Lemma value_fsets w pid tk : w_fsets (update_open_trades w pid tk) = w_fsets w.
  Proof. unfold update_open_trades. now destruct (w_provs w !! pid). Qed.
  (** A tick of an epic of the strategy. *)
  Lemma pair_tick pr pr' eid tk0 w w' : own_program sid ine inf (pr sid) (pr' sid) -> others_keep_off sid pr -> others_keep_off sid pr' -> ine eid = true -> wired w -> own w = own w' -> reach any_call w -> reach any_call w' ->
    both (epic_on_new_tick pr w eid tk0) (epic_on_new_tick pr' w' eid tk0) /\ wired (fst (epic_on_new_tick pr w eid tk0)).
  Proof.
    intros Hp Ho Ho' Hin Wi E R R'. pose proof (own_parts _ _ _ _ _ E) as (E1 & E2 & E3 & E4 & E5 & E6 & E7). pose proof (own_epic _ _ _ _ _ _ E Hin) as Eep. unfold epic_on_new_tick. rewrite <- Eep.
    destruct (w_epics w !! eid) as [e|] eqn:Ee; [|split; [now split|auto]]. cbv zeta. destruct (arrow_ltb _ _) eqn:Ea; [split; [now split|auto]|]. set (e' := ep_set_last e _ _). set (tk := tick_to _ _).
    symmetry in Eep. rename Eep into Ee'.
    set (Q := fun v v' : world F => reach any_call v /\ reach any_call v' /\ w_epics v !! eid = Some e' /\ w_epics v' !! eid = Some e' /\ wired v).
    set (w1 := upd_epics w _). set (w1' := upd_epics w' _).
    assert (own w1 = own w1') as Ew1 by (unfold w1, w1'; apply own_eq; auto; cbn [w_epics upd_epics]; rewrite !imap_insert; congruence).
    assert (Q w1 w1') as Q1.
    { split; [now apply reach_accept|]. split; [now apply reach_accept|]. simpl. rewrite !list_lookup_insert by (eapply lookup_lt_Some; eauto). split; [auto|]. split; [auto|]. now apply wired_accept. }
    destruct (pair_loop (update_frame_set tk) (update_frame_set tk) (ep_fsets e') Q w1 w1') as [B1 B2]; auto.
    { intros v v' x Hx Ev (A1 & A2 & A3 & A4 & A5). split; [apply pair_fset; auto; rewrite <- Hin; now apply (wired_fsets _ _ _ _ A5 eid e')|]. unfold Q. rewrite !update_fset_epics.
      split; [now apply (reach_fset _ v eid e' x)|]. split; [now apply (reach_fset _ v' eid e' x)|]. split; [auto|]. split; [auto|]. now apply wired_fset. }
    destruct B1 as [B1 B3]. destruct (forM _ w1 _) as [w2 [u|x]], (forM _ w1' _) as [w2' [u'|x']]; simpl in B1, B2, B3; try discriminate B3; [|split; [split; simpl; auto; congruence|apply B2]].
    destruct B2 as (A1 & A2 & A3 & A4 & A5). cbn [andthen].
    pose proof (any_programs pr) as Qp. pose proof (any_programs pr') as Qp'.
    assert (forall pr v x, w_epics v !! eid = Some e' -> w_epics (fst (execute_strategy pr eid (ep_mopen e) v x)) !! eid = Some e') as Hke.
    { intros pr0 v x Hv. now rewrite exec_epics. }
    destruct (pair_loop (execute_strategy pr eid (ep_mopen e)) (execute_strategy pr' eid (ep_mopen e)) (ep_strats e') Q (update_open_trades w2 (ep_prov e') tk) (update_open_trades w2' (ep_prov e') tk)) as [C1 C2]; [| | |split; [exact C1|apply C2]].
    - intros v v' x Hx Ev (D1 & D2 & D3 & D4 & D5).
      assert (both (execute_strategy pr eid (ep_mopen e) v x) (execute_strategy pr' eid (ep_mopen e) v' x) /\ wired (fst (execute_strategy pr eid (ep_mopen e) v x))) as [G1 G2].
      { destruct (decide (x.2 = sid)) as [Ex|Hne].
        * destruct x as [ref y]. simpl in Ex. subst y. now apply pair_strategy.
        * destruct (wf_epic _ (reach_wf _ _ D1) _ _ D3) as (_ & _ & G). destruct (wf_epic _ (reach_wf _ _ D2) _ _ D4) as (_ & _ & G').
          destruct (off_strategy pr eid (ep_mopen e) x v Ho Hne D1 (G x Hx) (mk_is_Some _ _ D3)) as [X1 X2].
          destruct (off_strategy pr' eid (ep_mopen e) x v' Ho' Hne D2 (G' x Hx) (mk_is_Some _ _ D4)) as [Y1 Y2]. split; [split; congruence|]. now apply (wired_own _ _ _ v). }
      split; [auto|]. split; [now apply strategy_reach|]. split; [now apply strategy_reach|]. split; [now apply Hke|]. split; [now apply Hke|auto].
    - apply pair_value; [auto|now apply (reach_wf any_call)|now apply (reach_wf any_call)].
    - split; [now apply (reach_value _ w2 eid e')|]. split; [now apply (reach_value _ w2' eid e')|].
      rewrite !value_epics. split; [auto|]. split; [auto|]. apply (wired_upd_trades _ _ _ w2); [apply keeps_value|apply value_fsets|auto].
  Qed.
  (** A tick of another epic. *)
  Lemma off_tick pr eid tk0 w : others_keep_off sid pr -> ine eid = false -> wired w -> reach any_call w -> own (fst (epic_on_new_tick pr w eid tk0)) = own w.
  Proof.
    intros Ho Hin Wi R. unfold epic_on_new_tick. destruct (w_epics w !! eid) as [e|] eqn:Ee; [|auto]. cbv zeta. destruct (arrow_ltb _ _) eqn:Ea; [auto|]. set (e' := ep_set_last e _ _). set (tk := tick_to _ _).
    set (Q := fun v : world F => own v = own w /\ reach any_call v /\ w_epics v !! eid = Some e' /\ wired v). set (w1 := upd_epics w _).
    assert (Q w1) as Q1.
    { split; [|split; [now apply reach_accept|]; split; [apply list_lookup_insert; eapply lookup_lt_Some; eauto|now apply wired_accept]].
      unfold w1. apply own_eq; auto. cbn [w_epics upd_epics]. apply (imap_insert_same _ _ _ e); [auto|]. rewrite Hin. reflexivity. }
    assert (Q (fst (forM (update_frame_set tk) w1 (ep_fsets e')))) as Q2.
    { apply (forM_inv Q); [|auto]. intros v x Hx (A1 & A2 & A3 & A4). split; [|split; [now apply (reach_fset _ v eid e' x)|]; split; [now rewrite update_fset_epics|now apply wired_fset]].
      rewrite off_fset; [auto|]. rewrite <- Hin. now apply (wired_fsets _ _ _ _ A4 eid e'). }
    destruct (forM _ w1 _) as [w2 [u|x]]; simpl in Q2; [|apply Q2]. destruct Q2 as (A1 & A2 & A3 & A4). cbn [andthen].
    assert (Q (update_open_trades w2 (ep_prov e') tk)) as Q3.
    { split; [|split; [now apply (reach_value _ w2 eid e')|]; split; [now rewrite value_epics|apply (wired_upd_trades _ _ _ w2); [apply keeps_value|apply value_fsets|auto]]].
      rewrite (off_value _ tk w2 eid e'); auto. now apply (reach_wf any_call). }
    pose proof (any_programs pr) as Qp.
    match goal with |- own (fst ?y) = _ => assert (Q (fst y)) as Q4; [|apply Q4] end.
    apply (forM_inv Q); [|auto]. intros v x Hx (D1 & D2 & D3 & D4). assert (x.2 <> sid) as Hne by (intros C; pose proof (wired_strats _ _ _ _ D4 eid e' x D3 Hx C); congruence).
    destruct (wf_epic _ (reach_wf _ _ D2) _ _ D3) as (_ & _ & G). destruct (off_strategy pr eid (ep_mopen e) x v Ho Hne D2 (G x Hx) (mk_is_Some _ _ D3)) as [X1 X2].
    split; [congruence|]. split; [now apply strategy_reach|]. split; [now rewrite exec_epics|now apply (wired_own _ _ _ v)].
  Qed.

  (** ** Creation and registration *)
  Lemma own_strategy_ref w w' s x x' : own w = own w' -> w_strats w !! s = Some x -> w_strats w' !! s = Some x' -> st_ref x = st_ref x' /\ st_epics x = st_epics x'.
  Proof. intros E A B. apply own_parts in E as (_ & _ & _ & _ & _ & _ & E). apply (f_equal (fun l => l !! s)) in E. rewrite !list_lookup_fmap, A, B in E. simpl in E. injection E. auto. Qed.
  Lemma own_strategy_some w w' s : own w = own w' -> w_strats w !! s = None <-> w_strats w' !! s = None.
  Proof. intros E. apply own_parts in E as (_ & _ & _ & _ & _ & _ & E). apply (f_equal length) in E. rewrite !fmap_length in E. rewrite !lookup_ge_None. lia. Qed.
  Lemma own_all w w' : (forall i, ine i = true /\ inf i = true) -> own w = own w' -> w_epics w = w_epics w' /\ w_fsets w = w_fsets w'.
  Proof. intros Ha E. split; apply list_eq; intros i; destruct (Ha i); [now apply (own_epic sid ine inf)|now apply (own_fset sid ine inf)]. Qed.
  Lemma wired_all w : (forall i, ine i = true /\ inf i = true) -> wired w.
  Proof. intros Ha. constructor; intros; rewrite ?(proj1 (Ha _)), ?(proj2 (Ha _)); auto. Qed.
  Lemma pair_setup pr pr' o w w' : (forall i, ine i = true /\ inf i = true) -> own w = own w' -> (forall c, o <> OCmd c) -> (forall e tk, o <> OTick e tk) -> both (step pr w o) (step pr' w' o).
  Proof.
    intros Ha E Hc Ht. pose proof (own_parts _ _ _ _ _ E) as (E1 & E2 & E3 & E4' & E5' & E6 & E7). destruct (own_all w w' Ha E) as [E4 E5].
    destruct o as [k|ref|u q ref m|ref tz op cl ds hs pv|e f|e s|f i|e tk|c]; [| | | | | | |now destruct (Ht e tk)|now destruct (Hc c)]; cbn [step].
    - split; [|auto]. cbn [fst]. apply own_eq; auto. simpl. rewrite !fmap_app. now rewrite E6.
    - split; [|auto]. cbn [fst]. pose proof (own_strategy_some w w' sid E) as Hn.
      set (x := {| st_ref := ref; st_epics := []; st_paused := None; st_stopped := false; st_trades := [] |}).
      assert (length (w_strats w) = length (w_strats w')) as Hl by (apply (f_equal length) in E7; now rewrite !fmap_length in E7).
      assert (forall v, own_ids (upd_strats v (w_strats v ++ [x])) = own_ids v) as Hi.
      { intros v. unfold SpecOwn.own_ids. simpl. destruct (w_strats v !! sid) as [y|] eqn:Ev; [now rewrite (lookup_app_l_Some _ _ _ _ Ev)|].
        destruct ((w_strats v ++ [x]) !! sid) as [y|] eqn:Ey; [|auto]. apply lookup_app_Some in Ey as [Ey|[_ Ey]]; [congruence|]. apply list_lookup_singleton_Some in Ey as [_ <-]. reflexivity. }
      apply own_eq; auto.
      + rewrite !Hi. exact E1.
      + simpl. destruct (decide (sid < length (w_strats w))%nat) as [L|L].
        * rewrite !lookup_app_l by lia. exact E2.
        * rewrite !lookup_app_r by lia. now rewrite Hl.
      + simpl. rewrite !fmap_app. now rewrite E7.
    - destruct (fset_init u q ref m) as [fs|x]; [|now split]. split; [|auto]. cbn [fst]. apply own_eq; auto. simpl. now rewrite E5.
    - unfold new_epic. destruct tz as [z|]; [|now split].
      assert (length (w_provs w) = length (w_provs w')) as Hl by (apply (f_equal length) in E6; now rewrite !fmap_length in E6).
      assert (valid_id (w_provs w) pv = valid_id (w_provs w') pv) as -> by (unfold valid_id; now rewrite Hl). destruct (valid_id (w_provs w') pv); [|now split].
      cbv zeta. destruct pv as [p|]; (split; [|auto]); cbn [fst]; apply own_eq; auto; simpl; rewrite ?fmap_app, ?E4, ?E6, ?Hl; auto.
    - unfold add_frame_set. rewrite <- E4, <- E5. destruct (w_epics w !! e) as [ep|]; [|now split]. destruct (w_fsets w !! f) as [fs|]; [|now split].
      destruct (dict_get _ _); [now split|]. split; [|auto]. cbn [fst]. apply own_eq; simpl; auto.
    - unfold add_strategy. rewrite <- E4. destruct (w_epics w !! e) as [ep|]; [|now split].
      destruct (w_strats w !! s) as [x|] eqn:S1, (w_strats w' !! s) as [x'|] eqn:S2;
        [|apply (own_strategy_some w w' s E) in S2; congruence|apply (own_strategy_some w w' s E) in S1; congruence|now split].
      destruct (own_strategy_ref w w' s x x' E S1 S2) as [R1 R2]. rewrite <- R1, <- R2. destruct (dict_get _ _); [now split|]. split; [|auto]. cbn [fst].
      assert (forall v y d, w_strats v !! s = Some y -> own_ids (upd_strats v (<[s := st_set_epics y d]> (w_strats v))) = own_ids v) as Hi.
      { intros v y d Hy. unfold SpecOwn.own_ids. simpl. destruct (decide (s = sid)) as [->|Hne]; [rewrite list_lookup_insert by (eapply lookup_lt_Some; eauto); now rewrite Hy|now rewrite list_lookup_insert_ne]. }
      apply own_eq; auto; simpl.
      + specialize (Hi w x) as H1. specialize (Hi w' x') as H2. unfold SpecOwn.own_ids in H1, H2, E1 |- *. simpl in *. rewrite H1, H2 by auto. exact E1.
      + destruct (decide (s = sid)) as [->|Hne]; [rewrite !list_lookup_insert by (eapply lookup_lt_Some; eauto); rewrite S1, S2 in E2; exact E2|now rewrite !list_lookup_insert_ne].
      + rewrite !list_fmap_insert. simpl. now rewrite E7, R1.
    - rewrite <- E5. destruct (w_fsets w !! f) as [fs|]; [|now split]. destruct (add_indicator fs i) as [fs' r]. split; [|auto]. cbn [fst]. now apply own_eq.
  Qed.

  (** ** Whole runs *)
  Lemma off_step pr o w : others_keep_off sid pr -> other_op sid ine o -> wired w -> reach any_call w -> own (fst (step pr w o)) = own w.
  Proof.
    intros Ho Hc Wi R. destruct o as [k|ref|u q ref m|ref tz op cl ds hs pv|e f|e s|f i|e tk|c]; try contradiction; [now apply off_tick|].
    apply elsewhere_own; [now apply (reach_wf any_call)|]. now destruct c.
  Qed.
  Lemma own_same w w' c : own_main sid ine c -> same_call sid ine w w' c c.
  Proof. destruct c; simpl; try contradiction; [intros [-> He]|intros ->..]; now constructor. Qed.
  Lemma pair_run pr pr' l l' w w' : own_program sid ine inf (pr sid) (pr' sid) -> others_keep_off sid pr -> others_keep_off sid pr' -> same_main sid ine inf l l' ->
    reach any_call w -> reach any_call w' -> wired w -> own w = own w' -> own (run pr w l) = own (run pr' w' l').
  Proof.
    intros Hp Ho Ho' Hl. pose proof (any_programs pr) as Q. pose proof (any_programs pr') as Q'. revert w w'.
    induction Hl as [|o l l' Hn Hl IH|o l l' Hc Hl IH|o l l' Hc Hl IH]; intros w w' R R' Wi E; simpl.
    - exact E.
    - assert (both (step pr w o) (step pr' w' o) /\ wired (fst (step pr w o))) as [[A _] B]; [|apply IH; auto; apply step_reach; auto; apply any_op].
      destruct o as [k|ref|u q ref m|ref tz op cl ds hs pv|e f|e s|f i|e tk|c]; try (split; [apply pair_setup; auto; intros; discriminate|now apply wired_all]; fail).
      + now apply pair_tick.
      + pose proof (own_same w w' c Hn) as Hs. split; [apply (pair_call sid ine inf w w' c c Wi E (reach_wf _ _ R) (reach_wf _ _ R')); auto|].
        now apply (wired_same_call w w' c c (reach_wf _ _ R)).
    - assert (own (fst (step pr w o)) = own w) as A by now apply off_step. apply IH; [apply step_reach; auto; apply any_op|auto|now apply (wired_own _ _ _ w)|congruence].
    - assert (own (fst (step pr' w' o)) = own w') as A by (apply off_step; auto; now apply (wired_own _ _ _ w)). apply IH; [auto|apply step_reach; auto; apply any_op|auto|congruence].
  Qed.
  Lemma same_main_refl (l : list (op F)) : Forall (fun o => own_op sid ine inf o \/ other_op sid ine o) l -> same_main sid ine inf l l.
  Proof.
    intros Hl. induction Hl as [|o l Ho Hl IH]; [constructor|]. destruct Ho as [Ho|Ho]; [now apply sm_own|]. apply sm_left; [auto|]. now apply sm_right.
  Qed.
  Lemma run_alone pr l w : own_program sid ine inf (pr sid) (pr sid) -> others_keep_off sid pr ->
    Forall (fun o => own_op sid ine inf o \/ other_op sid ine o) l -> reach any_call w -> wired w -> own (run pr w l) = own (run (alone sid pr) w l).
  Proof.
    intros Hp Ho Hl R Wi. apply pair_run; auto; [| |now apply same_main_refl].
    - intros cb eid v v' A B C. unfold alone. rewrite decide_True by auto. now apply Hp.
    - intros s cb eid v Hs Rv. unfold alone. rewrite decide_False by auto. exact I.
  Qed.
  Lemma same_main_drop (l : list (op F)) : Forall (fun o => own_op sid ine inf o \/ other_op sid ine o) l -> same_main sid ine inf l (own_ticks ine l).
  Proof.
    intros Hl. induction Hl as [|o l Ho Hl IH]; [constructor|]. unfold own_ticks in *. cbn [List.filter].
    destruct o as [k|ref|u q ref m|ref tz op cl ds hs pv|e f|e s|f i|e tk|c]; try (destruct Ho as [Ho|[]]; now apply sm_own).
    - destruct Ho as [Ho|Ho]; simpl in Ho; rewrite Ho; [now apply sm_own|now apply sm_left].
    - destruct Ho as [Ho|Ho]; [now apply sm_own|]. apply sm_left; [auto|]. now apply sm_right.
  Qed.
  Lemma run_epics pr l w : own_program sid ine inf (pr sid) (pr sid) -> others_keep_off sid pr ->
    Forall (fun o => own_op sid ine inf o \/ other_op sid ine o) l -> reach any_call w -> wired w -> own (run pr w l) = own (run (alone sid pr) w (own_ticks ine l)).
  Proof.
    intros Hp Ho Hl R Wi. apply pair_run; auto; [| |now apply same_main_drop].
    - intros cb eid v v' A B C. unfold alone. rewrite decide_True by auto. now apply Hp.
    - intros s cb eid v Hs Rv. unfold alone. rewrite decide_False by auto. exact I.
  Qed.
  (** The figures of the strategy. *)
  Lemma own_results w w' s s' : own w = own w' -> w_strats w !! sid = Some s -> w_strats w' !! sid = Some s' ->
    strategy_result w s TNone = strategy_result w' s' TNone /\ profit_factor w s TNone = profit_factor w' s' TNone.
  Proof.
    intros E S1 S2. assert (results_of w (st_trades s) = results_of w' (st_trades s')) as Er.
    { apply own_parts in E as (E & _). unfold SpecOwn.own_ids in E. rewrite S1, S2 in E.
      assert (forall w l, results_of w l = map result (omap id ((fun i => erase_trade <$> w_trades w !! i) <$> l))) as Hr.
      { clear. intros w l. induction l as [|i l IH]; [auto|]. unfold results_of in *. rewrite fmap_cons. cbn [omap list_omap] in *. destruct (w_trades w !! i) as [t|]; [|exact IH].
        cbn [fmap option_fmap option_map id map] in *. rewrite erase_result. f_equal. exact IH. }
      rewrite (Hr w), (Hr w'). now rewrite E. }
    unfold strategy_result, profit_factor. simpl. now rewrite Er.
  Qed.
End proofs.
