(** Strategies do not influence each other, nor do epics (C64, C65). *)
From Verif Require Export SpecOwn ScheduleProofs ProviderProofs.
Open Scope Z_scope.

Section proofs.
  Context {F : Type} `{Num F} (sid : nat) (ine inf : nat -> bool).
  Implicit Types (w v : world F) (t : trade F).
  Notation own := (own sid ine inf). Notation own_ids := (own_ids sid). Notation twins := (twins sid). Notation wired := (wired sid ine inf).
  Notation mask_e := (fun (i : nat) (e : epic F) => if ine i then e else ep_set_last e fake_tick false).
  Notation mask_f := (fun (i : nat) (fs : fset F) => if inf i then @inl (fset F) string fs else inr (fs_ref fs)).

  Lemma own_parts w w' : own w = own w' ->
    (fun i => erase_trade <$> w_trades w !! i) <$> own_ids w = (fun i => erase_trade <$> w_trades w' !! i) <$> own_ids w' /\
    (fun s => (st_paused s, st_stopped s)) <$> w_strats w !! sid = (fun s => (st_paused s, st_stopped s)) <$> w_strats w' !! sid /\
    List.filter (fun e => ev_strat e =? sid)%nat (w_log w) = List.filter (fun e => ev_strat e =? sid)%nat (w_log w') /\
    imap mask_e (w_epics w) = imap mask_e (w_epics w') /\ imap mask_f (w_fsets w) = imap mask_f (w_fsets w') /\ pv_kind <$> w_provs w = pv_kind <$> w_provs w' /\
    (fun s => (st_ref s, st_epics s)) <$> w_strats w = (fun s => (st_ref s, st_epics s)) <$> w_strats w'.
  Proof. unfold SpecOwn.own. intros E. injection E. auto 10. Qed.
  Lemma own_eq w w' :
    (fun i => erase_trade <$> w_trades w !! i) <$> own_ids w = (fun i => erase_trade <$> w_trades w' !! i) <$> own_ids w' ->
    (fun s => (st_paused s, st_stopped s)) <$> w_strats w !! sid = (fun s => (st_paused s, st_stopped s)) <$> w_strats w' !! sid ->
    List.filter (fun e => ev_strat e =? sid)%nat (w_log w) = List.filter (fun e => ev_strat e =? sid)%nat (w_log w') ->
    imap mask_e (w_epics w) = imap mask_e (w_epics w') -> imap mask_f (w_fsets w) = imap mask_f (w_fsets w') -> pv_kind <$> w_provs w = pv_kind <$> w_provs w' ->
    (fun s => (st_ref s, st_epics s)) <$> w_strats w = (fun s => (st_ref s, st_epics s)) <$> w_strats w' -> own w = own w'.
  Proof. intros. unfold SpecOwn.own. f_equal; auto. Qed.

  Lemma own_mask w w' e : own w = own w' -> (mask_e e) <$> (w_epics w !! e) = (mask_e e) <$> (w_epics w' !! e).
  Proof. intros E. apply own_parts in E as (_ & _ & _ & E & _). apply (f_equal (fun l => l !! e)) in E. now rewrite !list_lookup_imap in E. Qed.
  Lemma own_epic w w' e : own w = own w' -> ine e = true -> w_epics w !! e = w_epics w' !! e.
  Proof. intros E He. apply (own_mask _ _ e) in E. cbv beta in E. rewrite He in E. now destruct (w_epics w !! e), (w_epics w' !! e). Qed.
  Lemma own_fset w w' f : own w = own w' -> inf f = true -> w_fsets w !! f = w_fsets w' !! f.
  Proof.
    intros E Hf. apply own_parts in E as (_ & _ & _ & _ & E & _). apply (f_equal (fun l => l !! f)) in E. rewrite !list_lookup_imap, Hf in E.
    destruct (w_fsets w !! f), (w_fsets w' !! f); simpl in E; congruence.
  Qed.
  Lemma own_wiring w w' e ep : own w = own w' -> w_epics w !! e = Some ep -> exists ep', w_epics w' !! e = Some ep' /\ ep_fsets ep' = ep_fsets ep /\ ep_strats ep' = ep_strats ep /\ ep_prov ep' = ep_prov ep /\ ep_ref ep' = ep_ref ep.
  Proof.
    intros E He. apply (own_mask _ _ e) in E. rewrite He in E. destruct (w_epics w' !! e) as [ep'|]; [|discriminate E]. exists ep'. split; [auto|]. apply (inj Some) in E.
    destruct (ine e); [now rewrite E|]. repeat split.
    - now apply (f_equal (@ep_fsets F)) in E.
    - now apply (f_equal (@ep_strats F)) in E.
    - now apply (f_equal (@ep_prov F)) in E.
    - now apply (f_equal (@ep_ref F)) in E.
  Qed.
  Lemma own_length w w' : own w = own w' -> length (own_ids w) = length (own_ids w').
  Proof. intros E. apply own_parts in E as (E & _). apply (f_equal length) in E. now rewrite !fmap_length in E. Qed.
  Lemma own_twin w w' i i' : own w = own w' -> twins w w' i i' -> erase_trade <$> w_trades w !! i = erase_trade <$> w_trades w' !! i'.
  Proof.
    intros E (k & H1 & H2). apply own_parts in E as (E & _). apply (f_equal (fun l => l !! k)) in E. rewrite !list_lookup_fmap, H1, H2 in E. simpl in E. congruence.
  Qed.
  Lemma own_twin_some w w' i i' t : own w = own w' -> twins w w' i i' -> w_trades w !! i = Some t -> exists t', w_trades w' !! i' = Some t' /\ erase_trade t = erase_trade t'.
  Proof. intros E T Hi. apply (own_twin _ _ _ _ E) in T. rewrite Hi in T. destruct (w_trades w' !! i') as [t'|]; [|discriminate T]. apply (inj Some) in T. eauto. Qed.
  Lemma own_twin_none w w' i i' : own w = own w' -> twins w w' i i' -> w_trades w !! i = None -> w_trades w' !! i' = None.
  Proof. intros E T Hi. apply (own_twin _ _ _ _ E) in T. rewrite Hi in T. now destruct (w_trades w' !! i'). Qed.
  Lemma twins_inj w w' i i' j j' : NoDup (own_ids w) -> NoDup (own_ids w') -> twins w w' i i' -> twins w w' j j' -> i = j <-> i' = j'.
  Proof.
    intros N N' (k & A1 & A2) (m & B1 & B2). split; intros ->.
    - pose proof (NoDup_lookup _ _ _ _ N A1 B1) as ->. congruence.
    - pose proof (NoDup_lookup _ _ _ _ N' A2 B2) as ->. congruence.
  Qed.
  Lemma twins_left w w' i : own w = own w' -> i ∈ own_ids w -> exists i', twins w w' i i'.
  Proof.
    intros E Hi. apply elem_of_list_lookup in Hi as (k & Hk). destruct (own_ids w' !! k) as [i'|] eqn:E'; [exists i', k; auto|].
    apply lookup_lt_Some in Hk. apply lookup_ge_None in E'. rewrite (own_length _ _ E) in Hk. lia.
  Qed.
  Lemma twins_in w w' i i' : twins w w' i i' -> i ∈ own_ids w /\ i' ∈ own_ids w'.
  Proof. intros (k & A & B). split; eapply elem_of_list_lookup_2; eauto. Qed.

  (** ** The wiring *)
  Lemma wired_own w w' : own w = own w' -> wired w -> wired w'.
  Proof.
    intros E [W1 W2 W3 W4 W5]. symmetry in E. constructor.
    - intros e ep x He Hx. destruct (own_wiring _ _ _ _ E He) as (ep' & He' & X & _). apply (W1 e ep' x He'). congruence.
    - intros f fs i Hf Hi. rewrite (own_fset _ _ _ E Hi) in Hf. now apply (W2 f).
    - intros e ep x He Hx. destruct (own_wiring _ _ _ _ E He) as (ep' & He' & _ & X & _). apply (W3 e ep' x He'). congruence.
    - intros e ep a ap He Ha Hp. destruct (own_wiring _ _ _ _ E He) as (ep' & He' & _ & _ & X & _). destruct (own_wiring _ _ _ _ E Ha) as (ap' & Ha' & _ & _ & Y & _). apply (W4 e ep' a ap'); congruence.
    - intros i t Hi Ht. apply elem_of_list_lookup in Hi as (k & Hk). destruct (own_ids w !! k) as [i'|] eqn:E'.
      + destruct (own_twin_some w' w i i' t E) as (t' & Ht' & Ee); [now exists k|auto|]. apply (f_equal (@tr_epic F)) in Ee. simpl in Ee. rewrite Ee. apply (W5 i'); [|auto]. eapply elem_of_list_lookup_2; eauto.
      + apply lookup_lt_Some in Hk. apply lookup_ge_None in E'. rewrite (own_length _ _ E) in Hk. lia.
  Qed.
  Lemma own_ids_keeps w w' : keeps w w' -> own_ids w' = own_ids w.
  Proof.
    intros K. unfold SpecOwn.own_ids. destruct (w_strats w !! sid) as [s|] eqn:E1.
    - destruct (keeps_s _ _ _ _ K E1) as (s' & -> & _ & ? & _). auto.
    - destruct (w_strats w' !! sid) as [s'|] eqn:E2; [|auto]. apply keeps_sym in K. destruct (keeps_s _ _ _ _ K E2) as (? & ? & _). congruence.
  Qed.
  Lemma wired_keeps w w' : keeps w w' -> (forall f fs', w_fsets w' !! f = Some fs' -> exists fs, w_fsets w !! f = Some fs /\ fs_epic fs' = fs_epic fs) -> wired w -> wired w'.
  Proof.
    intros K Hf [W1 W2 W3 W4 W5]. pose proof (keeps_sym _ _ K) as K'. constructor.
    - intros e ep x He Hx. destruct (keeps_e _ _ _ _ K' He) as (ep' & He' & X). apply (W1 e ep' x He'). intuition congruence.
    - intros f fs i Hi Hin Hfi. destruct (Hf _ _ Hi) as (fs0 & H0 & E0). apply (W2 f fs0); [auto|auto|congruence].
    - intros e ep x He Hx. destruct (keeps_e _ _ _ _ K' He) as (ep' & He' & X). apply (W3 e ep' x He'). intuition congruence.
    - intros e ep a ap He Ha Hp. destruct (keeps_e _ _ _ _ K' He) as (ep' & He' & X). destruct (keeps_e _ _ _ _ K' Ha) as (ap' & Ha' & Y). apply (W4 e ep' a ap'); [auto|auto|intuition congruence].
    - intros i t Hi Ht. destruct (keeps_t _ _ _ _ K' Ht) as (t' & Ht' & (X & _)). rewrite <- X. apply (W5 i); [|auto]. now rewrite <- (own_ids_keeps _ _ K).
  Qed.
  Lemma wired_upd_trades w w' : keeps w w' -> w_fsets w' = w_fsets w -> wired w -> wired w'.
  Proof. intros K Ef. apply wired_keeps; [auto|]. rewrite Ef. eauto. Qed.

  (** ** The trades seen through the ids of the strategy *)
  Lemma own_trades w w' ts ts' : own w = own w' ->
    (forall i i', twins w w' i i' -> erase_trade <$> ts !! i = erase_trade <$> ts' !! i') -> own (upd_trades w ts) = own (upd_trades w' ts').
  Proof.
    intros E Ht. pose proof (own_length _ _ E) as L. apply own_parts in E as (_ & E2 & E3 & E4 & E5 & E6 & E7). apply own_eq; try done.
    apply list_eq. intros k. rewrite !list_lookup_fmap. change (own_ids (upd_trades w ts)) with (own_ids w). change (own_ids (upd_trades w' ts')) with (own_ids w').
    destruct (own_ids w !! k) as [i|] eqn:E1, (own_ids w' !! k) as [i'|] eqn:E1'; simpl; [|apply lookup_lt_Some in E1; apply lookup_ge_None in E1'; lia|apply lookup_lt_Some in E1'; apply lookup_ge_None in E1; lia|auto].
    f_equal. apply Ht. now exists k.
  Qed.
  Lemma own_same_trades w ts : (forall i, i ∈ own_ids w -> erase_trade <$> ts !! i = erase_trade <$> w_trades w !! i) -> own (upd_trades w ts) = own w.
  Proof.
    intros Ht. apply own_eq; try done. apply list_fmap_ext. intros k i Hk. apply Ht. eapply elem_of_list_lookup_2; eauto.
  Qed.
  Lemma own_insert w w' i i' t t' : own w = own w' -> NoDup (own_ids w) -> NoDup (own_ids w') -> twins w w' i i' -> erase_trade t = erase_trade t' ->
    own (upd_trades w (<[i:=t]> (w_trades w))) = own (upd_trades w' (<[i':=t']> (w_trades w'))).
  Proof.
    intros E N N' T Et. apply own_trades; [auto|]. intros j j' Tj. pose proof (twins_inj _ _ _ _ _ _ N N' T Tj) as Hij.
    pose proof (own_twin _ _ _ _ E Tj) as Ej. destruct (decide (i = j)) as [->|Hne].
    - assert (i' = j') as -> by now apply Hij. destruct (w_trades w !! j) as [x|] eqn:E1, (w_trades w' !! j') as [x'|] eqn:E2; try discriminate Ej.
      + rewrite !list_lookup_insert by (eapply lookup_lt_Some; eauto). simpl. congruence.
      + rewrite !list_insert_ge by now apply lookup_ge_None. now rewrite E1, E2.
    - assert (i' <> j') as Hne' by (intros ?; apply Hne; now apply Hij). now rewrite !list_lookup_insert_ne by auto.
  Qed.
  Lemma own_alter w w' i i' f : own w = own w' -> NoDup (own_ids w) -> NoDup (own_ids w') -> twins w w' i i' -> (forall t, f (erase_trade t) = erase_trade (f t)) ->
    own (upd_trades w (alter f i (w_trades w))) = own (upd_trades w' (alter f i' (w_trades w'))).
  Proof.
    intros E N N' T Hf. apply own_trades; [auto|]. intros j j' Tj. pose proof (twins_inj _ _ _ _ _ _ N N' T Tj) as Hij.
    pose proof (own_twin _ _ _ _ E Tj) as Ej. destruct (decide (i = j)) as [->|Hne].
    - assert (i' = j') as -> by now apply Hij. rewrite !list_lookup_alter.
      destruct (w_trades w !! j) as [x|] eqn:E1, (w_trades w' !! j') as [x'|] eqn:E2; try discriminate Ej; [|auto]. apply (inj Some) in Ej. cbn [fmap option_fmap option_map]. rewrite <- !Hf. congruence.
    - assert (i' <> j') as Hne' by (intros ?; apply Hne; now apply Hij). now rewrite !list_lookup_alter_ne by auto.
  Qed.
  Lemma own_insert_out w i t : i ∉ own_ids w -> own (upd_trades w (<[i:=t]> (w_trades w))) = own w.
  Proof. intros Hi. apply own_same_trades. intros j Hj. rewrite list_lookup_insert_ne by congruence. auto. Qed.
  Lemma own_alter_out w i f : i ∉ own_ids w -> own (upd_trades w (alter f i (w_trades w))) = own w.
  Proof. intros Hi. apply own_same_trades. intros j Hj. rewrite list_lookup_alter_ne by congruence. auto. Qed.

  Lemma own_thread w pid j : own (add_thread w pid j) = own w.
  Proof. apply own_eq; try done. simpl. now apply fmap_alter_same. Qed.
  Lemma ids_thread w pid j : own_ids (add_thread w pid j) = own_ids w.
  Proof. reflexivity. Qed.

  (** ** Closing *)
  Definition both {A} (x x' : world F * A) : Prop := own x.1 = own x'.1 /\ x.2 = x'.2.
  Lemma erase_fields t t' : erase_trade t = erase_trade t' -> tr_epic t = tr_epic t' /\ tr_dir t = tr_dir t' /\ tr_strat t = tr_strat t' /\ tr_oq t = tr_oq t' /\
    opened_quantities t = opened_quantities t' /\ closed t = closed t' /\ length (tr_closes t) = length (tr_closes t') /\ result t = result t'.
  Proof.
    intros E. repeat split; try (apply (f_equal (@tr_epic F)) in E; exact E); try (apply (f_equal (@tr_dir F)) in E; exact E); try (apply (f_equal (@tr_strat F)) in E; exact E); try (apply (f_equal (@tr_oq F)) in E; exact E).
    - now rewrite <- (erase_opened t), E, erase_opened.
    - now rewrite <- (erase_closed t), E, erase_closed.
    - apply (f_equal (fun x => length (tr_closes x))) in E. simpl in E. now rewrite !fmap_length in E.
    - now rewrite <- (erase_result t), E, erase_result.
  Qed.
  Lemma pair_close_from_epic w w' i i' q ref : wired w -> own w = own w' -> NoDup (own_ids w) -> NoDup (own_ids w') -> twins w w' i i' ->
    (exists x, close_from_epic w i q ref = Err x /\ close_from_epic w' i' q ref = Err x) \/
    (exists v v' c, close_from_epic w i q ref = Ok (v, c) /\ close_from_epic w' i' q ref = Ok (v', c) /\ own v = own v' /\ own_ids v = own_ids w /\ own_ids v' = own_ids w').
  Proof.
    intros Wi E N N' T. unfold close_from_epic. destruct (w_trades w !! i) as [t|] eqn:Et.
    2: { rewrite (own_twin_none _ _ _ _ E T Et). eauto. }
    destruct (own_twin_some _ _ _ _ _ E T Et) as (t' & -> & Ee). pose proof (erase_fields _ _ Ee) as (F1 & _ & _ & _ & _ & _ & F7 & _).
    rewrite <- F1, <- (own_epic _ _ _ E (wired_trades _ _ _ _ Wi _ _ (proj1 (twins_in _ _ _ _ T)) Et)). destruct (w_epics w !! tr_epic t) as [e|]; [|eauto].
    pose proof (erase_close_tick t (ep_last e) q ref) as C1. pose proof (erase_close_tick t' (ep_last e) q ref) as C2. rewrite <- Ee, C1 in C2.
    destruct (close_from_tick t (ep_last e) q ref) as [[x c]|x] eqn:D1, (close_from_tick t' (ep_last e) q ref) as [[x' c']|x'] eqn:D2; try discriminate.
    assert (erase_trade x = erase_trade x') as C3 by (change (Ok (erase_trade x, c) = Ok (erase_trade x', c')) in C2; congruence). right. simpl. do 3 eexists. split; [reflexivity|]. rewrite F7. split; [reflexivity|]. split; [|auto]. now apply own_insert.
  Qed.
  Lemma pair_epic_close w w' eid i i' q ref : wired w -> ine eid = true -> own w = own w' -> NoDup (own_ids w) -> NoDup (own_ids w') -> twins w w' i i' ->
    both (epic_close_trade w eid i q ref) (epic_close_trade w' eid i' q ref).
  Proof.
    intros Wi Hi E N N' T. unfold epic_close_trade. rewrite <- (own_epic _ _ _ E Hi). destruct (w_epics w !! eid) as [e|]; [|now split].
    destruct (pair_close_from_epic w w' i i' q ref Wi E N N' T) as [(x & -> & ->)|(v & v' & c & -> & -> & Ev & _)]; [now split|].
    split; [|auto]. cbn [fst]. unfold provider_close_trade. now rewrite !own_thread.
  Qed.
  Lemma pair_strategy_close w w' i i' q ref : wired w -> own w = own w' -> NoDup (own_ids w) -> NoDup (own_ids w') -> twins w w' i i' ->
    both (strategy_close_trade w i q ref) (strategy_close_trade w' i' q ref).
  Proof.
    intros Wi E N N' T. unfold strategy_close_trade. destruct (w_trades w !! i) as [t|] eqn:Et.
    2: { rewrite (own_twin_none _ _ _ _ E T Et). now split. }
    destruct (own_twin_some _ _ _ _ _ E T Et) as (t' & -> & Ee). pose proof (erase_fields _ _ Ee) as (<- & _). apply pair_epic_close; auto. apply (wired_trades _ _ _ _ Wi i); [apply (twins_in _ _ _ _ T)|auto].
  Qed.

  (** ** Loops over twin trades *)
  Lemma pair_forM (R : world F -> world F -> Prop) (T : nat -> nat -> Prop) (f g : world F -> nat -> world F * res unit) l l' w w' :
    Forall2 T l l' -> (forall w w' i i', T i i' -> R w w' -> R (fst (f w i)) (fst (g w' i')) /\ snd (f w i) = snd (g w' i')) -> R w w' ->
    R (fst (forM f w l)) (fst (forM g w' l')) /\ snd (forM f w l) = snd (forM g w' l').
  Proof.
    intros Hl Hs. revert w w'. induction Hl as [|i i' l l' Hi Hl IH]; intros w w' Hr; simpl; [auto|].
    destruct (Hs w w' i i' Hi Hr) as [H1 H2]. destruct (f w i) as [v [u|e]], (g w' i') as [v' [u'|e']]; simpl in *; try discriminate; auto.
  Qed.
  Lemma forM_skip (ok : nat -> bool) (Q : world F -> Prop) (f : world F -> nat -> world F * res unit) l w :
    (forall w i, Q w -> i ∈ l -> ok i = false -> f w i = (w, Ok ())) -> (forall w i, Q w -> i ∈ l -> ok i = true -> Q (fst (f w i))) -> Q w ->
    forM f w l = forM f w (List.filter ok l).
  Proof.
    intros Hs Hq. revert w. induction l as [|i l IH]; intros w Hw; simpl; [auto|]. destruct (ok i) eqn:Eo.
    - simpl. pose proof (Hq w i Hw ltac:(left) Eo) as H1. destruct (f w i) as [v [u|e]]; [|auto]. apply IH; auto; intros; [apply Hs|apply Hq]; auto; now right.
    - rewrite (Hs w i Hw ltac:(left) Eo). apply IH; auto; intros; [apply Hs|apply Hq]; auto; now right.
  Qed.
  Lemma twins_all w w' : own w = own w' -> Forall2 (twins w w') (own_ids w) (own_ids w').
  Proof. intros E. apply Forall2_same_length_lookup. split; [now apply own_length|]. intros k i i' A B. now exists k. Qed.
  Lemma Forall2_filter_b {A} (R : A -> A -> Prop) (f g : A -> bool) l l' : Forall2 R l l' -> (forall x y, R x y -> f x = g y) -> Forall2 R (List.filter f l) (List.filter g l').
  Proof. intros Hl Hf. induction Hl as [|x y l l' Hx Hl IH]; simpl; [constructor|]. rewrite <- (Hf _ _ Hx). destruct (f x); auto. Qed.

  Lemma ids_strategy_close w i q ref : own_ids (fst (strategy_close_trade w i q ref)) = own_ids w.
  Proof.
    unfold strategy_close_trade, epic_close_trade. destruct (w_trades w !! i); [|auto]. destruct (w_epics w !! tr_epic t); [|auto].
    destruct (close_from_epic w i q ref) as [[v c]|] eqn:E; [|auto]. apply close_from_epic_inv in E as (? & ? & ? & ? & _ & _ & _ & -> & _). reflexivity.
  Qed.
  Lemma fsets_strategy_close w i q ref : w_fsets (fst (strategy_close_trade w i q ref)) = w_fsets w.
  Proof.
    unfold strategy_close_trade, epic_close_trade. destruct (w_trades w !! i); [|auto]. destruct (w_epics w !! tr_epic t); [|auto].
    destruct (close_from_epic w i q ref) as [[v c]|] eqn:E; [|auto]. apply close_from_epic_inv in E as (? & ? & ? & ? & _ & _ & _ & -> & _). reflexivity.
  Qed.
  Lemma pair_close_all w w' q ref : wired w -> own w = own w' -> NoDup (own_ids w) -> NoDup (own_ids w') ->
    both (close_opened_trades w sid q ref) (close_opened_trades w' sid q ref).
  Proof.
    intros Wi E N N'. unfold close_opened_trades. destruct (own_parts _ _ E) as (_ & Ef & _).
    destruct (w_strats w !! sid) as [s|] eqn:Es, (w_strats w' !! sid) as [s'|] eqn:Es'; try discriminate; [|now split].
    assert (st_trades s = own_ids w) as -> by (unfold SpecOwn.own_ids; now rewrite Es). assert (st_trades s' = own_ids w') as -> by (unfold SpecOwn.own_ids; now rewrite Es').
    assert (Forall2 (twins w w') (reverse (own_ids w)) (reverse (own_ids w'))) as Hl by (apply Forall2_reverse, twins_all; auto).
    destruct (pair_forM (fun v v' => (wired v /\ own v = own v') /\ own_ids v = own_ids w /\ own_ids v' = own_ids w') _ (close_opened_step q ref) (close_opened_step q ref) _ _ w w' Hl) as [((_ & H1) & _) H2]; [|auto|now split].
    intros v v' i i' T ((Wv & Ev) & I1 & I2). assert (twins v v' i i') as T' by (destruct T as (k & A & B); exists k; now rewrite I1, I2).
    unfold close_opened_step, trade_open_b. pose proof (own_twin _ _ _ _ Ev T') as Et.
    assert (NoDup (own_ids v)) by now rewrite I1. assert (NoDup (own_ids v')) by now rewrite I2.
    destruct (pair_strategy_close v v' i i' q ref) as [P1 P2]; auto.
    destruct (w_trades v !! i) as [t|] eqn:E1, (w_trades v' !! i') as [t'|] eqn:E2; try discriminate Et; [|auto].
    apply (inj Some) in Et. destruct (erase_fields t t' Et) as (_ & _ & _ & _ & _ & <- & _). destruct (closed t); cbn [negb]; [auto|].
    cbv beta. rewrite !ids_strategy_close. split; [|auto]. split; [|auto]. split; [|auto]. apply (wired_upd_trades v); [apply keeps_strategy_close|apply fsets_strategy_close|auto].
  Qed.

  (** ** Opening *)
  Definition mine w (i : nat) : bool := match w_trades w !! i with Some t => bool_decide (tr_strat t = Some sid) | None => false end.
  Definition at_prov w (pid i : nat) : bool :=
    match w_trades w !! i with Some t => match w_epics w !! tr_epic t with Some e => (ep_prov e =? pid)%nat | None => false end | None => false end.
  Lemma increasing_ext l k : increasing l -> increasing k -> (forall i, i ∈ l <-> i ∈ k) -> l = k.
  Proof.
    intros Hl. revert k. induction Hl as [|x l Hl IH Hx]; intros k Hk He.
    - destruct k as [|y k]; [auto|]. exfalso. assert (y ∈ @nil nat) as C by (apply He; left). now apply elem_of_nil in C.
    - destruct k as [|y k]; [exfalso; assert (x ∈ @nil nat) as C by (apply He; left); now apply elem_of_nil in C|].
      inversion Hk as [|? ? Hk' Hy]; subst. rewrite Forall_forall in Hx, Hy.
      assert (x = y) as ->.
      { assert (x ∈ y :: k) as A by (apply He; left). assert (y ∈ x :: l) as B by (apply He; left).
        apply elem_of_cons in A as [->|A]; [auto|]. apply elem_of_cons in B as [->|B]; [auto|]. specialize (Hx _ B). specialize (Hy _ A). lia. }
      f_equal. apply IH; [auto|]. intros i. split; intros Hi.
      + assert (i ∈ y :: k) as A by (apply He; now right). apply elem_of_cons in A as [->|A]; [|auto]. specialize (Hx _ Hi). lia.
      + assert (i ∈ y :: l) as A by (apply He; now right). apply elem_of_cons in A as [->|A]; [|auto]. specialize (Hy _ Hi). lia.
  Qed.
  Lemma ids_wf w : wfw w -> increasing (own_ids w) /\ forall i, i ∈ own_ids w -> mine w i = true.
  Proof.
    intros W. unfold SpecOwn.own_ids. destruct (w_strats w !! sid) as [s|] eqn:Es; [|split; [constructor|intros i C; now apply elem_of_nil in C]].
    destruct (wf_strat _ W _ _ Es) as [H1 H2]. split; [auto|]. intros i Hi. apply H2 in Hi as [(t & Ht & E) _]. unfold mine. rewrite Ht. now apply bool_decide_eq_true.
  Qed.
  Lemma increasing_nodup l : increasing l -> NoDup l.
  Proof. intros Hl. induction Hl as [|x l Hl IH Hx]; constructor; auto. intros C. rewrite Forall_forall in Hx. specialize (Hx _ C). lia. Qed.
  Lemma ids_nodup w : wfw w -> NoDup (own_ids w).
  Proof. intros W. apply increasing_nodup. now apply ids_wf. Qed.
  Lemma own_filter w pid p : wfw w -> w_provs w !! pid = Some p -> List.filter (mine w) (pv_trades p) = List.filter (at_prov w pid) (own_ids w).
  Proof.
    intros W Hp. destruct (wf_prov _ W _ _ Hp) as [P1 P2]. destruct (ids_wf w W) as [I1 I2]. apply increasing_ext; [now apply sorted_filter|now apply sorted_filter|].
    intros i. rewrite !elem_of_list_In, !filter_In, <- !elem_of_list_In. split.
    - intros [Hi Hm]. destruct (P2 _ Hi) as (t & e & Ht & He & Hep). unfold mine in Hm. rewrite Ht in Hm. apply bool_decide_eq_true in Hm.
      destruct (wf_trade _ W _ _ Ht) as [_ Hs]. destruct (Hs _ Hm) as [s Es]. split.
      + unfold SpecOwn.own_ids. rewrite Es. apply (wf_strat _ W _ _ Es). split; [eauto|]. exists pid, p. auto.
      + unfold at_prov. rewrite Ht, He. now apply Nat.eqb_eq.
    - intros [Hi Ha]. split; [|now apply I2]. unfold SpecOwn.own_ids in Hi. destruct (w_strats w !! sid) as [s|] eqn:Es; [|now apply elem_of_nil in Hi].
      apply (wf_strat _ W _ _ Es) in Hi as [(t & Ht & _) (a & q & Hq & Hi)]. destruct (wf_prov _ W _ _ Hq) as [_ Q2]. destruct (Q2 _ Hi) as (t' & e & Ht' & He & Hep).
      unfold at_prov in Ha. rewrite Ht', He in Ha. apply Nat.eqb_eq in Ha. assert (a = pid) as -> by congruence. rewrite Hp in Hq. now injection Hq as ->.
  Qed.
  Lemma filter_comm {A} (f g : A -> bool) l : List.filter f (List.filter g l) = List.filter g (List.filter f l).
  Proof. induction l as [|x l IH]; simpl; [auto|]. destruct (g x) eqn:G, (f x) eqn:E; simpl; rewrite ?G, ?E, IH; auto. Qed.
  Lemma filter_reverse {A} (f : A -> bool) l : List.filter f (reverse l) = reverse (List.filter f l).
  Proof. induction l as [|x l IH]; simpl; [auto|]. rewrite reverse_cons, List.filter_app, IH. simpl. destruct (f x); [now rewrite reverse_cons|apply app_nil_r]. Qed.
  Lemma own_opened w pid p : wfw w -> w_provs w !! pid = Some p ->
    List.filter (mine w) (opened_trades w p) = List.filter (trade_open_b w) (reverse (List.filter (at_prov w pid) (own_ids w))).
  Proof. intros W Hp. unfold opened_trades. rewrite filter_comm, filter_reverse. now rewrite (own_filter w pid p W Hp). Qed.
  Lemma twin_open w w' i i' : own w = own w' -> twins w w' i i' -> trade_open_b w i = trade_open_b w' i'.
  Proof.
    intros E T. unfold trade_open_b. pose proof (own_twin _ _ _ _ E T) as Et. destruct (w_trades w !! i) as [t|], (w_trades w' !! i') as [t'|]; try discriminate Et; [|auto].
    apply (inj Some) in Et. f_equal. now apply erase_fields.
  Qed.
  Lemma twin_prov w w' pid i i' : own w = own w' -> twins w w' i i' -> at_prov w pid i = at_prov w' pid i'.
  Proof.
    intros E T. unfold at_prov. pose proof (own_twin _ _ _ _ E T) as Et. destruct (w_trades w !! i) as [t|], (w_trades w' !! i') as [t'|]; try discriminate Et; [|auto].
    apply (inj Some) in Et. destruct (erase_fields _ _ Et) as (<- & _). destruct (w_epics w !! tr_epic t) as [e|] eqn:E1.
    - destruct (own_wiring _ _ _ _ E E1) as (e' & -> & _ & _ & -> & _). reflexivity.
    - destruct (w_epics w' !! tr_epic t) as [e'|] eqn:E2; [|auto]. symmetry in E. destruct (own_wiring _ _ _ _ E E2) as (? & ? & _). congruence.
  Qed.
  Lemma twins_opened w w' pid p p' : own w = own w' -> wfw w -> wfw w' -> w_provs w !! pid = Some p -> w_provs w' !! pid = Some p' ->
    Forall2 (twins w w') (List.filter (mine w) (opened_trades w p)) (List.filter (mine w') (opened_trades w' p')).
  Proof.
    intros E W W' Hp Hp'. rewrite (own_opened w pid p), (own_opened w' pid p') by auto. apply Forall2_filter_b; [|intros i i'; now apply twin_open].
    apply Forall2_reverse. apply Forall2_filter_b; [now apply twins_all|intros i i'; now apply twin_prov].
  Qed.

  Definition opening (w0 w0' : world F) (tid tid' : nat) (v v' : world F) : Prop :=
    (wired v /\ own v = own v') /\ own_ids v = own_ids w0 /\ own_ids v' = own_ids w0' /\
    exists t t', w_trades v !! tid = Some t /\ w_trades v' !! tid' = Some t' /\ erase_trade t = erase_trade t'.
  Lemma pair_net_step w0 w0' pid tid tid' ref v v' i i' : NoDup (own_ids w0) -> NoDup (own_ids w0') -> tid ∉ own_ids w0 -> tid' ∉ own_ids w0' ->
    twins w0 w0' i i' -> opening w0 w0' tid tid' v v' ->
    opening w0 w0' tid tid' (fst (net_step pid tid ref v i)) (fst (net_step pid tid' ref v' i')) /\ snd (net_step pid tid ref v i) = snd (net_step pid tid' ref v' i').
  Proof.
    intros N N' Ht Ht' T0 Ho. pose proof Ho as ((Wi & E) & I1 & I2 & t & t' & G1 & G2 & Et).
    assert (twins v v' i i') as T by (destruct T0 as (k & A & B); exists k; now rewrite I1, I2).
    unfold net_step. rewrite G1, G2. pose proof (own_twin _ _ _ _ E T) as Eo. destruct (w_trades v !! i) as [o|] eqn:O1, (w_trades v' !! i') as [o'|] eqn:O2; try discriminate Eo; [|auto].
    apply (inj Some) in Eo. destruct (erase_fields _ _ Eo) as (_ & <- & <- & _ & <- & _). destruct (erase_fields _ _ Et) as (_ & <- & <- & <- & _).
    destruct (dir_eqb _ _) eqn:Ed; [|auto]. destruct (bool_decide _) eqn:Eb; [|auto]. cbv zeta.
    assert (NoDup (own_ids v)) as M by now rewrite I1. assert (NoDup (own_ids v')) as M' by now rewrite I2.
    destruct (pair_close_from_epic v v' i i' (Some (Z.min (opened_quantities o) (tr_oq t))) ref Wi E M M' T) as [(x & -> & ->)|(u & u' & c & C1 & C2 & Eu & J1 & J2)]; [auto|].
    pose proof (keeps_net_step pid tid ref v i) as K. unfold net_step in K. rewrite G1, O1 in K. rewrite Ed, Eb in K. cbv zeta in K. rewrite C1 in K. cbn [fst] in K.
    rewrite C1, C2. split; [|reflexivity]. cbn [fst]. apply close_from_epic_inv in C1 as (? & ? & x & ? & _ & _ & _ & Eu1 & _). apply close_from_epic_inv in C2 as (? & ? & x' & ? & _ & _ & _ & Eu2 & _).
    assert (tid ∉ own_ids u) as Hu by now rewrite J1, I1. assert (tid' ∉ own_ids u') as Hu' by now rewrite J2, I2.
    split; [|split; [|split]].
    - split; [|unfold provider_close_trade; rewrite !own_alter_out, !own_thread; auto].
      apply (wired_upd_trades v); [|subst u; reflexivity|auto].
      exact K.
    - change (own_ids u = own_ids w0). now rewrite J1.
    - change (own_ids u' = own_ids w0'). now rewrite J2.
    - destruct (twins_in _ _ _ _ T) as [B1 B2]. rewrite I1 in B1. rewrite I2 in B2. exists (set_oq t (tr_oq t - Z.min (opened_quantities o) (tr_oq t))), (set_oq t' (tr_oq t' - Z.min (opened_quantities o) (tr_oq t))).
      destruct (erase_fields _ _ Et) as (_ & _ & _ & Eq & _). subst u u'. simpl. rewrite !list_lookup_alter, !list_lookup_insert_ne, G1, G2 by (intros ->; contradiction).
      split; [reflexivity|]. split; [reflexivity|]. rewrite !erase_set_oq. now rewrite Et, Eq.
  Qed.
  Lemma pair_register w w' pid tid tid' t t' : own w = own w' -> w_trades w !! tid = Some t -> w_trades w' !! tid' = Some t' -> erase_trade t = erase_trade t' -> tr_strat t = Some sid ->
    own (base_open_trade w pid tid) = own (base_open_trade w' pid tid').
  Proof.
    intros E G1 G2 Et Es. destruct (erase_fields _ _ Et) as (_ & _ & Es' & _). rewrite Es in Es'. symmetry in Es'.
    pose proof (own_parts _ _ E) as (E1 & E2 & E3 & E4 & E5 & E6 & E7).
    rewrite (base_open_some _ _ _ _ G1), (base_open_some _ _ _ _ G2), Es, Es'. rewrite !own_thread.
    destruct (w_strats w !! sid) as [s|] eqn:S1, (w_strats w' !! sid) as [s'|] eqn:S2; try discriminate E2.
    - apply own_eq; simpl; auto.
      + unfold SpecOwn.own_ids in E1 |- *. simpl. rewrite !list_lookup_alter, S1, S2. rewrite S1, S2 in E1. simpl. rewrite !fmap_app. f_equal; [exact E1|]. simpl. rewrite G1, G2. cbn [fmap option_fmap option_map]. now rewrite Et.
      + rewrite !list_lookup_alter, S1, S2. simpl. exact E2.
      + now rewrite !fmap_alter_same.
      + now rewrite !fmap_alter_same.
    - apply own_eq; simpl; auto.
      + unfold SpecOwn.own_ids in E1 |- *. simpl. rewrite !list_lookup_alter, S1, S2. reflexivity.
      + now rewrite !list_lookup_alter, S1, S2.
      + now rewrite !fmap_alter_same.
      + now rewrite !fmap_alter_same.
  Qed.

  Lemma own_append w t : wfw w -> own (upd_trades w (w_trades w ++ [t])) = own w /\ length (w_trades w) ∉ own_ids w.
  Proof.
    intros W. destruct (ids_wf w W) as [_ Hm]. assert (forall i, i ∈ own_ids w -> (i < length (w_trades w))%nat) as Hlt.
    { intros i Hi. specialize (Hm i Hi). unfold mine in Hm. destruct (w_trades w !! i) eqn:E; [|discriminate]. eapply lookup_lt_Some; eauto. }
    split; [|intros C; apply Hlt in C; lia]. apply own_same_trades. intros i Hi. rewrite lookup_app_l by auto. auto.
  Qed.
  Lemma pair_provider_open w w' pid tid tid' ref t t' : wired w -> own w = own w' -> wfw w -> wfw w' -> tid ∉ own_ids w -> tid' ∉ own_ids w' ->
    w_trades w !! tid = Some t -> w_trades w' !! tid' = Some t' -> erase_trade t = erase_trade t' -> tr_strat t = Some sid ->
    both (provider_open_trade w pid tid ref) (provider_open_trade w' pid tid' ref).
  Proof.
    intros Wi E W W' Ho Ho' G1 G2 Et Es. pose proof (own_parts _ _ E) as (_ & _ & _ & _ & _ & E6 & _). apply (f_equal (fun l => l !! pid)) in E6. rewrite !list_lookup_fmap in E6.
    unfold provider_open_trade. destruct (w_provs w !! pid) as [p|] eqn:P1, (w_provs w' !! pid) as [p'|] eqn:P2; try discriminate E6; [|now split].
    apply (inj Some) in E6. rewrite <- E6.
    assert (both (base_open_trade w pid tid, Ok ()) (base_open_trade w' pid tid', Ok ())) as B by (split; [eapply pair_register; eauto|auto]).
    destruct (pv_kind p); auto. clear B. unfold backtest_open_trade. rewrite P1, P2.
    assert (forall w pid tid t p, wfw w -> w_trades w !! tid = Some t -> tr_strat t = Some sid -> w_provs w !! pid = Some p ->
      forM (net_step pid tid ref) w (opened_trades w p) = forM (net_step pid tid ref) w (List.filter (mine w) (opened_trades w p))) as Hskip.
    { clear. intros w pid tid t p W Ht Hs Hp. apply (forM_skip (mine w) (keeps w)).
      - intros v i K Hi Hm. apply opened_trades_elem in Hi as [Hi _]. destruct (wf_prov _ W _ _ Hp) as [_ P2]. destruct (P2 _ Hi) as (o & e & Hio & _).
        destruct (keeps_t _ _ _ _ K Ht) as (t' & Ht' & (_ & Hst & _)). destruct (keeps_t _ _ _ _ K Hio) as (o' & Ho' & (_ & Hso & _)).
        unfold net_step. rewrite Ht', Ho'. destruct (dir_eqb _ _); [|auto]. rewrite bool_decide_eq_false_2; [auto|].
        unfold mine in Hm. rewrite Hio in Hm. apply bool_decide_eq_false in Hm. congruence.
      - intros v i K _ _. etransitivity; [exact K|]. apply keeps_net_step.
      - reflexivity. }
    rewrite (Hskip w pid tid t p), (Hskip w' pid tid' t' p') by (auto; destruct (erase_fields _ _ Et) as (_ & _ & <- & _); auto). clear Hskip.
    pose proof (twins_opened w w' pid p p' E W W' P1 P2) as Hl. pose proof (ids_nodup w W) as N. pose proof (ids_nodup w' W') as N'.
    destruct (pair_forM (opening w w' tid tid') _ (net_step pid tid ref) (net_step pid tid' ref) _ _ w w' Hl) as [R1 R2].
    { intros v v' i i' T. now apply pair_net_step. }
    { split; [auto|]. split; [auto|]. split; [auto|]. eauto. }
    pose proof (keeps_net pid tid ref w (List.filter (mine w) (opened_trades w p))) as K.
    destruct (forM (net_step pid tid ref) w _) as [v [u|x]], (forM (net_step pid tid' ref) w' _) as [v' [u'|x']]; simpl in R1, R2, K; try discriminate R2.
    - destruct R1 as ((_ & Ev) & _ & _ & z & z' & Z1 & Z2 & Ez). rewrite Z1, Z2. destruct (erase_fields _ _ Ez) as (_ & _ & _ & <- & _).
      destruct (tr_oq z <=? 0); [now split|]. split; [|auto]. cbn [fst]. eapply pair_register; eauto.
      destruct (keeps_t _ _ _ _ K G1) as (y & Hy & (_ & Hs & _)). rewrite Z1 in Hy. injection Hy as <-. congruence.
    - destruct R1 as ((_ & Ev) & _). split; [auto|]. simpl. congruence.
  Qed.
  Lemma own_valid w w' s : own w = own w' -> valid_id (w_strats w) s = valid_id (w_strats w') s.
  Proof.
    intros E. apply own_parts in E as (_ & _ & _ & _ & _ & _ & E). apply (f_equal length) in E. rewrite !fmap_length in E. unfold valid_id. now rewrite E.
  Qed.
  Lemma pair_open w w' eid d q ref : wired w -> ine eid = true -> own w = own w' -> wfw w -> wfw w' ->
    own (fst (epic_open_trade w eid d q (Some sid) ref)) = own (fst (epic_open_trade w' eid d q (Some sid) ref)) /\
    rmap (fun _ => ()) (snd (epic_open_trade w eid d q (Some sid) ref)) = rmap (fun _ => ()) (snd (epic_open_trade w' eid d q (Some sid) ref)).
  Proof.
    intros Wi Hin E W W'. unfold epic_open_trade. rewrite <- (own_valid w w' (Some sid) E). rewrite <- (own_epic _ _ _ E Hin).
    destruct (w_epics w !! eid) as [e|] eqn:Ee; [|auto]. destruct (valid_id (w_strats w) (Some sid)) eqn:Ev; [|auto].
    destruct (open_from_tick (ep_last e) eid d q (Some sid) ref) as [t|x] eqn:Eo; [|auto]. cbv zeta.
    destruct (open_fields _ _ _ _ _ _ _ Eo) as (d' & _ & Hte & Hts & _).
    destruct (own_append w t W) as [A1 A2]. destruct (own_append w' t W') as [B1 B2].
    set (w0 := upd_trades w (w_trades w ++ [t])) in *. set (w0' := upd_trades w' (w_trades w' ++ [t])) in *.
    assert (exists s, w_strats w !! sid = Some s) as Hs by (simpl in Ev; apply bool_decide_eq_true in Ev; now apply lookup_lt_is_Some_2).
    assert (exists s, w_strats w' !! sid = Some s) as Hs'.
    { rewrite (own_valid _ _ _ E) in Ev. simpl in Ev. apply bool_decide_eq_true in Ev. now apply lookup_lt_is_Some_2. }
    assert (wfw w0) as W0. { apply wfw_append; [auto|exists e; rewrite Hte; auto|]. intros s0. rewrite Hts. intros X. injection X as <-. auto. }
    assert (wfw w0') as W0'. { apply wfw_append; [auto|exists e; rewrite Hte, <- (own_epic _ _ _ E Hin); auto|]. intros s0. rewrite Hts. intros X. injection X as <-. auto. }
    destruct (pair_provider_open w0 w0' (ep_prov e) (length (w_trades w)) (length (w_trades w')) ref t t) as [R1 R2]; auto.
    - now apply (wired_own w).
    - congruence.
    - apply list_lookup_middle. auto.
    - apply list_lookup_middle. auto.
    - destruct (provider_open_trade w0 _ _ _) as [v [u|x]], (provider_open_trade w0' _ _ _) as [v' [u'|x']]; simpl in *; try discriminate R2; auto.
  Qed.

  (** ** Calls *)
  Lemma pair_call w w' c c' : wired w -> own w = own w' -> wfw w -> wfw w' -> same_call sid ine w w' c c' -> both (run_cmd w c) (run_cmd w' c').
  Proof.
    intros Wi E W W' Hc. pose proof (ids_nodup w W) as N. pose proof (ids_nodup w' W') as N'. pose proof (own_parts _ _ E) as (E1 & E2 & E3 & E4 & E5 & E6 & E7).
    destruct Hc as [e d q ref Hin|i i' q ref T|e i i' q ref Hin T|q ref|i i' x T|i i' T|i i' x d q ref T|i i' q ref T|u|b]; cbn [run_cmd].
    - pose proof (pair_open w w' e d q ref Wi Hin E W W') as [R1 R2]. destruct (epic_open_trade w _ _ _ _ _) as [v r], (epic_open_trade w' _ _ _ _ _) as [v' r']. now split.
    - now apply pair_strategy_close.
    - now apply pair_epic_close.
    - now apply pair_close_all.
    - split; [|auto]. cbn [fst]. apply own_alter; auto. intros t. apply erase_update.
    - destruct (w_trades w !! i) as [t|] eqn:Et; [|rewrite (own_twin_none _ _ _ _ E T Et); now split].
      destruct (own_twin_some _ _ _ _ _ E T Et) as (t' & -> & Ee). pose proof (erase_fields _ _ Ee) as (<- & _). rewrite <- (own_epic _ _ _ E (wired_trades _ _ _ _ Wi _ _ (proj1 (twins_in _ _ _ _ T)) Et)). destruct (w_epics w !! tr_epic t) as [ep|]; [|now split].
      split; [|auto]. cbn [fst]. apply own_insert; auto. rewrite <- !erase_update_tick. now rewrite Ee.
    - destruct (w_trades w !! i) as [t|] eqn:Et; [|rewrite (own_twin_none _ _ _ _ E T Et); now split].
      destruct (own_twin_some _ _ _ _ _ E T Et) as (t' & -> & Ee). pose proof (erase_close t x d q ref) as C1. pose proof (erase_close t' x d q ref) as C2. rewrite <- Ee, C1 in C2.
      destruct (close t x d q ref) as [[y c]|y], (close t' x d q ref) as [[y' c']|y']; try discriminate C2.
      + split; [|auto]. cbn [fst]. apply own_insert; auto. change (Ok (erase_trade y, c) = Ok (erase_trade y', c')) in C2. congruence.
      + injection C2 as ->. now split.
    - destruct (pair_close_from_epic w w' i i' q ref Wi E N N' T) as [(x & -> & ->)|(v & v' & c & -> & -> & Ev & _)]; now split.
    - split; [|auto]. cbn [fst]. destruct (w_strats w !! sid) as [s|] eqn:S1, (w_strats w' !! sid) as [s'|] eqn:S2; try discriminate E2.
      all: apply own_eq; unfold SpecOwn.own_ids in *; simpl; rewrite ?list_lookup_alter, ?S1, ?S2 in *; simpl in *; rewrite ?fmap_alter_same by auto; auto. congruence.
    - split; [|auto]. cbn [fst]. destruct (w_strats w !! sid) as [s|] eqn:S1, (w_strats w' !! sid) as [s'|] eqn:S2; try discriminate E2.
      all: apply own_eq; unfold SpecOwn.own_ids in *; simpl; rewrite ?list_lookup_alter, ?S1, ?S2 in *; simpl in *; rewrite ?fmap_alter_same by auto; auto. congruence.
  Qed.

  (** ** Calls elsewhere *)
  Lemma out_close_from_epic w i q ref v c : i ∉ own_ids w -> close_from_epic w i q ref = Ok (v, c) -> own v = own w /\ own_ids v = own_ids w.
  Proof. intros Hi E. apply close_from_epic_inv in E as (? & ? & t & ? & _ & _ & _ & -> & _). split; [now apply own_insert_out|auto]. Qed.
  Lemma out_epic_close w e i q ref : i ∉ own_ids w -> own (fst (epic_close_trade w e i q ref)) = own w /\ own_ids (fst (epic_close_trade w e i q ref)) = own_ids w.
  Proof.
    intros Hi. unfold epic_close_trade. destruct (w_epics w !! e) as [ep|]; [|auto]. destruct (close_from_epic w i q ref) as [[v c]|] eqn:E; [|auto].
    cbn [fst]. unfold provider_close_trade. rewrite own_thread, ids_thread. eapply out_close_from_epic; eauto.
  Qed.
  Lemma out_strategy_close w i q ref : i ∉ own_ids w -> own (fst (strategy_close_trade w i q ref)) = own w /\ own_ids (fst (strategy_close_trade w i q ref)) = own_ids w.
  Proof. intros Hi. unfold strategy_close_trade. destruct (w_trades w !! i); [|auto]. now apply out_epic_close. Qed.
  Lemma out_strats w f s : s <> sid -> (forall x, st_ref (f x) = st_ref x /\ st_epics (f x) = st_epics x) -> own (upd_strats w (alter f s (w_strats w))) = own w.
  Proof.
    intros Hs Hf. apply own_eq; unfold SpecOwn.own_ids; simpl; rewrite ?list_lookup_alter_ne by auto; auto. apply fmap_alter_same. intros x. destruct (Hf x). congruence.
  Qed.
  Lemma out_open w e d q s ref : wfw w -> s <> Some sid -> own (fst (epic_open_trade w e d q s ref)) = own w.
  Proof.
    intros W Hs. destruct (epic_open_trade w e d q s ref) as [v r] eqn:E. simpl. destruct (open_others _ _ _ _ _ _ _ _ E) as (O1 & O2 & O3 & O4 & O5).
    specialize (O2 sid Hs). destruct (ids_wf w W) as [_ Hm].
    assert (pv_kind <$> w_provs v = pv_kind <$> w_provs w /\ (fun s => (st_ref s, st_epics s)) <$> w_strats v = (fun s => (st_ref s, st_epics s)) <$> w_strats w) as [Hk Hst].
    { apply open_inv in E as [(-> & _)|(ep & t & wn & _ & _ & _ & K & C)]; [auto|]. destruct K as [_ K2 K3 _ _].
      assert (pv_kind <$> w_provs wn = pv_kind <$> w_provs w) as A1.
      { apply (f_equal (fmap fst)) in K2. rewrite <- !list_fmap_compose in K2. exact K2. }
      assert ((fun s => (st_ref s, st_epics s)) <$> w_strats wn = (fun s => (st_ref s, st_epics s)) <$> w_strats w) as A2.
      { apply (f_equal (fmap (fun x : string * list nat * dict nat => (x.1.1, x.2)))) in K3. rewrite <- !list_fmap_compose in K3. exact K3. }
      destruct C as [->| ->]; [auto|]. unfold base_open_trade. destruct (w_trades wn !! _) as [t0|]; [|auto]. destruct (tr_strat t0); simpl; rewrite !fmap_alter_same by auto; auto. }
    assert (own_ids v = own_ids w) as Hi by (unfold SpecOwn.own_ids; now rewrite O2).
    apply own_eq; rewrite ?Hi, ?O2, ?O3, ?O4, ?O5; auto. apply list_fmap_ext. intros k i Hki. f_equal. apply elem_of_list_lookup_2 in Hki. specialize (Hm _ Hki).
    unfold mine in Hm. destruct (w_trades w !! i) as [t|] eqn:Et; [|discriminate]. apply bool_decide_eq_true in Hm. apply O1; [auto|congruence].
  Qed.
  Lemma out_thread w p k : own (run_thread w p k) = own w.
  Proof.
    pose proof (erase_run_thread w p k) as E. pose proof (erase_parts _ _ E) as (P1 & P2 & P3 & P4).
    assert (erase_trade <$> w_trades (run_thread w p k) = erase_trade <$> w_trades w) as Et by (apply (f_equal (@w_trades F)) in E; exact E).
    assert (pv_kind <$> w_provs (run_thread w p k) = pv_kind <$> w_provs w) as Ek.
    { apply (f_equal (fun x => pv_kind <$> w_provs x)) in E. simpl in E. rewrite <- !list_fmap_compose in E. exact E. }
    apply own_eq; unfold SpecOwn.own_ids; rewrite ?P1, ?P2, ?P3, ?P4; auto. apply list_fmap_ext. intros j i _.
    rewrite <- !list_lookup_fmap. now rewrite Et.
  Qed.
  Lemma elsewhere_own w c : wfw w -> elsewhere sid w c -> own (fst (run_cmd w c)) = own w.
  Proof.
    intros W Hc. destruct c as [e d q s ref|t q ref|e t q ref|s q ref|t v|t|t v d q ref|t q ref|s u|s b|p k]; cbn [run_cmd elsewhere] in *.
    - pose proof (out_open w e d q s ref W Hc) as R. destruct (epic_open_trade w e d q s ref); auto.
    - now apply out_strategy_close.
    - now apply out_epic_close.
    - unfold close_opened_trades. destruct (w_strats w !! s) as [x|] eqn:Es; [|auto].
      assert (own (fst (forM (close_opened_step q ref) w (reverse (st_trades x)))) = own w /\ own_ids (fst (forM (close_opened_step q ref) w (reverse (st_trades x)))) = own_ids w) as [R _]; [|auto].
      apply (forM_inv (fun v => own v = own w /\ own_ids v = own_ids w)); [|auto]. intros v i Hi [V1 V2]. rewrite elem_of_reverse in Hi.
      unfold close_opened_step. destruct (trade_open_b v i); [|auto]. rewrite <- V1, <- V2. apply out_strategy_close. rewrite V2. intros C.
      apply (wf_strat _ W _ _ Es) in Hi as [(t & Ht & Hs) _]. apply (ids_wf w W) in C. unfold mine in C. rewrite Ht in C. apply bool_decide_eq_true in C. congruence.
    - now apply own_alter_out.
    - destruct (w_trades w !! t) as [x|]; [|auto]. destruct (w_epics w !! tr_epic x); [|auto]. now apply own_insert_out.
    - destruct (w_trades w !! t) as [x|]; [|auto]. destruct (close x v d q ref) as [[x' c]|]; [|auto]. now apply own_insert_out.
    - destruct (close_from_epic w t q ref) as [[v c]|] eqn:E; [|auto]. eapply out_close_from_epic; eauto.
    - now apply out_strats.
    - now apply out_strats.
    - apply out_thread.
  Qed.
End proofs.
