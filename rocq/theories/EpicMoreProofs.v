(** References, time order, market flag, lookups, failed calls (C22-C27, C47-C49). *)
From Verif Require Import FramesProofs.
From Verif Require Export StrategyProofs.
Open Scope Z_scope.

(** ** Dictionaries *)
Lemma dict_get_set {V} (d : dict V) k v k' : dict_get (dict_set d k v) k' = if String.eqb k k' then Some v else dict_get d k'.
Proof.
  induction d as [|[a b] d IH]; simpl; [auto|]. destruct (String.eqb_spec a k) as [->|Hn]; simpl; [destruct (String.eqb k k'); auto|].
  rewrite IH. destruct (String.eqb_spec a k') as [->|]; [|auto]. destruct (String.eqb_spec k k'); [congruence|auto].
Qed.
Lemma dict_get_elem {V} (d : dict V) k v : dict_get d k = Some v -> (k, v) ∈ d.
Proof.
  induction d as [|[a b] d IH]; simpl; [discriminate|]. destruct (String.eqb_spec a k) as [->|]; [intros [= ->]; left|]. intros E. right. auto.
Qed.
Lemma dict_get_none {V} (d : dict V) k : dict_get d k = None <-> ~ k ∈ map fst d.
Proof.
  induction d as [|[a b] d IH]; simpl; [split; [intros _ E; now apply elem_of_nil in E|auto]|]. rewrite elem_of_cons. destruct (String.eqb_spec a k) as [->|].
  - split; [discriminate|]. intros Hn. elim Hn. auto.
  - rewrite IH. intuition congruence.
Qed.
Lemma elem_dict_get {V} (d : dict V) k v : NoDup (map fst d) -> (k, v) ∈ d -> dict_get d k = Some v.
Proof.
  induction d as [|[a b] d IH]; simpl; intros Hn Hi; [now apply elem_of_nil in Hi|]. apply NoDup_cons in Hn as [H1 H2]. apply elem_of_cons in Hi as [Hi|Hi].
  - injection Hi as -> ->. now rewrite String.eqb_refl.
  - destruct (String.eqb_spec a k) as [->|]; [|auto]. elim H1. apply elem_of_list_fmap. now exists (k, v).
Qed.
Lemma dict_set_new {V} (d : dict V) k v : dict_get d k = None -> dict_set d k v = d ++ [(k, v)].
Proof.
  induction d as [|[a b] d IH]; simpl; [auto|]. destruct (String.eqb a k); [discriminate|]. intros E. now rewrite IH.
Qed.
Lemma dict_set_nodup {V} (d : dict V) k v : NoDup (map fst d) -> dict_get d k = None -> NoDup (map fst (dict_set d k v)).
Proof.
  intros Hn Hk. rewrite dict_set_new by auto. rewrite map_app. apply NoDup_app. split; [auto|]. split; [|apply NoDup_singleton].
  intros x Hx Hx'. apply elem_of_list_singleton in Hx'. simpl in Hx'. subst x. now apply dict_get_none in Hk.
Qed.

Section proofs.
  Context {F : Type} `{Num F}.
  Implicit Types (w : world F) (t : trade F) (e : epic F) (s : strategy) (fs : fset F).

  (** ** A tick does not change the configuration of a frame set *)
  Lemma create_conf fs tk st en mo : same_conf fs (fst (create_new_frame fs tk st en mo)).
  Proof.
    unfold create_new_frame. destruct (upsert _ _ _ _ _) as [fr [u|x]]; [|apply same_conf_refl]. destruct (clean_old_frames _ _ _) as [[h l] r]. now repeat split.
  Qed.
  Lemma fill_conf start mo fs : match fill_step start mo fs with inl fs' => same_conf fs fs' | inr y => same_conf fs (fst y) end.
  Proof.
    unfold fill_step. destruct (fs_current fs) as [cur|]; [|apply same_conf_refl]. destruct (fr_end cur) as [e|]; [|apply same_conf_refl].
    destruct (arrow_ltb e start); [|apply same_conf_refl]. destruct (get_frame_end _ _ _) as [e'|x]; [|apply same_conf_refl].
    pose proof (create_conf fs (fr_last cur) e (Some e') mo) as Hc. now destruct (create_new_frame _ _ _ _ _) as [fs' [u|x]].
  Qed.
  Lemma fs_tick_conf fuel fs tk mo lst : same_conf fs (fst (fs_on_new_tick fuel fs tk mo lst)).
  Proof.
    assert (same_conf fs (fst (add_tick_to_last fs tk mo))) as Ha.
    { unfold add_tick_to_last. destruct (fs_current_id fs) as [i|]; [|apply same_conf_refl]. destruct (fs_heap fs !! i) as [cur|]; [|apply same_conf_refl].
      destruct (frame_on_new_tick _ _ _ _ _) as [fr r]. now repeat split. }
    assert (same_conf fs (fst (create_new_frame_timed fuel fs tk mo))) as Ht.
    { unfold create_new_frame_timed. destruct (get_frame_start _ _ _) as [st|x]; [|apply same_conf_refl]. destruct (get_frame_end _ _ _) as [en|x]; [|apply same_conf_refl].
      assert (match ploop fuel (fill_step st mo) fs with inl z => same_conf fs z | inr y => same_conf fs (fst y) end) as Hp.
      { apply (ploop_ind (fill_step st mo) (fun z => same_conf fs z) (fun y => same_conf fs (fst y))); [| |apply same_conf_refl];
          intros a b Hc E; pose proof (fill_conf st mo a) as Hf; rewrite E in Hf; eapply same_conf_trans; eauto. }
      destruct (ploop fuel (fill_step st mo) fs) as [fs'|[fs' [u|x]]]; cbn [fst] in Hp; [exact Hp| |exact Hp].
      eapply same_conf_trans; [exact Hp|apply create_conf]. }
    unfold fs_on_new_tick. destruct (fs_unit fs); try (destruct (is_frame_over_timed fs tk); auto; fail).
    destruct (is_frame_over_tick fs tk lst); [apply create_conf|auto].
  Qed.

  (** ** Calls keep the identity of strategies *)
  Definition stable s := (st_ref s, st_epics s).
  Lemma fmap_alter_stable (f : strategy -> strategy) (k : nat) (l : list strategy) : (forall s, stable (f s) = stable s) -> stable <$> alter f k l = stable <$> l.
  Proof.
    intros Hf. apply list_eq. intros i. rewrite !list_lookup_fmap. destruct (decide (i = k)) as [->|Hn].
    - rewrite list_lookup_alter. destruct (l !! k); simpl; [now rewrite Hf|auto].
    - rewrite list_lookup_alter_ne by auto. reflexivity.
  Qed.
  Lemma base_open_stable w pid tid : stable <$> w_strats (base_open_trade w pid tid) = stable <$> w_strats w.
  Proof. unfold base_open_trade. destruct (w_trades w !! tid) as [t|]; [|auto]. destruct (tr_strat t); [|auto]. simpl. now apply fmap_alter_stable. Qed.
  Lemma cmd_stable w c : stable <$> w_strats (fst (run_cmd w c)) = stable <$> w_strats w.
  Proof.
    destruct c as [e d q s ref|t q ref|e t q ref|s q ref|t v|t|t v d q ref|t q ref|s u|s b|p k]; cbn [run_cmd fst]; auto.
    - assert (stable <$> w_strats (fst (epic_open_trade w e d q s ref)) = stable <$> w_strats w) as E; [|now destruct (epic_open_trade w e d q s ref)].
      unfold epic_open_trade. destruct (w_epics w !! e) as [ep|]; [|auto]. destruct (valid_id _ _); [|auto]. destruct (open_from_tick _ _ _ _ _ _) as [t|x]; [|auto]. cbv zeta.
      assert (stable <$> w_strats (fst (provider_open_trade (upd_trades w (w_trades w ++ [t])) (ep_prov ep) (length (w_trades w)) ref)) = stable <$> w_strats w) as E.
      { unfold provider_open_trade. destruct (w_provs _ !! ep_prov ep) as [p|] eqn:Ep; [|auto]. destruct (pv_kind p); try (cbn [fst]; rewrite base_open_stable; reflexivity).
        unfold backtest_open_trade. rewrite Ep. match goal with |- context [forM ?f ?w0 ?l] => pose proof (net_rest (ep_prov ep) (length (w_trades w)) ref w0 l) as [_ H1] end.
        destruct (forM _ _ _) as [w1 [u|x]]; cbn [fst] in *; [|now rewrite H1].
        destruct (w_trades w1 !! _) as [t1|]; [|cbn [fst]; now rewrite H1]. destruct (tr_oq t1 <=? 0); cbn [fst]; [now rewrite H1|]. now rewrite base_open_stable, H1. }
      destruct (provider_open_trade _ _ _ _) as [w' [u|x]]; exact E.
    - now rewrite (proj2 (strategy_close_rest w t q ref)).
    - unfold epic_close_trade. destruct (w_epics w !! e) as [ep|]; [|auto]. destruct (close_from_epic _ _ _ _) as [[w1 ci]|] eqn:E; [|auto]. apply close_from_epic_rest in E as [_ E]. cbn [fst]. simpl. now rewrite E.
    - unfold close_opened_trades. destruct (w_strats w !! s); [|auto]. now rewrite (proj2 (close_opened_rest q ref w _)).
    - destruct (w_trades w !! t) as [x|]; [|auto]. now destruct (w_epics w !! tr_epic x).
    - destruct (w_trades w !! t) as [x|]; [|auto]. now destruct (close x v d q ref) as [[x' c]|].
    - destruct (close_from_epic w t q ref) as [[w' ci]|] eqn:E; [|auto]. apply close_from_epic_rest in E as [_ E]. cbn [fst]. now rewrite E.
    - simpl. now apply fmap_alter_stable.
    - simpl. now apply fmap_alter_stable.
    - unfold run_thread. destruct (w_provs w !! p) as [p'|]; [|auto]. destruct (pv_threads p' !! k) as [th|]; [|auto]. now destruct (th_done th).
  Qed.

  (** ** References are unique *)
  Definition sref w (i : nat) : option string := st_ref <$> w_strats w !! i.
  Definition fref w (i : nat) : option string := fs_ref <$> w_fsets w !! i.
  Definition named w : Prop := forall eid e, w_epics w !! eid = Some e ->
    (NoDup (map fst (ep_strats e)) /\ forall k i, (k, i) ∈ ep_strats e -> sref w i = Some k) /\
    (NoDup (map fst (ep_fsets e)) /\ forall k i, (k, i) ∈ ep_fsets e -> fref w i = Some k).
  Lemma named_mono w w' : named w -> (forall i k, sref w i = Some k -> sref w' i = Some k) -> (forall i k, fref w i = Some k -> fref w' i = Some k) ->
    (forall eid e', w_epics w' !! eid = Some e' -> (ep_strats e' = [] /\ ep_fsets e' = []) \/
       exists (k : nat) e, w_epics w !! k = Some e /\ ep_strats e' = ep_strats e /\ ep_fsets e' = ep_fsets e) -> named w'.
  Proof.
    intros Hn Hs Hf He eid e' He'. destruct (He _ _ He') as [[-> ->]|(e0 & e & H0 & -> & ->)].
    - simpl. split; split; try constructor; intros k i E; now apply elem_of_nil in E.
    - destruct (Hn _ _ H0) as [[N1 N2] [N3 N4]]. split; (split; [auto|]); intros k i Hi; eauto.
  Qed.
  Lemma sref_stable w w' : stable <$> w_strats w' = stable <$> w_strats w -> forall i, sref w' i = sref w i.
  Proof.
    intros E i. assert ((stable <$> w_strats w') !! i = (stable <$> w_strats w) !! i) as E2 by now rewrite E. rewrite !list_lookup_fmap in E2. unfold sref.
    destruct (w_strats w' !! i), (w_strats w !! i); simpl in *; try discriminate; [|auto]. now injection E2 as -> _.
  Qed.
  Lemma insert_lookup_inv {A} (l : list A) i x j y : <[i := x]> l !! j = Some y -> (j = i /\ y = x /\ (i < length l)%nat) \/ (l !! j = Some y /\ j <> i).
  Proof. intros E. apply list_lookup_insert_Some in E as [(-> & -> & Hl)|[Hn E]]; auto. Qed.
  Ltac keep := let i := fresh in let k := fresh in let Hk := fresh in intros i k Hk; exact Hk.
  Ltac same_epics := simpl; let a := fresh in let b := fresh in let Hb := fresh in intros a b Hb; right; exists a, b; auto.
  Lemma reach_named P w : reach P w -> named w.
  Proof.
    intros Hr. induction Hr as [|w c Hr IH Hc|pr w o Hr IH Ho|w eid e tk Hr IH He Ha|w eid e x Hr IH He Hx|w eid e Hr IH He|w sid s d Hr IH Hs|w l Hr IH].
    - intros eid e E. discriminate.
    - pose proof (cmd_rest w c) as Er. injection Er as E1 E2 E3. apply (named_mono w); [auto| | |].
      + intros i k. now rewrite (sref_stable w _ (cmd_stable w c)).
      + intros i k. unfold fref. now rewrite E2.
      + rewrite E1. intros a b Hb. right. eauto.
    - destruct o as [k|ref|u q ref m|ref tz op cl ds hs p|e f|e s|f i|e tk|c]; try (exfalso; exact Ho); cbn [step fst].
      + apply (named_mono w); [auto|keep|keep|]. same_epics.
      + apply (named_mono w); [auto| |keep|same_epics]. intros i k. unfold sref. simpl. destruct (w_strats w !! i) eqn:E; [|discriminate]. now rewrite (lookup_app_l_Some _ _ _ _ E).
      + destruct (fset_init u q ref m) as [fs|x]; [|auto]. apply (named_mono w); [auto|keep| |same_epics]. intros i k. unfold fref. simpl. destruct (w_fsets w !! i) eqn:E; [|discriminate]. now rewrite (lookup_app_l_Some _ _ _ _ E).
      + unfold new_epic. destruct tz as [z|]; [|auto]. destruct (valid_id _ _); [|auto]. cbv zeta.
        destruct p as [p|]; (apply (named_mono w); [auto|keep|keep|]); cbn [fst w_epics upd_epics]; intros a b Hb; (apply lookup_app_Some in Hb as [Hb|[_ Hb]]; [right; exists a, b; auto|];
          apply list_lookup_singleton_Some in Hb as [_ <-]; left; auto).
      + unfold add_frame_set. destruct (w_epics w !! e) as [ep|] eqn:Ee; [|auto]. destruct (w_fsets w !! f) as [fs|] eqn:Ef; [|auto]. destruct (dict_get (ep_fsets ep) (fs_ref fs)) eqn:Eg; [auto|].
        assert (forall i, fref (upd_epics (upd_fsets w (<[f:=fs_set_epic fs (Some e)]> (w_fsets w))) (<[e:=ep_set_fsets ep (dict_set (ep_fsets ep) (fs_ref fs) f)]> (w_epics w))) i = fref w i) as Efr.
        { intros i. unfold fref. cbn [w_fsets upd_epics upd_fsets]. destruct (decide (i = f)) as [->|]; [|now rewrite list_lookup_insert_ne by auto].
          rewrite list_lookup_insert, Ef by (eapply lookup_lt_Some; eauto). auto. }
        intros a b Hb. cbn [fst w_epics upd_epics] in Hb. apply insert_lookup_inv in Hb as [(-> & -> & _)|[Hb _]].
        * destruct (IH _ _ Ee) as [N1 [N3 N4]]. split; [exact N1|]. cbn [ep_fsets ep_set_fsets]. split; [now apply dict_set_nodup|].
          intros k i Hi. cbn [fst]. rewrite Efr. rewrite dict_set_new in Hi by auto. apply elem_of_app in Hi as [Hi|Hi]; [auto|]. apply elem_of_list_singleton in Hi. injection Hi as -> ->. unfold fref. now rewrite Ef.
        * destruct (IH _ _ Hb) as [N1 [N3 N4]]. split; [exact N1|]. split; [auto|]. intros k i Hi. cbn [fst]. rewrite Efr. auto.
      + unfold add_strategy. destruct (w_epics w !! e) as [ep|] eqn:Ee; [|auto]. destruct (w_strats w !! s) as [st|] eqn:Es; [|auto]. destruct (dict_get (ep_strats ep) (st_ref st)) eqn:Eg; [auto|].
        cbn [fst]. match goal with |- named ?w1 => assert (forall i, sref w1 i = sref w i) as Esr end.
        { intros i. unfold sref. cbn [w_strats upd_epics upd_strats]. destruct (decide (i = s)) as [->|]; [|now rewrite list_lookup_insert_ne by auto].
          rewrite list_lookup_insert, Es by (eapply lookup_lt_Some; eauto). auto. }
        intros a b Hb. cbn [fst w_epics upd_epics upd_strats] in Hb. apply insert_lookup_inv in Hb as [(-> & -> & _)|[Hb _]].
        * destruct (IH _ _ Ee) as [[N1 N2] N3]. split; [|exact N3]. cbn [ep_strats ep_set_strats]. split; [now apply dict_set_nodup|].
          intros k i Hi. rewrite Esr. rewrite dict_set_new in Hi by auto. apply elem_of_app in Hi as [Hi|Hi]; [auto|]. apply elem_of_list_singleton in Hi. injection Hi as -> ->. unfold sref. now rewrite Es.
        * destruct (IH _ _ Hb) as [[N1 N2] N3]. split; [|exact N3]. split; [auto|]. intros k i Hi. rewrite Esr. auto.
      + destruct (w_fsets w !! f) as [fs|] eqn:Ef; [|auto]. pose proof (eq_refl : fs_ref (fst (add_indicator fs i)) = fs_ref (fst (add_indicator fs i))) as Ei.
        assert (fs_ref (fst (add_indicator fs i)) = fs_ref fs) as Er. { clear Ei. unfold add_indicator. repeat match goal with |- context [match ?x with _ => _ end] => destruct x end; reflexivity. }
        destruct (add_indicator fs i) as [fs' r]. cbn [fst] in *. apply (named_mono w); [auto|keep| |same_epics]. intros j k. unfold fref. cbn [w_fsets upd_fsets].
        destruct (decide (j = f)) as [->|]; [|now rewrite list_lookup_insert_ne by auto]. rewrite Ef, list_lookup_insert by (eapply lookup_lt_Some; eauto). simpl. now rewrite Er.
    - apply (named_mono w); [auto|keep|keep|]. cbn [w_epics upd_epics]. intros a b Hb. apply insert_lookup_inv in Hb as [(-> & -> & _)|[Hb _]]; right; eexists _, _; eauto.
    - apply (named_mono w); [auto| | |].
      + intros i k. unfold sref. unfold update_frame_set. destruct (w_fsets w !! x.2) as [fs|]; [|auto]. destruct (fs_epic_state w fs) as [mo lst]. now destruct (fs_on_new_tick _ _ _ _ _).
      + intros i k. unfold fref. unfold update_frame_set. destruct (w_fsets w !! x.2) as [fs|] eqn:Ef; [|auto]. destruct (fs_epic_state w fs) as [mo lst].
        pose proof (fs_tick_conf (gap_fuel fs (ep_last e)) fs (ep_last e) mo lst) as (C1 & _). destruct (fs_on_new_tick _ _ _ _ _) as [fs' r]. cbn [fst w_fsets upd_fsets] in *.
        destruct (decide (i = x.2)) as [->|]; [|now rewrite list_lookup_insert_ne by auto]. rewrite Ef, list_lookup_insert by (eapply lookup_lt_Some; eauto). simpl. now rewrite C1.
      + rewrite update_fset_epics. same_epics.
    - destruct (value_rest w (ep_prov e) (ep_last e)) as (V1 & V2 & V3 & V4). apply (named_mono w); [auto| | |].
      + intros i k. unfold sref. now rewrite V1.
      + intros i k. unfold fref. now rewrite V4.
      + rewrite V2. same_epics.
    - apply (named_mono w); [auto| |keep|same_epics]. intros i k. unfold sref. cbn [w_strats upd_strats]. destruct (decide (i = sid)) as [->|]; [|now rewrite list_lookup_insert_ne by auto].
      rewrite Hs, list_lookup_insert by (eapply lookup_lt_Some; eauto). unfold is_active. destruct (st_stopped s); [auto|]. destruct (st_paused s); [|auto]. now destruct (arrow_ltb _ _).
    - apply (named_mono w); [auto|keep|keep|same_epics].
  Qed.
End proofs.
