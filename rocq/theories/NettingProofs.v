(** Netting of the backtest provider (C11-C14) and quantities in reachable states. *)
From Verif Require Export LedgerProofs.
Open Scope Z_scope.

(** What is left of [q] after the open quantities [a]. *)
Fixpoint absorb (q : Z) (a : list Z) : Z := match a with [] => q | x :: a' => absorb (q - Z.min x q) a' end.
Lemma absorb_spec q a : 0 <= q -> Forall (fun x => 0 < x) a -> absorb q a = Z.max 0 (q - total a).
Proof.
  revert q. induction a as [|x a IH]; intros q Hq Ha; simpl; [lia|]. apply Forall_cons in Ha as [Hx Ha].
  rewrite IH by (auto; lia). assert (0 <= total a) by (clear -Ha; induction Ha; simpl; lia). lia.
Qed.
Lemma total_pos a : Forall (fun x => 0 < x) a -> 0 <= total a.
Proof. induction 1; simpl; lia. Qed.
Lemma absorb_app q a b : absorb q (a ++ b) = absorb (absorb q a) b.
Proof. revert q. induction a as [|x a IH]; intros q; simpl; auto. Qed.

Lemma filter_ext_in {A} (f g : A -> bool) l : (forall x, x ∈ l -> f x = g x) -> List.filter f l = List.filter g l.
Proof.
  induction l as [|x l IH]; intros Hx; simpl; [auto|]. rewrite (Hx x) by left. rewrite IH; [auto|]. intros y Hy. apply Hx. now right.
Qed.
Lemma elem_of_filter_b {A} (f : A -> bool) l x : x ∈ List.filter f l <-> x ∈ l /\ f x = true.
Proof. rewrite !elem_of_list_In. apply filter_In. Qed.
Lemma filter_nodup {A} (f : A -> bool) (l : list A) : NoDup l -> NoDup (List.filter f l).
Proof.
  induction 1 as [|x l Hx Hl IH]; simpl; [constructor|]. destruct (f x); [|auto]. constructor; auto.
  intros E. apply elem_of_filter_b in E as [E _]. auto.
Qed.
Lemma increasing_nodup l : increasing l -> NoDup l.
Proof.
  unfold increasing. induction 1 as [|x l Hl IH Hx]; constructor; auto. intros E. eapply Forall_forall in Hx; eauto. lia.
Qed.

Section proofs.
  Context {F : Type} `{Num F}.
  Implicit Types (w : world F) (t o : trade F).

  Definition oppb w t (i : nat) : bool :=
    match w_trades w !! i with
    | Some o => dir_eqb (tr_dir o) (dir_opp (tr_dir t)) && bool_decide (tr_strat o = tr_strat t)
    | None => false
    end.
  Definition nb_closes w (i : nat) : nat := match w_trades w !! i with Some o => length (tr_closes o) | None => O end.
  Definition close_job w (i : nat) : thread := {| th_job := JClose i (nb_closes w i); th_done := false |}.

  Lemma net_loop pid tid ref t : forall lo w,
    w_trades w !! tid = Some t -> NoDup lo -> tid ∉ lo ->
    (forall i, i ∈ lo -> exists o e, w_trades w !! i = Some o /\ w_epics w !! tr_epic o = Some e) ->
    let l := List.filter (oppb w t) lo in
    exists w', forM (net_step pid tid ref) w lo = (w', Ok ()) /\
      w_trades w' !! tid = Some (set_oq t (absorb (tr_oq t) (map (open_qty w) l))) /\
      (forall k i o, l !! k = Some i -> w_trades w !! i = Some o -> exists eo o' c, w_epics w !! tr_epic o = Some eo /\
         close_from_tick o (ep_last eo) (Some (Z.min (opened_quantities o) (absorb (tr_oq t) (map (open_qty w) (take k l))))) ref = Ok (o', c) /\
         w_trades w' !! i = Some o') /\
      (forall i, i <> tid -> i ∉ l -> w_trades w' !! i = w_trades w !! i) /\
      length (w_trades w') = length (w_trades w) /\
      w_provs w' = alter (fun p => pv_set_threads p (pv_threads p ++ map (close_job w) l)) pid (w_provs w) /\
      w_epics w' = w_epics w /\ w_strats w' = w_strats w /\ w_fsets w' = w_fsets w /\ w_log w' = w_log w.
  Proof.
    intros lo. revert t. induction lo as [|i lo IH]; intros t w Ht Hnd Hni Hv l.
    - exists w. simpl in l. subst l. split; [reflexivity|]. split; [rewrite Ht; destruct t; reflexivity|].
      split; [intros k i o Hk; rewrite lookup_nil in Hk; discriminate|]. split; [auto|]. split; [auto|]. split; [|auto].
      symmetry. rewrite <- (list_alter_id (fun p : provider => p) (w_provs w) pid) at 2 by auto. apply list_alter_ext; [|auto].
      intros p _. destruct p. unfold pv_set_threads. simpl. now rewrite app_nil_r.
    - apply NoDup_cons in Hnd as [Hi Hnd]. apply not_elem_of_cons in Hni as [Hne Hni].
      destruct (Hv i) as (o & e & Ho & He); [left|].
      assert (forall i, i ∈ lo -> exists o e, w_trades w !! i = Some o /\ w_epics w !! tr_epic o = Some e) as Hv' by (intros j Hj; apply Hv; now right).
      assert (oppb w t i = dir_eqb (tr_dir o) (dir_opp (tr_dir t)) && bool_decide (tr_strat o = tr_strat t)) as Eopp by (unfold oppb; now rewrite Ho).
      unfold l. clear l. cbn [List.filter]. rewrite Eopp. cbv zeta. cbn [forM]. unfold net_step at 1. rewrite Ht, Ho.
      destruct (dir_eqb (tr_dir o) (dir_opp (tr_dir t))) eqn:Ed; simpl.
      2: { apply (IH t w Ht Hnd Hni Hv'). }
      destruct (bool_decide (tr_strat o = tr_strat t)) eqn:Es; simpl.
      2: { apply (IH t w Ht Hnd Hni Hv'). }
      set (qc := Z.min (opened_quantities o) (tr_oq t)).
      destruct (close_from_epic_ok w i (Some qc) ref o e Ho He) as (o' & c & Hc & ->).
      set (w1 := upd_trades (provider_close_trade (upd_trades w (<[i:=o']> (w_trades w))) pid i (length (tr_closes o)))
        (alter (fun x => set_oq x (tr_oq x - qc)) tid (w_trades (provider_close_trade (upd_trades w (<[i:=o']> (w_trades w))) pid i (length (tr_closes o)))))).
      assert (w_trades w1 = alter (fun x => set_oq x (tr_oq x - qc)) tid (<[i:=o']> (w_trades w))) as Et1 by reflexivity.
      assert (forall j, j <> tid -> j <> i -> w_trades w1 !! j = w_trades w !! j) as Hsame.
      { intros j J1 J2. rewrite Et1, list_lookup_alter_ne, list_lookup_insert_ne; auto. }
      assert (w_trades w1 !! i = Some o') as Hi1.
      { rewrite Et1, list_lookup_alter_ne by auto. apply list_lookup_insert. eapply lookup_lt_Some; eauto. }
      assert (w_trades w1 !! tid = Some (set_oq t (tr_oq t - qc))) as Ht1.
      { rewrite Et1, list_lookup_alter, list_lookup_insert_ne, Ht by auto. reflexivity. }
      assert (forall j, j ∈ lo -> j <> tid /\ j <> i) as Hlo by (intros j Hj; split; intros ->; auto).
      assert (List.filter (oppb w1 (set_oq t (tr_oq t - qc))) lo = List.filter (oppb w t) lo) as Efil.
      { apply filter_ext_in. intros j Hj. destruct (Hlo j Hj). unfold oppb. now rewrite Hsame. }
      destruct (IH (set_oq t (tr_oq t - qc)) w1 Ht1 Hnd Hni) as (w' & R1 & R2 & R3 & R4 & R5 & R6 & R7 & R8 & R9 & R10).
      { intros j Hj. destruct (Hlo j Hj). destruct (Hv' j Hj) as (x & y & Hx & Hy). exists x, y. rewrite Hsame by auto. auto. }
      rewrite Efil in *.
      assert (forall k, map (open_qty w1) (take k (List.filter (oppb w t) lo)) = map (open_qty w) (take k (List.filter (oppb w t) lo))) as Eq.
      { intros k. apply map_ext_in. intros j Hj. apply elem_of_list_In in Hj. apply elem_of_take in Hj as (n & Hj & _).
        apply elem_of_list_lookup_2 in Hj. apply elem_of_filter_b in Hj as [Hj _]. destruct (Hlo j Hj). unfold open_qty. now rewrite Hsame. }
      assert (open_qty w i = opened_quantities o) as Eqi by (unfold open_qty; now rewrite Ho).
      exists w'. split; [exact R1|]. split.
      { rewrite R2. simpl. f_equal. rewrite Eqi. fold qc. pose proof (Eq (length (List.filter (oppb w t) lo))) as E. rewrite !firstn_all in E. now rewrite E. }
      split.
      { intros [|k] j x Hk Hx; simpl in Hk.
        - injection Hk as <-. rewrite Ho in Hx. injection Hx as <-. exists e, o', c. split; [auto|]. simpl. fold qc. split; [auto|].
          rewrite R4; auto. intros E. apply elem_of_filter_b in E as [E _]. auto.
        - pose proof (elem_of_list_lookup_2 _ _ _ Hk) as Hj. apply elem_of_filter_b in Hj as [Hj _]. destruct (Hlo j Hj) as [J1 J2].
          rewrite <- (Hsame j) in Hx by auto. destruct (R3 k j x Hk Hx) as (eo & x' & cx & Q1 & Q2 & Q3). exists eo, x', cx.
          split; [auto|]. split; [|auto]. rewrite Eq in Q2. simpl. rewrite Eqi. fold qc. simpl in Q2. exact Q2. }
      split.
      { intros j J1 J2. apply not_elem_of_cons in J2 as [J2 J3]. rewrite R4; auto. }
      split; [rewrite R5, Et1, alter_length, insert_length; auto|]. split.
      { rewrite R6. simpl. rewrite <- list_alter_compose. apply list_alter_ext; [|auto]. intros p _. destruct p. unfold pv_set_threads. simpl.
        rewrite <- app_assoc. simpl. f_equal. f_equal. f_equal.
        - unfold close_job, nb_closes. now rewrite Ho.
        - apply map_ext_in. intros j Hj. apply elem_of_list_In in Hj. apply elem_of_filter_b in Hj as [Hj _]. destruct (Hlo j Hj).
          unfold close_job, nb_closes. now rewrite Hsame. }
      auto.
  Qed.

  Lemma filter_filter_b {A} (f g : A -> bool) l : List.filter f (List.filter g l) = List.filter (fun x => g x && f x) l.
  Proof. induction l as [|x l IH]; simpl; [auto|]. destruct (g x); simpl; [destruct (f x); now rewrite IH|auto]. Qed.
  Lemma opp_list w t (p : provider) s d : (forall i, i ∈ pv_trades p -> (i < length (w_trades w))%nat) -> tr_strat t = s -> tr_dir t = d ->
    List.filter (oppb (upd_trades w (w_trades w ++ [t])) t) (opened_trades (upd_trades w (w_trades w ++ [t])) p) = open_trades_of w p s (other d).
  Proof.
    intros Hlt Es Ed. unfold opened_trades, open_trades_of. rewrite filter_filter_b. apply filter_ext_in. intros i Hi.
    rewrite elem_of_reverse in Hi. specialize (Hlt i Hi). unfold trade_open_b, oppb, open_in. simpl. rewrite lookup_app_l by auto.
    destruct (w_trades w !! i) as [o|]; [|auto]. rewrite Es, Ed. unfold dir_eqb, closed. unfold dir_opp, other.
    destruct (opened_quantities o =? 0), (bool_decide (tr_dir o = _)), (bool_decide (tr_strat o = s)); auto.
  Qed.
  Lemma open_trades_of_elem w p s d i : i ∈ open_trades_of w p s d <->
    i ∈ pv_trades p /\ exists t, w_trades w !! i = Some t /\ tr_strat t = s /\ tr_dir t = d /\ opened_quantities t <> 0.
  Proof.
    unfold open_trades_of. rewrite elem_of_filter_b, elem_of_reverse. unfold open_in. split; intros [Hi Ho]; split; auto.
    - destruct (w_trades w !! i) as [t|]; [|discriminate]. exists t. apply andb_true_iff in Ho as [Ho H3]. apply andb_true_iff in Ho as [H1 H2].
      apply bool_decide_eq_true in H1. apply bool_decide_eq_true in H2. apply negb_true_iff, Z.eqb_neq in H3. auto.
    - destruct Ho as (t & -> & <- & <- & Hq). rewrite !bool_decide_eq_true_2 by auto. apply Z.eqb_neq in Hq. now rewrite Hq.
  Qed.
  Lemma increasing_rev_nodup l : increasing l -> NoDup (reverse l).
  Proof. intros Hl. rewrite reverse_Permutation. now apply increasing_nodup. Qed.

  Lemma netted_request q b a : 0 < a -> 0 <= b -> forall t, opened_quantities t = a ->
    close_quantity t (Some (Z.min a (Z.max 0 (q - b)))) = netted q b a /\ close_quantity t (Some (netted q b a)) = netted q b a.
  Proof.
    intros Ha Hb t Ht. unfold netted. destruct (Z.leb_spec q b) as [Hle|Hlt].
    - replace (Z.min a (Z.max 0 (q - b))) with 0 by lia. rewrite close_quantity_zero, close_quantity_nz by lia. lia.
    - replace (Z.min a (Z.max 0 (q - b))) with (Z.min a (q - b)) by lia. rewrite close_quantity_nz by lia. lia.
  Qed.
  Lemma close_tick_quantity t tk q q' ref : close_quantity t q = close_quantity t q' -> close_from_tick t tk q ref = close_from_tick t tk q' ref.
  Proof.
    intros E. unfold close_from_tick, close. simpl. pose proof (update_from_tick_same t tk) as Hs.
    rewrite (close_quantity_same _ _ q Hs), (close_quantity_same _ _ q' Hs). now rewrite E.
  Qed.
  Lemma close_tick_qty t tk q ref t' c : close_from_tick t tk q ref = Ok (t', c) ->
    tc_qty c = close_quantity t q /\ opened_quantities t' = opened_quantities t - tc_qty c.
  Proof.
    intros E. apply close_from_tick_inv in E. cbv zeta in E. destruct E as (-> & _ & Hc & _).
    rewrite (close_quantity_same t) in Hc by apply update_from_tick_same. split; [auto|].
    rewrite set_closes_opened, (same_opened t) by apply update_from_tick_same. auto.
  Qed.

  Definition reg_list {A} (b : bool) (x : A) : list A := if b then [x] else [].

  (** Opening a trade through the backtest provider. *)
  Lemma open_backtest w eid e p d q s ref : wfw w -> w_epics w !! eid = Some e -> w_provs w !! ep_prov e = Some p -> pv_kind p = PBacktests ->
    valid_id (w_strats w) s = true -> 0 < q ->
    let l := open_trades_of w p s (other d) in let a := map (open_qty w) l in let tid := length (w_trades w) in
    let reg := total a <? q in
    (forall i, i ∈ l -> 0 < open_qty w i) ->
    exists t w', open_from_tick (ep_last e) eid (Dir d) q s ref = Ok t /\ epic_open_trade w eid (Dir d) q s ref = (w', Ok tid) /\
      w_trades w' !! tid = Some (set_oq t (Z.max 0 (q - total a))) /\ length (w_trades w') = S tid /\
      (forall k i o, l !! k = Some i -> w_trades w !! i = Some o -> exists eo o' c, w_epics w !! tr_epic o = Some eo /\
         close_from_tick o (ep_last eo) (Some (netted q (total (take k a)) (opened_quantities o))) ref = Ok (o', c) /\
         tc_qty c = netted q (total (take k a)) (opened_quantities o) /\ w_trades w' !! i = Some o') /\
      (forall i, (i < tid)%nat -> i ∉ l -> w_trades w' !! i = w_trades w !! i) /\
      w_provs w' = <[ep_prov e := {| pv_kind := PBacktests; pv_trades := pv_trades p ++ reg_list reg tid;
         pv_threads := pv_threads p ++ map (close_job w) l ++ reg_list reg {| th_job := JOpen tid; th_done := false |} |}]> (w_provs w) /\
      w_strats w' = (match s with Some sid => alter (fun x => st_set_trades x (st_trades x ++ reg_list reg tid)) sid (w_strats w) | None => w_strats w end) /\
      w_epics w' = w_epics w /\ w_fsets w' = w_fsets w /\ w_log w' = w_log w.
  Proof.
    intros W He Hp Hk Hs Hq l a tid reg Hpos.
    assert (exists t, open_from_tick (ep_last e) eid (Dir d) q s ref = Ok t) as (t & Ho) by (destruct d; simpl; eauto).
    destruct (open_fields _ _ _ _ _ _ _ Ho) as (d' & Ed & E1 & E2 & E3 & E4 & E5 & _). injection Ed as <-.
    set (w0 := upd_trades w (w_trades w ++ [t])).
    destruct (wf_prov _ W _ _ Hp) as [Hinc Hreg].
    assert (forall i, i ∈ pv_trades p -> (i < length (w_trades w))%nat) as Hlt.
    { intros i Hi. destruct (Hreg i Hi) as (x & _ & Hx & _). eapply lookup_lt_Some; eauto. }
    assert (List.filter (oppb w0 t) (opened_trades w0 p) = l) as El by (apply opp_list; auto).
    assert (forall i, i ∈ l -> (i < tid)%nat) as Hll.
    { intros i Hi. apply open_trades_of_elem in Hi as [Hi _]. auto. }
    assert (forall i, (i < tid)%nat -> w_trades w0 !! i = w_trades w !! i) as Hw0 by (intros i Hi; simpl; now rewrite lookup_app_l).
    assert (forall k, map (open_qty w0) (take k l) = take k a) as Ea.
    { intros k. unfold a. rewrite firstn_map. apply map_ext_in. intros i Hi. apply elem_of_list_In in Hi.
      apply elem_of_take in Hi as (n & Hi & _). apply elem_of_list_lookup_2 in Hi. unfold open_qty. rewrite Hw0; auto. }
    assert (map (open_qty w0) l = a) as Ea'.
    { pose proof (Ea (length l)) as E. rewrite firstn_all in E. rewrite E. unfold a. rewrite firstn_all2; [auto|]. rewrite map_length. lia. }
    assert (Forall (fun x => 0 < x) a) as Hapos.
    { apply Forall_forall. intros x Hx. apply elem_of_list_In, in_map_iff in Hx as (i & <- & Hi). apply Hpos. now apply elem_of_list_In. }
    assert (forall k, Forall (fun x => 0 < x) (take k a)) as Htk by (intros k; now apply Forall_take).
    assert (forall i, i ∈ opened_trades w0 p -> i ∈ pv_trades p) as Hop.
    { intros i Hi. unfold opened_trades in Hi. apply elem_of_filter_b in Hi as [Hi _]. now rewrite elem_of_reverse in Hi. }
    destruct (net_loop (ep_prov e) tid ref t (opened_trades w0 p) w0) as (w1 & R1 & R2 & R3 & R4 & R5 & R6 & R7 & R8 & R9 & R10).
    { simpl. now apply list_lookup_middle. }
    { unfold opened_trades. apply filter_nodup. now apply increasing_rev_nodup. }
    { intros Hi. apply Hop in Hi. specialize (Hlt _ Hi). unfold tid in Hlt. lia. }
    { intros i Hi. apply Hop in Hi. destruct (Hreg i Hi) as (x & y & Hx & Hy & _). exists x, y. rewrite Hw0 by (eapply Hlt; eauto). auto. }
    rewrite El in *. rewrite Ea', E4, absorb_spec in R2 by (auto; lia).
    exists t. unfold epic_open_trade. rewrite He, Hs, Ho. cbv zeta. fold w0 tid.
    unfold provider_open_trade. change (w_provs w0) with (w_provs w). rewrite Hp, Hk. unfold backtest_open_trade.
    change (w_provs w0) with (w_provs w). rewrite Hp, R1, R2. simpl (tr_oq (set_oq t _)).
    assert (Z.max 0 (q - total a) <=? 0 = negb reg) as ->.
    { unfold reg. destruct (Z.leb_spec (Z.max 0 (q - total a)) 0), (Z.ltb_spec (total a) q); simpl; auto; lia. }
    set (w2 := if reg then base_open_trade w1 (ep_prov e) tid else w1).
    exists w2. split; [auto|]. split; [unfold w2; destruct reg; reflexivity|].
    assert (w_trades w2 = w_trades w1 /\ w_epics w2 = w_epics w1 /\ w_fsets w2 = w_fsets w1 /\ w_log w2 = w_log w1) as (G1 & G2 & G3 & G4).
    { unfold w2. destruct reg; [apply register_rest|auto]. }
    rewrite G1, G2, G3, G4. split; [auto|]. split; [rewrite R5; simpl; rewrite app_length; simpl; unfold tid; lia|]. split.
    { intros k i o Hi Hio. assert (0 < opened_quantities o) as Hoq.
      { pose proof (Hpos i (elem_of_list_lookup_2 _ _ _ Hi)) as X. unfold open_qty in X. now rewrite Hio in X. }
      destruct (R3 k i o Hi) as (eo & o' & c & Q1 & Q2 & Q3); [rewrite Hw0; auto; apply Hll; eapply elem_of_list_lookup_2; eauto|].
      rewrite Ea, E4, absorb_spec in Q2 by (auto; lia).
      destruct (netted_request q (total (take k a)) (opened_quantities o) Hoq (total_pos _ (Htk k)) o eq_refl) as [N1 N2].
      exists eo, o', c. split; [exact Q1|]. split; [rewrite <- Q2; apply close_tick_quantity; congruence|].
      split; [|exact Q3]. apply close_tick_qty in Q2 as [-> _]. exact N1. }
    split.
    { intros i Hi Hil. rewrite R4 by (auto; lia). apply Hw0; auto. }
    split.
    { assert (w_provs w1 = <[ep_prov e := pv_set_threads p (pv_threads p ++ map (close_job w) l)]> (w_provs w)) as Ew1.
      { rewrite R6. change (w_provs w0) with (w_provs w). apply list_eq. intros j. destruct (decide (j = ep_prov e)) as [->|Hne].
        - rewrite list_lookup_alter, Hp, list_lookup_insert by (eapply lookup_lt_Some; eauto). simpl. f_equal. f_equal. f_equal.
          apply map_ext_in. intros i Hi. apply elem_of_list_In in Hi. unfold close_job, nb_closes. rewrite Hw0; auto.
        - rewrite list_lookup_alter_ne, list_lookup_insert_ne; auto. }
      apply list_eq. intros j. unfold w2. destruct reg; simpl.
      - rewrite (register_provs _ _ _ _ _ R2), Ew1. destruct (decide (j = ep_prov e)) as [->|Hne].
        + rewrite !list_lookup_insert by (eapply lookup_lt_Some; eauto). simpl. rewrite Hk. f_equal. f_equal. now rewrite <- app_assoc.
        + rewrite !list_lookup_insert_ne; auto.
      - rewrite Ew1. destruct (decide (j = ep_prov e)) as [->|Hne].
        + rewrite !list_lookup_insert by (eapply lookup_lt_Some; eauto). unfold pv_set_threads. now rewrite Hk, !app_nil_r.
        + rewrite !list_lookup_insert_ne; auto. }
    split; [|auto].
    assert (forall x, st_set_trades x (st_trades x ++ []) = x) as Hid by (intros []; unfold st_set_trades; simpl; now rewrite app_nil_r).
    apply list_eq. intros j. unfold w2. destruct reg; simpl.
    - rewrite (register_strats _ _ _ _ _ R2), R8. simpl. rewrite E2. destruct s as [sid|].
      + destruct (decide (Some sid = Some j)) as [E|E]; [injection E as ->; now rewrite list_lookup_alter|rewrite list_lookup_alter_ne; congruence].
      + reflexivity.
    - rewrite R8. destruct s as [sid|]; [|auto]. change (w_strats w0) with (w_strats w). destruct (decide (sid = j)) as [->|Hne].
      + rewrite list_lookup_alter. destruct (w_strats w !! j) as [x|]; simpl; [now rewrite Hid|auto].
      + now rewrite list_lookup_alter_ne.
  Qed.
End proofs.
