From Verif Require Export NumQProofs TickProofs Trade SpecTrade SpecRound.
Open Scope Z_scope.

Lemma fold_add_total l a : fold_left Z.add l a = a + total l.
Proof. revert a. induction l as [|x l IH]; intros a; simpl; [lia|rewrite IH; lia]. Qed.
Lemma total_app l k : total (l ++ k) = total l + total k.
Proof. induction l as [|x l IH]; simpl; lia. Qed.

Section gen.
  Context {F : Type} `{Num F}.
  Implicit Types t : trade F.

  Lemma closed_quantities_booked t : closed_quantities t = booked (tr_closes t).
  Proof. unfold closed_quantities, booked. rewrite fold_add_total. lia. Qed.
  Lemma booked_app (l k : list (tclose F)) : booked (l ++ k) = booked l + booked k.
  Proof. unfold booked. rewrite map_app, total_app. lia. Qed.
  Lemma booked_alter_status (l : list (tclose F)) i s : booked (alter (fun c => set_cstatus c s) i l) = booked l.
  Proof.
    unfold booked. f_equal. revert i. induction l as [|c l IH]; intros [|i]; simpl; auto.
    f_equal. apply IH.
  Qed.
  Lemma opened_booked t : opened_quantities t = tr_oq t - booked (tr_closes t).
  Proof. unfold opened_quantities. now rewrite closed_quantities_booked. Qed.
  Lemma closed_spec t : closed t = true <-> opened_quantities t = 0.
  Proof. apply Z.eqb_eq. Qed.
  Lemma closed_false t : closed t = false <-> opened_quantities t <> 0.
  Proof. apply Z.eqb_neq. Qed.

  (** What updates keep *)
  Definition same_but_prices t t' : Prop :=
    tr_epic t' = tr_epic t /\ tr_strat t' = tr_strat t /\ tr_dir t' = tr_dir t /\ tr_oq t' = tr_oq t /\
    tr_closes t' = tr_closes t /\ tr_ov t' = tr_ov t /\ tr_dt t' = tr_dt t /\ tr_status t' = tr_status t /\
    tr_ref t' = tr_ref t.
  Lemma update_min_max_same t : same_but_prices t (update_min_max t) /\ tr_cv (update_min_max t) = tr_cv t.
  Proof.
    unfold update_min_max, same_but_prices.
    destruct (fltb (tr_max t) (result t)); simpl; match goal with |- context [if ?c then _ else _] => destruct c end;
      simpl; auto 20.
  Qed.
  Lemma update_same t v : same_but_prices t (update t v).
  Proof.
    unfold update. destruct (closed t); [unfold same_but_prices; auto 20|].
    destruct (update_min_max_same (set_cv t v)) as [Hs _]. exact Hs.
  Qed.
  Lemma update_from_tick_same t tk : same_but_prices t (update_from_tick t tk).
  Proof. apply update_same. Qed.
  Lemma same_opened t t' : same_but_prices t t' -> opened_quantities t' = opened_quantities t.
  Proof. intros (_ & _ & _ & H1 & H2 & _). rewrite !opened_booked. congruence. Qed.
  Lemma same_closed t t' : same_but_prices t t' -> closed t' = closed t.
  Proof. intros Hs. unfold closed. now rewrite (same_opened t t'). Qed.
  Lemma update_cv t v : closed t = false -> tr_cv (update t v) = v.
  Proof. intros E. unfold update. rewrite E. now rewrite (proj2 (update_min_max_same (set_cv t v))). Qed.
  Lemma update_closed t v : closed t = true -> update t v = t.
  Proof. intros E. unfold update. now rewrite E. Qed.
  Lemma update_from_tick_closed t tk : closed t = true -> update_from_tick t tk = t.
  Proof. intros E. unfold update_from_tick. now apply update_closed. Qed.

  (** Closing *)
  Lemma close_inv t v d q ref t' c : close t v d q ref = Ok (t', c) ->
    t' = set_closes t (tr_closes t ++ [c]) /\ tc_value c = v /\ tc_qty c = close_quantity t q /\
    d = DtAware (tc_dt c) /\ tc_status c = CREATED /\ tc_ref c = ref.
  Proof. unfold close. destruct d as [|a]; [discriminate|]. simpl. intros [= <- <-]. simpl. auto 10. Qed.

  Lemma close_quantity_default t : close_quantity t None = opened_quantities t.
  Proof. unfold close_quantity. destruct (Z.ltb_spec (opened_quantities t) (opened_quantities t)); lia. Qed.
  Lemma close_quantity_zero t : close_quantity t (Some 0) = opened_quantities t.
  Proof. apply close_quantity_default. Qed.
  Lemma close_quantity_nz t z : z <> 0 -> close_quantity t (Some z) = Z.min z (opened_quantities t).
  Proof.
    intros Hz. unfold close_quantity. destruct (Z.eqb_spec z 0); [lia|].
    destruct (Z.ltb_spec (opened_quantities t) z); lia.
  Qed.
  Lemma close_quantity_bounds t q : qty_ok q -> 0 <= opened_quantities t ->
    0 <= close_quantity t q <= opened_quantities t.
  Proof.
    intros Hq Ho. destruct q as [z|]; [|rewrite close_quantity_default; lia].
    simpl in Hq. destruct (Z.eq_dec z 0) as [->|Hz]; [rewrite close_quantity_zero; lia|].
    rewrite close_quantity_nz by auto. lia.
  Qed.
  Lemma close_quantity_closed t q : qty_ok q -> closed t = true -> close_quantity t q = 0.
  Proof.
    intros Hq Ho. apply closed_spec in Ho. pose proof (close_quantity_bounds t q Hq ltac:(lia)). lia.
  Qed.
  Lemma close_quantity_pos t q : qty_ok q -> 0 < opened_quantities t -> 0 < close_quantity t q.
  Proof.
    intros Hq Ho. destruct q as [z|]; [|rewrite close_quantity_default; lia].
    simpl in Hq. destruct (Z.eq_dec z 0) as [->|Hz]; [rewrite close_quantity_zero; lia|].
    rewrite close_quantity_nz by auto. lia.
  Qed.
  Lemma set_closes_opened t c : opened_quantities (set_closes t (tr_closes t ++ [c])) = opened_quantities t - tc_qty c.
  Proof. rewrite !opened_booked. simpl. rewrite booked_app. unfold booked at 2. simpl. lia. Qed.

  Lemma close_spec t v d q ref t' c : close t v d q ref = Ok (t', c) ->
    (q = None \/ q = Some 0 -> tc_qty c = opened_quantities t) /\
    (forall z, q = Some z -> 0 < z -> tc_qty c = Z.min z (opened_quantities t)) /\
    opened_quantities t' = opened_quantities t - tc_qty c /\
    tr_closes t' = tr_closes t ++ [c] /\ tc_value c = v /\ d = DtAware (tc_dt c) /\
    tr_ov t' = tr_ov t /\ tr_dir t' = tr_dir t /\ tr_oq t' = tr_oq t /\ tr_epic t' = tr_epic t /\
    tr_strat t' = tr_strat t /\ tr_dt t' = tr_dt t.
  Proof.
    intros E. apply close_inv in E. destruct E as (-> & Hv & Hq & Hd & _).
    rewrite set_closes_opened. simpl. split_and!; auto.
    - rewrite Hq. intros [-> | ->]; [apply close_quantity_default|apply close_quantity_zero].
    - intros z -> Hz. rewrite Hq. apply close_quantity_nz. lia.
  Qed.

  Lemma close_from_tick_inv t tk q ref t' c : close_from_tick t tk q ref = Ok (t', c) ->
    let t1 := update_from_tick t tk in
    t' = set_closes t1 (tr_closes t1 ++ [c]) /\ tc_value c = tr_cv t1 /\ tc_qty c = close_quantity t1 q /\
    tc_dt c = tk_dt tk /\ tc_status c = CREATED /\ tc_ref c = ref.
  Proof.
    intros E. apply close_inv in E. destruct E as (-> & Hv & Hq & Hd & Hs & Hr). injection Hd as Hd.
    simpl. auto 10.
  Qed.
  Lemma close_quantity_same t t' q : same_but_prices t t' -> close_quantity t' q = close_quantity t q.
  Proof. intros Hs. unfold close_quantity. now rewrite (same_opened t t'). Qed.
  Lemma close_from_tick_ok t tk q ref : exists t' c, close_from_tick t tk q ref = Ok (t', c).
  Proof. unfold close_from_tick, close. simpl. eauto. Qed.

  (** *** C03: quantity invariant *)
  Definition closes_ok (oq : Z) (l : list (tclose F)) : Prop :=
    forall i c, l !! i = Some c -> 0 <= tc_qty c <= oq - booked (take i l).
  Definition qty_inv (oq : Z) t : Prop :=
    tr_oq t = oq /\ 0 <= booked (tr_closes t) <= oq /\ closes_ok oq (tr_closes t).

  Lemma closes_ok_app oq l c : closes_ok oq l -> 0 <= tc_qty c <= oq - booked l -> closes_ok oq (l ++ [c]).
  Proof.
    intros Hl Hc i c' Hi. destruct (decide (i < length l)%nat) as [Hlt|Hge].
    - rewrite lookup_app_l in Hi by auto. rewrite take_app_le by lia. now apply Hl.
    - rewrite lookup_app_r in Hi by lia. assert (i = length l) as ->.
      { apply lookup_lt_Some in Hi. simpl in Hi. lia. }
      rewrite Nat.sub_diag in Hi. injection Hi as <-. rewrite take_app_le by lia. rewrite firstn_all. auto.
  Qed.
  Lemma closes_ok_alter oq l i s : closes_ok oq l -> closes_ok oq (alter (fun c => set_cstatus c s) i l).
  Proof.
    intros Hl j c Hj.
    assert (forall n, booked (take n (alter (fun c => set_cstatus c s) i l)) = booked (take n l)) as Hb.
    { intros n. clear. unfold booked. f_equal. revert i n. induction l as [|x l IH]; intros [|i] [|n]; simpl; auto.
      f_equal. apply IH. }
    rewrite Hb. destruct (decide (i = j)) as [->|Hne].
    - rewrite list_lookup_alter in Hj. apply fmap_Some in Hj. destruct Hj as (c' & Hc' & ->). simpl. now apply Hl.
    - rewrite list_lookup_alter_ne in Hj by auto. now apply Hl.
  Qed.

  Lemma qty_inv_same oq t t' : same_but_prices t t' -> qty_inv oq t -> qty_inv oq t'.
  Proof. unfold qty_inv. intros (_ & _ & _ & -> & -> & _). auto. Qed.
  Lemma qty_inv_close oq t q c : qty_ok q -> qty_inv oq t -> tc_qty c = close_quantity t q ->
    qty_inv oq (set_closes t (tr_closes t ++ [c])).
  Proof.
    intros Hq (H1 & H2 & H3) Hc.
    pose proof (close_quantity_bounds t q Hq) as Hb. rewrite <- Hc in Hb.
    rewrite opened_booked in Hb. specialize (Hb ltac:(lia)).
    split_and!; simpl; auto.
    - rewrite booked_app. unfold booked at 2. simpl. lia.
    - rewrite booked_app. unfold booked at 2. simpl. lia.
    - apply closes_ok_app; auto. lia.
  Qed.
  Lemma qty_inv_call oq t t' : trade_call t t' -> qty_inv oq t ->
    qty_inv oq t' /\ opened_quantities t' <= opened_quantities t.
  Proof.
    intros [t0 v|t0 tk|t0 v d q ref t1 c Hq E|t0 tk q ref t1 c Hq E|t0 s|t0 i s] Hi.
    - split; [eapply qty_inv_same; eauto using update_same|]. rewrite (same_opened t0); auto using update_same. lia.
    - split; [eapply qty_inv_same; eauto using update_from_tick_same|].
      rewrite (same_opened t0); auto using update_from_tick_same. lia.
    - apply close_inv in E. destruct E as (-> & _ & Hc & _).
      split; [eapply qty_inv_close; eauto|]. rewrite set_closes_opened, Hc.
      destruct Hi as (H1 & H2 & _). pose proof (close_quantity_bounds t0 q Hq) as Hb.
      rewrite opened_booked in *. specialize (Hb ltac:(lia)). lia.
    - apply close_from_tick_inv in E. simpl in E. destruct E as (-> & _ & Hc & _).
      pose proof (update_from_tick_same t0 tk) as Hs.
      set (t2 := update_from_tick t0 tk) in *.
      assert (qty_inv oq t2) as Hi2 by (eapply qty_inv_same; eauto).
      split; [eapply qty_inv_close; eauto|]. rewrite set_closes_opened, Hc, (same_opened t0 t2); auto.
      destruct Hi2 as (H1 & H2 & _). pose proof (close_quantity_bounds t2 q Hq) as Hb.
      rewrite opened_booked in Hb. specialize (Hb ltac:(lia)). lia.
    - split; [exact Hi|reflexivity].
    - split.
      + destruct Hi as (H1 & H2 & H3). split_and!; simpl; auto; rewrite ?booked_alter_status; try lia.
        now apply closes_ok_alter.
      + rewrite !opened_booked. simpl. rewrite booked_alter_status. lia.
  Qed.
  Lemma qty_inv_created q t : 0 <= q -> created q t -> qty_inv q t.
  Proof. intros Hq []. split_and!; simpl; auto; unfold booked; simpl; try lia. intros i c Hi. rewrite lookup_nil in Hi. discriminate. Qed.

  Lemma quantity_accounting q t t' : 0 <= q -> created q t -> rtc trade_call t t' ->
    tr_oq t' = q /\
    opened_quantities t' + closed_quantities t' = q /\
    0 <= opened_quantities t' <= q /\
    (forall i c, tr_closes t' !! i = Some c -> 0 <= tc_qty c <= q - booked (take i (tr_closes t'))) /\
    (forall t'', trade_call t' t'' -> opened_quantities t'' <= opened_quantities t').
  Proof.
    intros Hq Hc Hr.
    assert (qty_inv q t') as Hi.
    { apply qty_inv_created in Hc; auto. induction Hr as [|x y z Hxy Hyz IH]; auto.
      apply IH. eapply qty_inv_call; eauto. }
    pose proof Hi as (H1 & H2 & H3).
    rewrite opened_booked, closed_quantities_booked. split_and!; auto; try lia.
    intros t'' Hcall. eapply qty_inv_call in Hcall; eauto. rewrite <- opened_booked. apply Hcall.
  Qed.

  (** *** C04/C06: closed trades *)
  Lemma closed_call t t' : trade_call t t' -> closed t = true ->
    closed t' = true /\ tr_cv t' = tr_cv t /\ tr_max t' = tr_max t /\ tr_min t' = tr_min t /\
    tr_ov t' = tr_ov t /\ tr_dir t' = tr_dir t /\
    exists k, (tr_closes t' = tr_closes t ++ k \/ (k = [] /\ map tc_value (tr_closes t') = map tc_value (tr_closes t) /\
       map tc_qty (tr_closes t') = map tc_qty (tr_closes t))) /\ Forall (fun c => tc_qty c = 0) k.
  Proof.
    intros [t0 v|t0 tk|t0 v d q ref t1 c Hq E|t0 tk q ref t1 c Hq E|t0 s|t0 i s] Hc.
    - rewrite update_closed by auto. split_and!; auto. exists []. rewrite app_nil_r. auto.
    - rewrite update_from_tick_closed by auto. split_and!; auto. exists []. rewrite app_nil_r. auto.
    - apply close_inv in E. destruct E as (-> & _ & Hqty & _).
      rewrite close_quantity_closed in Hqty by auto.
      split_and!; auto.
      + apply closed_spec. rewrite set_closes_opened. apply closed_spec in Hc. lia.
      + exists [c]. simpl. auto.
    - apply close_from_tick_inv in E. simpl in E. rewrite update_from_tick_closed in E by auto.
      destruct E as (-> & _ & Hqty & _).
      rewrite close_quantity_closed in Hqty by auto.
      split_and!; auto.
      + apply closed_spec. rewrite set_closes_opened. apply closed_spec in Hc. lia.
      + exists [c]. simpl. auto.
    - split_and!; auto. exists []. simpl. rewrite app_nil_r. auto.
    - split_and!; auto.
      + apply closed_spec. apply closed_spec in Hc. rewrite opened_booked in *. simpl. rewrite booked_alter_status. auto.
      + exists []. split; auto. right. split; auto. simpl. generalize (tr_closes t0). intros l. clear.
        split; revert i; induction l as [|x l IH]; intros [|i]; simpl; auto; f_equal; apply IH.
  Qed.

  Lemma closed_frozen t t' : closed t = true -> rtc trade_call t t' ->
    closed t' = true /\ tr_cv t' = tr_cv t /\ tr_max t' = tr_max t /\ tr_min t' = tr_min t.
  Proof.
    intros Hc Hr. induction Hr as [|x y z Hxy Hyz IH]; auto.
    destruct (closed_call _ _ Hxy Hc) as (H1 & H2 & H3 & H4 & _).
    destruct (IH H1) as (A & B & C & D). split_and!; congruence.
  Qed.
  Lemma closed_later_zero t t' : closed t = true -> rtc trade_call t t' ->
    closed t' = true /\ opened_quantities t' = 0 /\
    Forall (fun c => tc_qty c = 0) (drop (length (tr_closes t)) (tr_closes t')).
  Proof.
    intros Hc Hr. enough (closed t' = true /\ (length (tr_closes t) <= length (tr_closes t'))%nat /\
      Forall (fun c => tc_qty c = 0) (drop (length (tr_closes t)) (tr_closes t'))) as (A & B & C).
    { split_and!; auto. now apply closed_spec. }
    revert Hc. apply rtc_ind_r with (P := fun t' => closed t = true -> closed t' = true /\ (length (tr_closes t) <= length (tr_closes t'))%nat /\
      Forall (fun c => tc_qty c = 0) (drop (length (tr_closes t)) (tr_closes t'))) (3 := Hr); clear t' Hr.
    - intros Hc. split_and!; auto. rewrite drop_all. constructor.
    - intros y z _ Hyz IH Hc. destruct (IH Hc) as (A & L & B).
      destruct (closed_call _ _ Hyz A) as (H1 & _ & _ & _ & _ & _ & k & Hk & Hz).
      destruct Hk as [Hk|(-> & _ & Hk)].
      + split_and!; auto.
        * rewrite Hk, app_length. lia.
        * rewrite Hk, drop_app_le by auto. apply Forall_app. auto.
      + assert (length (tr_closes z) = length (tr_closes y)) as Hlen.
        { rewrite <- (map_length tc_qty), Hk, map_length. reflexivity. }
        split_and!; auto; [lia|].
        apply (Forall_map tc_qty (fun x => x = 0)).
        apply (Forall_map tc_qty (fun x => x = 0)) in B.
        change (map tc_qty) with (fmap tc_qty : list (tclose F) -> list Z) in *.
        rewrite fmap_drop in *. now rewrite Hk.
  Qed.
End gen.

Open Scope Q_scope.

(** ** Exact arithmetic *)
Lemma Qround2_round_cent x : round_cent x (Qround2 x).
Proof.
  exists (Qround_half_even (x * 100)).
  pose proof (Qround2_eq x) as H. rewrite Qdiv100 in H.
  pose proof (Qrhe_bounds (x * 100)) as Hb. pose proof (Qrhe_tie (x * 100)) as Ht.
  set (z := Qround_half_even (x * 100)) in *.
  pose proof (Qz100 z). split_and!.
  - lra.
  - apply Qabs_Qle_condition. lra.
  - intros E. apply Ht. revert E. apply Qabs_case; intros ? ?; [right|left]; lra.
Qed.

(** Per-unit result of a price. *)
Definition unit_res (d : dir) (ov v : Q) : Q := Qround2 (sgn d * (v - ov)).
Global Instance unit_res_proper : Proper (eq ==> Qeq ==> Qeq ==> Qeq) unit_res.
Proof. intros ? d -> a b H c e H'. unfold unit_res. rewrite H, H'. reflexivity. Qed.

Lemma q_close_result_avg (t : trade Q) c : close_result_avg t c == unit_res (tr_dir t) (tr_ov t) (tc_value c).
Proof.
  unfold close_result_avg, unit_res. destruct (tr_dir t); rewrite qr2; apply Qround2_proper; rewrite qsub; simpl; lra.
Qed.
Lemma cents_unit_res d ov v : cents (unit_res d ov v).
Proof. apply Qround2_cents. Qed.
Lemma q_close_result (t : trade Q) c :
  close_result t c == unit_res (tr_dir t) (tr_ov t) (tc_value c) * inject_Z (tc_qty c).
Proof.
  unfold close_result. rewrite qr2, qmul, q_close_result_avg, qofZ.
  apply Qround2_fix, cents_mulZ, cents_unit_res.
Qed.
Lemma q_closed_result (t : trade Q) : closed_result t == pnl (unit_res (tr_dir t) (tr_ov t)) (tr_closes t).
Proof.
  unfold closed_result. rewrite qsum. induction (tr_closes t) as [|c l IH]; cbn [map Qsum pnl]; [lra|].
  rewrite IH, q_close_result. lra.
Qed.
Lemma q_opened_result (t : trade Q) :
  opened_result t == unit_res (tr_dir t) (tr_ov t) (tr_cv t) * inject_Z (opened_quantities t).
Proof.
  unfold opened_result, opened_result_avg. rewrite qmul, !qofZ. destruct (closed t) eqn:E.
  - apply closed_spec in E. rewrite E. change (inject_Z 0) with 0. lra.
  - apply Qmult_comp; [|reflexivity]. unfold unit_res. rewrite qr2. apply Qround2_proper.
    destruct (tr_dir t); rewrite qsub; simpl; lra.
Qed.
Lemma q_result (t : trade Q) : let u := unit_res (tr_dir t) (tr_ov t) in
  result t == pnl u (tr_closes t) + u (tr_cv t) * inject_Z (opened_quantities t).
Proof. cbv zeta. unfold result. rewrite qadd, q_opened_result, q_closed_result. lra. Qed.

Lemma pnl_app u l k : pnl u (l ++ k) == pnl u l + pnl u k.
Proof. induction l as [|c l IH]; simpl; [lra|rewrite IH; lra]. Qed.
Lemma pnl_ext u u' l : (forall c, c ∈ l -> u (tc_value c) == u' (tc_value c)) -> pnl u l == pnl u' l.
Proof.
  induction l as [|c l IH]; simpl; intros H; [lra|].
  rewrite IH, (H c); [lra|constructor|]. intros; apply H; now constructor.
Qed.
Lemma pnl_scal a u l : pnl (fun v => a * u v) l == a * pnl u l.
Proof. induction l as [|c l IH]; simpl; [lra|rewrite IH; lra]. Qed.

Lemma pnl_rounded (t : trade Q) : exists u : Q -> Q,
  (forall v, round_cent (sgn (tr_dir t) * (v - tr_ov t)) (u v)) /\
  result t == pnl u (tr_closes t) + u (tr_cv t) * inject_Z (opened_quantities t).
Proof.
  exists (unit_res (tr_dir t) (tr_ov t)). split; [intros; apply Qround2_round_cent|apply q_result].
Qed.

Lemma unit_res_exact d ov v : cents ov -> cents v -> unit_res d ov v == sgn d * (v - ov).
Proof.
  intros Ho Hv. apply Qround2_fix. destruct d; simpl.
  - setoid_replace (1 * (v - ov)) with (v - ov) by lra. now apply cents_sub.
  - setoid_replace (-1 * (v - ov)) with (ov - v) by lra. now apply cents_sub.
Qed.

Lemma pnl_exact (t : trade Q) : cents (tr_ov t) -> cents (tr_cv t) ->
  (forall c, c ∈ tr_closes t -> cents (tc_value c)) ->
  result t == sgn (tr_dir t) * (pnl (fun v => v - tr_ov t) (tr_closes t)
                                + (tr_cv t - tr_ov t) * inject_Z (opened_quantities t)).
Proof.
  intros Ho Hc Hl. rewrite q_result. cbv zeta.
  rewrite (pnl_ext _ (fun v => sgn (tr_dir t) * (v - tr_ov t))).
  2:{ intros c Hin. apply unit_res_exact; auto. }
  rewrite pnl_scal, unit_res_exact by auto. lra.
Qed.

(** *** C06 *)
Lemma pnl_map u l k : map tc_value l = map tc_value k -> map tc_qty l = map tc_qty k -> pnl u l == pnl u k.
Proof.
  revert k. induction l as [|c l IH]; intros [|c' k] H1 H2; try discriminate; [simpl; lra|].
  injection H1 as E1 H1. injection H2 as E2 H2. simpl. rewrite (IH k), E1, E2 by auto. lra.
Qed.
Lemma pnl_zero u l : Forall (fun c => tc_qty c = 0%Z) l -> pnl u l == 0.
Proof. induction 1 as [|c l Hc Hl IH]; simpl; [lra|]. rewrite IH, Hc. change (inject_Z 0) with 0. lra. Qed.
Lemma closed_call_result (t t' : trade Q) : trade_call t t' -> closed t = true -> result t' == result t.
Proof.
  intros Hcall Hc. destruct (closed_call _ _ Hcall Hc) as (H1 & H2 & H3 & H4 & H5 & H6 & k & Hk & Hz).
  rewrite !q_result. cbv zeta. apply closed_spec in Hc, H1. rewrite Hc, H1, H5, H6.
  change (inject_Z 0) with 0.
  assert (pnl (unit_res (tr_dir t) (tr_ov t)) (tr_closes t') == pnl (unit_res (tr_dir t) (tr_ov t)) (tr_closes t)) as E.
  { destruct Hk as [->|(-> & Ev & Eq)].
    - rewrite pnl_app, (pnl_zero _ k); auto. lra.
    - now apply pnl_map. }
  rewrite E. lra.
Qed.
Lemma closed_result_frozen (t t' : trade Q) : closed t = true -> rtc trade_call t t' -> result t' == result t.
Proof.
  intros Hc Hr. induction Hr as [|x y z Hxy Hyz IH]; [reflexivity|].
  rewrite IH by (eapply closed_call; eauto). now apply closed_call_result.
Qed.

(** *** C09 *)
Lemma set_closes_result (t : trade Q) c : tc_value c = tr_cv t -> result (set_closes t (tr_closes t ++ [c])) == result t.
Proof.
  intros Hv. rewrite !q_result. cbv zeta. rewrite set_closes_opened. simpl. rewrite pnl_app. cbn [pnl]. rewrite Hv.
  unfold Z.sub. rewrite inject_Z_plus, inject_Z_opp. lra.
Qed.
Lemma close_tick_result (t : trade Q) tk q ref t' c : close_from_tick t tk q ref = Ok (t', c) ->
  result t' == result (update_from_tick t tk).
Proof.
  intros E. apply close_from_tick_inv in E. simpl in E. destruct E as (-> & Hv & _).
  now apply set_closes_result.
Qed.
Definition close_side {F} (d : dir) (tk : tick F) : F := match d with BUY => tk_bid tk | SELL => tk_ask tk end.
Lemma close_tick_books (t : trade Q) tk q ref t' c : closed t = false -> close_from_tick t tk q ref = Ok (t', c) ->
  tr_closes t' = tr_closes t ++ [c] /\ tc_value c = (match tr_dir t with BUY => tk_bid tk | SELL => tk_ask tk end) /\
  tc_dt c = tk_dt tk /\ result t' == result (update_from_tick t tk).
Proof.
  intros Hc E. pose proof (close_tick_result _ _ _ _ _ _ E) as Hr.
  apply close_from_tick_inv in E. simpl in E. destruct E as (-> & Hv & Hq & Hd & _).
  pose proof (update_from_tick_same t tk) as (_ & _ & _ & _ & Hcl & _).
  split_and!; auto.
  - simpl. now rewrite Hcl.
  - rewrite Hv. unfold update_from_tick. now apply update_cv.
Qed.

(** *** C07 *)
Lemma update_min_max_env (t : trade Q) :
  tr_max (update_min_max t) == (if Qlt_le_dec (tr_max t) (result t) then result t else tr_max t) /\
  tr_min (update_min_max t) == (if Qlt_le_dec (result t) (tr_min t) then result t else tr_min t) /\
  result (update_min_max t) = result t.
Proof.
  assert (forall (t0 : trade Q) a b, result (set_maxmin t0 a b) = result t0) as Hr by reflexivity.
  unfold update_min_max.
  destruct (fltb (tr_max t) (result t)) eqn:E1; cbv zeta; rewrite ?Hr;
    cbn [tr_min tr_max set_maxmin]; destruct (fltb (result t) (tr_min t)) eqn:E2; rewrite ?Hr;
    cbn [tr_min tr_max set_maxmin];
    (first [apply qltb in E1 | apply qltb_false in E1]); (first [apply qltb in E2 | apply qltb_false in E2]);
    destruct (Qlt_le_dec (tr_max t) (result t)); destruct (Qlt_le_dec (result t) (tr_min t));
    split_and!; try reflexivity; lra.
Qed.


Definition env_inv (t : trade Q) (l : list Q) : Prop :=
  is_max (tr_max t) l /\ is_min (tr_min t) l /\ exists x l', l = x :: l' /\ result t == x.

Lemma env_update (t : trade Q) l v : env_inv t l -> env_inv (update t v) (result (update t v) :: l).
Proof.
  intros ((Hmx & x1 & Hx1 & Ex1) & (Hmn & x2 & Hx2 & Ex2) & x & l' & -> & Hres). unfold update.
  destruct (closed t) eqn:Hc.
  - split_and!.
    + split; [|exists x1; split; [now constructor|auto]]. intros y Hy. apply elem_of_cons in Hy as [->|Hy]; auto.
      rewrite Hres. apply Hmx. constructor.
    + split; [|exists x2; split; [now constructor|auto]]. intros y Hy. apply elem_of_cons in Hy as [->|Hy]; auto.
      rewrite Hres. apply Hmn. constructor.
    + eexists _, _. split; [reflexivity|reflexivity].
  - set (t1 := set_cv t v) in *. destruct (update_min_max_env t1) as (Emx & Emn & Er).
    change (tr_max t1) with (tr_max t) in *. change (tr_min t1) with (tr_min t) in *.
    rewrite Er. split_and!.
    + split.
      * intros y Hy. rewrite Emx. apply elem_of_cons in Hy as [->|Hy].
        -- destruct (Qlt_le_dec (tr_max t) (result t1)); lra.
        -- apply Hmx in Hy. destruct (Qlt_le_dec (tr_max t) (result t1)); lra.
      * destruct (Qlt_le_dec (tr_max t) (result t1)).
        -- exists (result t1). split; [constructor|auto].
        -- exists x1. split; [now constructor|]. rewrite Emx. auto.
    + split.
      * intros y Hy. rewrite Emn. apply elem_of_cons in Hy as [->|Hy].
        -- destruct (Qlt_le_dec (result t1) (tr_min t)); lra.
        -- apply Hmn in Hy. destruct (Qlt_le_dec (result t1) (tr_min t)); lra.
      * destruct (Qlt_le_dec (result t1) (tr_min t)).
        -- exists (result t1). split; [constructor|auto].
        -- exists x2. split; [now constructor|]. rewrite Emn. auto.
    + eexists _, _. split; [reflexivity|]. rewrite Er. reflexivity.
Qed.

Lemma alter_status_result (t : trade Q) i s :
  result (set_closes t (alter (fun c => set_cstatus c s) i (tr_closes t))) == result t.
Proof.
  rewrite !q_result. cbv zeta. rewrite !opened_booked. simpl. rewrite booked_alter_status.
  assert (pnl (unit_res (tr_dir t) (tr_ov t)) (alter (fun c => set_cstatus c s) i (tr_closes t)) ==
          pnl (unit_res (tr_dir t) (tr_ov t)) (tr_closes t)) as ->; [|reflexivity].
  generalize (tr_closes t). intros l. apply pnl_map; revert i; induction l as [|x l IH]; intros [|i]; simpl; auto; f_equal; apply IH.
Qed.

Lemma observed_env (t : trade Q) l : observed t l -> env_inv t l.
Proof.
  induction 1 as [q t Hc|t l v Ho IH|t l tk Ho IH|t l tk q ref t' c Ho IH E|t l s Ho IH|t l i s Ho IH].
  - destruct Hc. set (t := trade_init _ _ _ _ _ _ _ _).
    assert (tr_max t = result t /\ tr_min t = result t) as [Hx Hn] by (split; reflexivity).
    split_and!; [split|split|]; rewrite ?Hx, ?Hn.
    + intros x Hx'. apply elem_of_list_singleton in Hx' as ->. lra.
    + exists (result t). split; [constructor|reflexivity].
    + intros x Hx'. apply elem_of_list_singleton in Hx' as ->. lra.
    + exists (result t). split; [constructor|reflexivity].
    + eexists _, _. split; [reflexivity|reflexivity].
  - now apply env_update.
  - now apply env_update.
  - pose proof (close_tick_result _ _ _ _ _ _ E) as Hr.
    assert (env_inv (update_from_tick t tk) (result (update_from_tick t tk) :: l)) as (H1 & H2 & H3) by now apply env_update.
    apply close_from_tick_inv in E. simpl in E. destruct E as (-> & _).
    split_and!; auto. eexists _, _. split; [reflexivity|]. exact Hr.
  - exact IH.
  - destruct IH as (H1 & H2 & x & l' & -> & Hx). split_and!; auto. eexists _, _. split; [reflexivity|].
    rewrite alter_status_result. exact Hx.
Qed.

Lemma envelope (t : trade Q) l : observed t l ->
  is_max (tr_max t) l /\ is_min (tr_min t) l /\ tr_min t <= result t <= tr_max t.
Proof.
  intros Ho. apply observed_env in Ho. destruct Ho as (H1 & H2 & x & l' & -> & Hx). split_and!; auto.
  - rewrite Hx. apply H2. constructor.
  - rewrite Hx. apply H1. constructor.
Qed.

(** *** C08 *)
Lemma open_buy (tk : tick Q) e q s ref t : open_from_tick tk e (Dir BUY) q s ref = Ok t ->
  tr_ov t = tk_ask tk /\ tr_dt t = tk_dt tk /\ tr_oq t = q /\ tr_epic t = e /\ tr_strat t = s /\ tr_dir t = BUY /\
  tr_closes t = [] /\
  (~ tk_bid tk == 0 -> tr_cv t = tk_bid tk /\ result t == - (tk_spread tk) * inject_Z q).
Proof.
  intros [= <-]. split_and!; auto. intros Hz. apply qtruthy in Hz. unfold trade_init. cbv zeta. simpl tr_cv. rewrite Hz.
  split; auto. rewrite q_result. cbv zeta. rewrite opened_booked. cbn [tr_dir tr_ov tr_cv tr_oq tr_closes set_maxmin pnl]. rewrite q_spread.
  unfold unit_res, booked. simpl sgn. simpl total. rewrite Z.sub_0_r.
  assert (Qround2 (1 * (tk_bid tk - tk_ask tk)) == - Qround2 (tk_ask tk - tk_bid tk)) as ->.
  { rewrite <- Qround2_opp. apply Qround2_proper. lra. }
  lra.
Qed.
Lemma open_sell (tk : tick Q) e q s ref t : open_from_tick tk e (Dir SELL) q s ref = Ok t ->
  tr_ov t = tk_bid tk /\ tr_dt t = tk_dt tk /\ tr_oq t = q /\ tr_epic t = e /\ tr_strat t = s /\ tr_dir t = SELL /\
  tr_closes t = [] /\
  (~ tk_ask tk == 0 -> tr_cv t = tk_ask tk /\ result t == - (tk_spread tk) * inject_Z q).
Proof.
  intros [= <-]. split_and!; auto. intros Hz. apply qtruthy in Hz. unfold trade_init. cbv zeta. simpl tr_cv. rewrite Hz.
  split; auto. rewrite q_result. cbv zeta. rewrite opened_booked. cbn [tr_dir tr_ov tr_cv tr_oq tr_closes set_maxmin pnl]. rewrite q_spread.
  unfold unit_res, booked. simpl sgn. simpl total. rewrite Z.sub_0_r.
  assert (Qround2 (-1 * (tk_ask tk - tk_bid tk)) == - Qround2 (tk_ask tk - tk_bid tk)) as ->.
  { rewrite <- Qround2_opp. apply Qround2_proper. lra. }
  lra.
Qed.

(** *** C10 *)
Lemma inject_Z_nz z : z <> 0%Z -> ~ inject_Z z == 0.
Proof. intros H E. change 0 with (inject_Z 0) in E. apply inject_Z_eq in E. auto. Qed.
Lemma q_divr x z : z <> 0%Z -> exists v, fdivr x (@fofZ Q NumQ z) = Ok v /\ v == x / inject_Z z.
Proof.
  intros Hz. unfold fdivr. rewrite (proj2 (qeqb_false (fofZ z) f0)).
  - eexists. split; [reflexivity|]. apply qdiv.
  - rewrite qofZ, qf0. now apply inject_Z_nz.
Qed.

(** First close on an open trade books something. *)
Definition pos_inv (t : trade Q) : Prop := tr_closes t <> [] -> (0 < booked (tr_closes t))%Z.
Lemma pos_inv_call (t t' : trade Q) oq : (0 < oq)%Z -> trade_call t t' -> qty_inv oq t -> pos_inv t -> pos_inv t'.
Proof.
  intros Hoq Hcall (Hi1 & Hi2 & Hi3) Hp. unfold pos_inv in *.
  assert (forall (t0 : trade Q) q c, tr_oq t0 = oq -> (0 <= booked (tr_closes t0) <= oq)%Z -> (tr_closes t0 <> [] -> 0 < booked (tr_closes t0))%Z ->
    qty_ok q -> tc_qty c = close_quantity t0 q -> (0 < booked (tr_closes t0 ++ [c]))%Z) as Hgen.
  { intros t0 q c E1 E2 E3 Hq Hc. rewrite booked_app. unfold booked at 2. simpl.
    pose proof (close_quantity_bounds t0 q Hq) as Hb. rewrite opened_booked in Hb.
    destruct (Z.eq_dec (booked (tr_closes t0)) 0%Z) as [Hz|Hz].
    - pose proof (close_quantity_pos t0 q Hq) as Hp'. rewrite opened_booked in Hp'. specialize (Hp' ltac:(lia)). lia.
    - specialize (Hb ltac:(lia)). lia. }
  destruct Hcall as [t0 v|t0 tk|t0 v d q ref t1 c Hq E|t0 tk q ref t1 c Hq E|t0 s|t0 i s].
  - destruct (update_same t0 v) as (_ & _ & _ & _ & -> & _). auto.
  - destruct (update_from_tick_same t0 tk) as (_ & _ & _ & _ & -> & _). auto.
  - apply close_inv in E. destruct E as (-> & _ & Hc & _). simpl. intros _. eapply Hgen; eauto.
  - apply close_from_tick_inv in E. simpl in E. destruct E as (-> & _ & Hc & _). simpl. intros _.
    pose proof (update_from_tick_same t0 tk) as Hs.
    destruct Hs as (S1 & S2 & S3 & S4 & S5 & S6).
    eapply Hgen; eauto; rewrite ?S4, ?S5; auto.
  - auto.
  - simpl. rewrite booked_alter_status. intros Hne. apply Hp. intros E0. apply Hne. rewrite E0. destruct i; reflexivity.
Qed.

Lemma pnl_bounds u (l : list (tclose Q)) : (forall c, c ∈ l -> (0 <= tc_qty c)%Z) -> l <> [] ->
  exists c1 c2, c1 ∈ l /\ c2 ∈ l /\ u (tc_value c1) * inject_Z (booked l) <= pnl u l <= u (tc_value c2) * inject_Z (booked l).
Proof.
  intros Hnn Hne. induction l as [|c l IH]; [congruence|]. clear Hne.
  assert (Hc : (0 <= tc_qty c)%Z) by (apply Hnn; constructor).
  apply inject_Z_le in Hc. change (inject_Z 0) with 0 in Hc.
  destruct l as [|c' l'].
  - exists c, c. split; [constructor|]. split; [constructor|]. unfold booked. simpl. rewrite Z.add_0_r. lra.
  - destruct IH as (c1 & c2 & H1 & H2 & H3 & H4); [intros; apply Hnn; now constructor|congruence|].
    assert (0 <= inject_Z (booked (c' :: l'))) as Hb.
    { change 0 with (inject_Z 0). apply (proj1 (inject_Z_le 0 _)). clear -Hnn. unfold booked.
      assert (forall l : list (tclose Q), (forall c, c ∈ l -> (0 <= tc_qty c)%Z) -> (0 <= total (map tc_qty l))%Z) as Hg.
      { induction l as [|x l IH]; simpl; intros H; [lia|].
        specialize (IH ltac:(intros; apply H; now constructor)). pose proof (H x ltac:(constructor)). lia. }
      apply Hg. intros. apply Hnn. now constructor. }
    set (l := c' :: l') in *.
    assert (booked (c :: l) = tc_qty c + booked l)%Z as -> by reflexivity.
    cbn [pnl]. rewrite inject_Z_plus.
    set (B := inject_Z (booked l)) in *. set (q := inject_Z (tc_qty c)) in *. set (x := u (tc_value c)) in *.
    assert (exists c1', c1' ∈ c :: l /\ u (tc_value c1') <= x /\ u (tc_value c1') <= u (tc_value c1)) as (d1 & D1 & D2 & D3).
    { destruct (Qlt_le_dec x (u (tc_value c1))).
      - exists c. split; [constructor|]. fold x. lra.
      - exists c1. split; [now constructor|]. lra. }
    assert (exists c2', c2' ∈ c :: l /\ x <= u (tc_value c2') /\ u (tc_value c2) <= u (tc_value c2')) as (d2 & E1 & E2 & E3).
    { destruct (Qlt_le_dec x (u (tc_value c2))).
      - exists c2. split; [now constructor|]. lra.
      - exists c. split; [constructor|]. fold x. lra. }
    exists d1, d2. split_and!; auto.
    + assert (u (tc_value d1) * q <= x * q) by (apply Qmult_le_compat_r; auto).
      assert (u (tc_value d1) * B <= u (tc_value c1) * B) by (apply Qmult_le_compat_r; auto). lra.
    + assert (x * q <= u (tc_value d2) * q) by (apply Qmult_le_compat_r; auto).
      assert (u (tc_value c2) * B <= u (tc_value d2) * B) by (apply Qmult_le_compat_r; auto). lra.
Qed.

Lemma averages q (t t' : trade Q) : (0 < q)%Z -> created q t -> rtc trade_call t t' ->
  (exists v, result_avg t' = Ok v) /\
  (exists v, closed_result_avg t' = Ok v /\
     (tr_closes t' <> [] -> exists c1 c2, c1 ∈ tr_closes t' /\ c2 ∈ tr_closes t' /\
        close_result_avg t' c1 <= v <= close_result_avg t' c2)).
Proof.
  intros Hq Hc Hr.
  assert (qty_inv q t' /\ pos_inv t') as (Hi & Hp).
  { assert (qty_inv q t /\ pos_inv t) as Hi0.
    { split; [apply qty_inv_created; auto; lia|]. destruct Hc. intros Hne. simpl in Hne. congruence. }
    clear Hc. induction Hr as [|x y z Hxy Hyz IH]; auto. apply IH. destruct Hi0 as [Ha Hb]. split.
    - eapply qty_inv_call; eauto.
    - eapply pos_inv_call; eauto. }
  destruct Hi as (Hi1 & Hi2 & Hi3). split.
  - unfold result_avg. rewrite Hi1. destruct (q_divr (result t') q ltac:(lia)) as (v & -> & _). simpl. eauto.
  - unfold closed_result_avg. destruct (tr_closes t') as [|c l] eqn:El; [eexists; split; [reflexivity|congruence]|].
    rewrite <- El in *. assert (tr_closes t' <> []) as Hne by congruence.
    specialize (Hp Hne). rewrite closed_quantities_booked.
    destruct (q_divr (closed_result t') (booked (tr_closes t')) ltac:(lia)) as (v & -> & Hv).
    eexists. split; [reflexivity|]. intros _. rewrite qr2.
    destruct (pnl_bounds (unit_res (tr_dir t') (tr_ov t')) (tr_closes t')) as (c1 & c2 & H1 & H2 & H3 & H4).
    { intros c0 Hin. apply elem_of_list_lookup in Hin as [i Hin]. apply Hi3 in Hin. lia. }
    { auto. }
    exists c1, c2. split_and!; auto.
    + rewrite q_close_result_avg. apply Qround2_ge; [apply cents_unit_res|]. rewrite Hv.
      apply Qle_shift_div_l; [change 0 with (inject_Z 0); rewrite <- Zlt_Qlt; lia|]. rewrite q_closed_result. exact H3.
    + rewrite q_close_result_avg. apply Qround2_le; [apply cents_unit_res|]. rewrite Hv.
      apply Qle_shift_div_r; [change 0 with (inject_Z 0); rewrite <- Zlt_Qlt; lia|]. rewrite q_closed_result. exact H4.
Qed.
