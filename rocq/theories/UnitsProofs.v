(** The same program in other units (C69). *)
From Verif Require Export SpecUnits StrategyProofs SimProofs.
From Verif Require ProfitProofs.
From Coq Require Import QArith Qminmax Lqa.
Open Scope Z_scope.

Section units.
  Variable u : unit_change.
  Hypothesis Hu : units_ok u.
  Let P : Q := Qabs (u_price u).
  Let n : Z := u_size u.
  Lemma P_pos : (0 < P)%Q.
  Proof. destruct Hu as [H0 _]. unfold P. apply Qabs_case; intros H1; [|lra]. destruct (Qle_lt_or_eq _ _ H1) as [|E]; [auto|]. exfalso. apply H0. now rewrite <- E. Qed.
  Lemma n_pos : 0 < n. Proof. apply Hu. Qed.
  Lemma gain_pos : (0 < u_gain u)%Q.
  Proof. unfold u_gain. fold P n. assert (0 < inject_Z n)%Q by (change 0%Q with (inject_Z 0); rewrite <- Zlt_Qlt; apply n_pos). pose proof P_pos. now apply Qmult_lt_0_compat. Qed.
  Lemma price_sign : (if upside_down u then u_price u == - P else u_price u == P)%Q.
  Proof.
    unfold upside_down, P. destruct (Qle_bool 0 (u_price u)) eqn:E; simpl.
    - apply Qle_bool_iff in E. now rewrite Qabs_pos.
    - assert (u_price u <= 0)%Q by (apply Qnot_lt_le; intros H; apply Qlt_le_weak, Qle_bool_iff in H; congruence). rewrite Qabs_neg by auto. lra.
  Qed.
  Definition move (d : dir) (v o : Q) : Q := match d with BUY => fsub v o | SELL => fsub o v end.
  Lemma move_in d v o v' o' : price_in u v v' -> price_in u o o' -> (move (dir_in u d) v' o' == P * move d v o)%Q /\ (P == 1 \/ cents (move d v o) /\ cents (move (dir_in u d) v' o'))%Q.
  Proof.
    intros (E1 & C1 & _) (E2 & C2 & _). fold P in C1, C2. pose proof price_sign as Hs. unfold move, dir_in. split.
    - destruct (upside_down u), d; simpl other; cbv iota; rewrite !qsub, E1, E2, Hs; ring.
    - destruct C1 as [C1|[C1 C1']]; [auto|]. destruct C2 as [C2|[C2 C2']]; [auto|]. right. destruct (upside_down u), d; simpl other; cbv iota; rewrite !qsub; split; now apply cents_sub.
  Qed.
  Lemma round_in x x' : (x' == P * x)%Q -> (P == 1 \/ cents x /\ cents x')%Q -> (Qround2 x' == P * Qround2 x)%Q.
  Proof.
    intros E [E1|[C C']]; [|rewrite !Qround2_fix by auto; exact E]. assert (x' == x)%Q as E2 by (rewrite E, E1; ring). rewrite (Qround2_proper _ _ E2), E1. ring.
  Qed.
  Lemma avg_in d v o v' o' : price_in u v v' -> price_in u o o' -> (Qround2 (move (dir_in u d) v' o') == P * Qround2 (move d v o))%Q.
  Proof. intros H1 H2. destruct (move_in d v o v' o' H1 H2) as [E C]. now apply round_in. Qed.

  (** ** Trades *)
  Lemma closedq_in l l' a : Forall2 (close_in u) l l' -> fold_left Z.add (map tc_qty l') (n * a) = n * fold_left Z.add (map tc_qty l) a.
  Proof.
    intros Hl. revert a. induction Hl as [|c c' l l' (_ & Eq & _) Hl IH]; intros a; simpl; [auto|]. rewrite Eq. fold n. replace (n * a + n * tc_qty c) with (n * (a + tc_qty c)) by ring. apply IH.
  Qed.
  Lemma closed_quantities_in t t' : Forall2 (close_in u) (tr_closes t) (tr_closes t') -> closed_quantities t' = n * closed_quantities t.
  Proof. intros Hl. unfold closed_quantities. rewrite <- (closedq_in _ _ 0 Hl). now rewrite Z.mul_0_r. Qed.
  Lemma opened_in t t' : trade_in u t t' -> opened_quantities t' = n * opened_quantities t.
  Proof. intros []. unfold opened_quantities. rewrite (closed_quantities_in t t'), ti_oq by auto. fold n. ring. Qed.
  Lemma closed_in t t' : trade_in u t t' -> closed t' = closed t.
  Proof.
    intros R. unfold closed. rewrite (opened_in _ _ R). pose proof n_pos. destruct (Z.eqb_spec (opened_quantities t) 0) as [E|E]; [rewrite E, Z.mul_0_r; reflexivity|].
    apply Z.eqb_neq. intros E1. apply Z.mul_eq_0 in E1. lia.
  Qed.
  Lemma opened_result_in t t' : trade_in u t t' -> (opened_result t' == u_gain u * opened_result t)%Q.
  Proof.
    intros R. unfold opened_result, opened_result_avg. rewrite (closed_in _ _ R), (opened_in _ _ R), (ti_dir _ _ _ R), !qmul. change (@fofZ Q NumQ) with inject_Z. change (@round2 Q NumQ) with Qround2. unfold u_gain. fold P n.
    rewrite inject_Z_mult. destruct (closed t); [change (inject_Z 0) with 0%Q; ring|]. pose proof (avg_in (tr_dir t) _ _ _ _ (ti_cv _ _ _ R) (ti_ov _ _ _ R)) as E. unfold move in E. rewrite E. ring.
  Qed.
  Lemma close_result_in t t' c c' : trade_in u t t' -> close_in u c c' -> (close_result t' c' == u_gain u * close_result t c)%Q.
  Proof.
    intros R (Hv & Hq & _). unfold close_result. pose proof (avg_in (tr_dir t) _ _ _ _ Hv (ti_ov _ _ _ R)) as E.
    assert (forall t c, close_result_avg t c = Qround2 (move (tr_dir t) (tc_value c) (tr_ov t))) as Ea by (intros t0 c0; unfold close_result_avg; now destruct (tr_dir t0)).
    rewrite !Ea, (ti_dir _ _ _ R), Hq. change (@fofZ Q NumQ) with inject_Z. change (@round2 Q NumQ) with Qround2. assert (forall x q, Qround2 (fmul (Qround2 x) (inject_Z q)) == Qround2 x * inject_Z q)%Q as Ex.
    { intros x q. rewrite (Qround2_proper _ _ (qmul _ _)). apply Qround2_fix, cents_mulZ, Qround2_cents. }
    rewrite (Ex (move (dir_in u (tr_dir t)) _ _)), (Ex (move (tr_dir t) _ _)), E. fold n. rewrite inject_Z_mult. unfold u_gain. fold P n. ring.
  Qed.
  Lemma closed_result_in t t' : trade_in u t t' -> (closed_result t' == u_gain u * closed_result t)%Q.
  Proof.
    intros R. unfold closed_result, fsum. rewrite !qfold_add. change (@f0 Q NumQ) with 0%Q. pose proof (ti_closes _ _ _ R) as Hl.
    assert (forall l l', Forall2 (close_in u) l l' -> (Qsum (map (close_result t') l') == u_gain u * Qsum (map (close_result t) l))%Q) as Hs.
    { intros l l' Hf. induction Hf as [|c c' l l' Hc Hf IH]; cbn [map Qsum]; [ring|]. rewrite IH, (close_result_in t t' c c' R Hc). ring. }
    rewrite (Hs _ _ Hl). ring.
  Qed.
  Lemma result_in t t' : trade_in u t t' -> (result t' == u_gain u * result t)%Q.
  Proof. intros R. unfold result. rewrite !qadd, opened_result_in, closed_result_in by eauto. ring. Qed.
  Lemma fake_in : (u_offset u == 0)%Q -> tick_in u fake_tick fake_tick.
  Proof.
    intros E. assert (price_in u 0 0) as H0. { split; [rewrite E; ring|]. split; [right; split; exists 0%Z; reflexivity|auto]. }
    split; [auto|]. change (tk_bid fake_tick) with 0%Q. change (tk_ask fake_tick) with 0%Q. now destruct (upside_down u).
  Qed.

  Lemma trade_in_maxmin t t' a b a' b' : trade_in u t t' -> (a' == u_gain u * a)%Q -> (b' == u_gain u * b)%Q -> trade_in u (set_maxmin t a b) (set_maxmin t' a' b').
  Proof. intros [] Ha Hb. constructor; auto. Qed.
  Lemma init_in d q ov ov' cv cv' dt e st ref : price_in u ov ov' -> price_in u cv cv' ->
    trade_in u (trade_init d q ov dt e (Some cv) st ref) (trade_init (dir_in u d) (n * q) ov' dt e (Some cv') st ref).
  Proof.
    intros Ho Hc. unfold trade_init. cbv zeta. set (cur := if ftruthy cv then cv else ov). set (cur' := if ftruthy cv' then cv' else ov').
    assert (price_in u cur cur') as Hcur.
    { unfold cur, cur'. destruct Hc as (E & C & Z). assert (ftruthy cv' = ftruthy cv) as ->.
      { destruct Z as [Z|[Z1 Z2]]; [|now rewrite (proj2 (qtruthy cv) Z1), (proj2 (qtruthy cv') Z2)]. destruct (ftruthy cv) eqn:T.
        - apply qtruthy in T. apply qtruthy. rewrite E, Z. destruct Hu as [Hp _]. intros E0. apply T. assert (u_price u * cv == 0)%Q as E1 by lra. apply Qmult_integral in E1 as [E1|E1]; [easy|auto].
        - apply qtruthy_false in T. apply qtruthy_false. rewrite E, Z, T. ring. }
      destruct (ftruthy cv); [split; auto|auto]. }
    set (t := {| tr_cv := cur |}). set (t' := {| tr_cv := cur' |}).
    assert (trade_in u (set_maxmin t 0 0)%Q (set_maxmin t' 0 0)%Q) as R by (constructor; try reflexivity; try exact Hcur; try exact Ho; [constructor|simpl; ring|simpl; ring]).
    assert (result (set_maxmin t' 0 0) == u_gain u * result (set_maxmin t 0 0))%Q as Hr by now apply result_in.
    apply (trade_in_maxmin _ _ (result t) (result t) (result t') (result t')) in R; [exact R|exact Hr|exact Hr].
  Qed.
  Lemma open_in tk tk' d e q s ref t : tick_in u tk tk' -> open_from_tick tk e (Dir d) q s ref = Ok t ->
    exists t', open_from_tick tk' e (Dir (dir_in u d)) (n * q) s ref = Ok t' /\ trade_in u t t'.
  Proof.
    intros [Ed Hk] Ht. pose proof (fun ov ov' cv cv' => init_in d q ov ov' cv cv' (tk_dt tk) e s ref) as Hi. unfold dir_in in *.
    destruct (upside_down u), d; simpl in Ht; injection Ht as <-; cbn [open_from_tick other]; rewrite Ed; (eexists; split; [reflexivity|]); destruct Hk as [Hb Ha]; apply Hi; auto.
  Qed.
  Lemma fltb_in x y x' y' : (x' == u_gain u * x)%Q -> (y' == u_gain u * y)%Q -> fltb x' y' = fltb x y.
  Proof.
    intros E1 E2. pose proof gain_pos. destruct (fltb x y) eqn:E.
    - apply qltb in E. apply qltb. rewrite E1, E2. now apply Qmult_lt_l.
    - apply qltb_false in E. apply qltb_false. rewrite E1, E2. now apply Qmult_le_l.
  Qed.
  Lemma set_cv_in t t' v v' : trade_in u t t' -> price_in u v v' -> trade_in u (set_cv t v) (set_cv t' v').
  Proof. intros [] Hv. constructor; auto. Qed.
  Lemma update_in t t' v v' : trade_in u t t' -> price_in u v v' -> trade_in u (update t v) (update t' v').
  Proof.
    intros R Hv. unfold update. rewrite (closed_in _ _ R). destruct (closed t); [auto|]. apply (set_cv_in _ _ _ _ R) in Hv as R1.
    set (a := set_cv t v) in *. set (b := set_cv t' v') in *. unfold update_min_max. pose proof (result_in _ _ R1) as Hr.
    rewrite (fltb_in _ _ _ _ (ti_max _ _ _ R1) Hr). destruct (fltb (tr_max a) (result a)).
    - assert (trade_in u (set_maxmin a (result a) (tr_min a)) (set_maxmin b (result b) (tr_min b))) as R2 by (apply trade_in_maxmin; [auto|auto|apply ti_min; auto]).
      rewrite (fltb_in _ _ _ _ (result_in _ _ R2) (ti_min _ _ _ R2)). destruct (fltb _ _); [|auto]. apply trade_in_maxmin; [auto|apply (ti_max _ _ _ R2)|exact (result_in _ _ R2)].
    - rewrite (fltb_in _ _ _ _ Hr (ti_min _ _ _ R1)). destruct (fltb _ _); [|auto]. apply trade_in_maxmin; [auto|apply (ti_max _ _ _ R1)|auto].
  Qed.
  Lemma updk_in t t' tk tk' : trade_in u t t' -> tick_in u tk tk' -> trade_in u (update_from_tick t tk) (update_from_tick t' tk').
  Proof.
    intros R [_ Hk]. unfold update_from_tick. rewrite (ti_dir _ _ _ R). apply update_in; [auto|]. unfold dir_in. destruct (upside_down u), (tr_dir t); simpl; apply Hk.
  Qed.
  Lemma close_quantity_in t t' q : trade_in u t t' -> close_quantity t' (Z.mul n <$> q) = n * close_quantity t q.
  Proof.
    intros R. unfold close_quantity. rewrite (opened_in _ _ R). pose proof n_pos as Hn.
    assert (forall a, (if n * opened_quantities t <? n * a then n * opened_quantities t else n * a) = n * (if opened_quantities t <? a then opened_quantities t else a)) as Ha.
    { intros a. destruct (Z.ltb_spec (opened_quantities t) a), (Z.ltb_spec (n * opened_quantities t) (n * a)); auto; nia. }
    destruct q as [z|]; cbn [fmap option_fmap option_map]; [|apply Ha]. destruct (Z.eqb_spec z 0) as [->|Hz]; [rewrite Z.mul_0_r; apply Ha|].
    destruct (Z.eqb_spec (n * z) 0) as [E|_]; [apply Z.mul_eq_0 in E; lia|apply Ha].
  Qed.
  Lemma close_in_trade t t' v v' d q ref : trade_in u t t' -> price_in u v v' ->
    match close t v d q ref, close t' v' d (Z.mul n <$> q) ref with Ok (a, _), Ok (b, _) => trade_in u a b | Err x, Err y => x = y | _, _ => False end.
  Proof.
    intros R Hv. unfold close. destruct (timed_set d) as [dt|x]; [|reflexivity]. cbn [rbind]. pose proof (close_quantity_in t t' q R) as Eq. destruct R. constructor; simpl; auto.
    apply Forall2_app; [auto|]. constructor; [|constructor]. split; [exact Hv|]. split; [exact Eq|auto].
  Qed.
  Lemma closek_in_trade t t' tk tk' q ref : trade_in u t t' -> tick_in u tk tk' ->
    match close_from_tick t tk q ref, close_from_tick t' tk' (Z.mul n <$> q) ref with Ok (a, _), Ok (b, _) => trade_in u a b | Err x, Err y => x = y | _, _ => False end.
  Proof.
    intros R Hk. unfold close_from_tick. cbv zeta. rewrite (proj1 Hk). pose proof (updk_in _ _ _ _ R Hk) as R1. apply close_in_trade; [auto|apply (ti_cv _ _ _ R1)].
  Qed.
  Lemma cstatus_in t t' s c : trade_in u t t' ->
    trade_in u (set_closes t (alter (fun y => set_cstatus y s) c (tr_closes t))) (set_closes t' (alter (fun y => set_cstatus y s) c (tr_closes t'))).
  Proof. intros []. constructor; simpl; auto. apply F2_alter; [|auto]. intros x y (H1 & H2 & H3 & H4 & H5). repeat split; auto; apply H1. Qed.

  Definition units_sim : sim (F:=Q).
  Proof.
    refine {| Rv := price_in u; Rk := tick_in u; Rt := trade_in u; Sg := dir_in u; Sn := n; Sq := fun tk => (u_offset u == 0)%Q \/ tk <> fake_tick |}.
    - intros a b. unfold dir_in. now destruct (upside_down u), a, b.
    - apply n_pos.
    - intros a b [E _]. exact E.
    - intros a b z [E Hk]. split; [simpl; now rewrite E|exact Hk].
    - intros a b [_ Hk]. destruct (Qeq_dec (u_offset u) 0) as [|Hn]; [auto|]. right. intros ->. destruct (upside_down u); destruct Hk as [(_ & _ & [Z|[Z _]]) _]; try easy; now apply Z.
    - intros [E|E]; [now apply fake_in|easy].
    - intros t t' R. apply R.
    - intros t t' R. apply R.
    - intros t t' R. apply R.
    - intros t t' R. apply R.
    - apply opened_in.
    - intros t t' R. symmetry. eapply Forall2_length, ti_closes; eauto.
    - apply open_in.
    - apply update_in.
    - apply updk_in.
    - apply close_in_trade.
    - apply closek_in_trade.
    - intros t t' q []. constructor; auto.
    - intros t t' s []. constructor; auto.
    - apply cstatus_in.
  Defined.
End units.

Section run.
  Variables (u : unit_change) (Hu : units_ok u).
  Let S := units_sim u Hu.
  Lemma rel_converted w w' : rel S w w' -> converted u w w'.
  Proof.
    intros [R1 R2 R3 R4 R5 R6]. constructor; auto. eapply Forall2_impl; [exact R4|]. intros e e' []. constructor; auto.
  Qed.
  Lemma quoted_quoted w eid : quoted_in u w eid <-> quoted S w eid.
  Proof.
    unfold quoted_in, quoted. cbn [S units_sim Sq]. split.
    - intros [E|Hq] e He; [now left|right; now apply Hq].
    - intros Hq. destruct (Qeq_dec (u_offset u) 0) as [E|Hn]; [now left|right]. intros e He. now destruct (Hq e He).
  Qed.
  Lemma cmd_in_Rc c c' : cmd_in u c c' -> Rc S c c'.
  Proof. intros Hc. destruct Hc; constructor; auto. Qed.
  Lemma call_in_Rcq w c c' : call_in u w c c' -> Rcq S w c c'.
  Proof. intros [Hc Hq]. split; [now apply cmd_in_Rc|]. destruct c; auto. now apply quoted_quoted. Qed.
  Lemma programs_like pr pr' : programs_in u pr pr' -> like S pr pr'.
  Proof.
    intros Hp sid cb eid w w' R Q. apply (alongside_mono (converted u) _ (call_in u)); [apply rel_converted|apply call_in_Rcq|]. apply Hp; [now apply rel_converted|now apply quoted_quoted].
  Qed.
  Lemma run_rel pr pr' w w' l l' : programs_in u pr pr' -> ops_in u pr w l l' -> charts_fine pr w l -> charts_fine pr' w' l' -> rel S w w' -> rel S (run pr w l) (run pr' w' l').
  Proof.
    intros Hp Ho. revert w'. apply programs_like in Hp as Hl.
    induction Ho as [w|w o l l' Hc _ IH|w o l l' Hc _ IH|w e tk tk' l l' Ht _ IH|w c c' l l' Hc _ IH|w o l l' Hc _ IH]; intros w' Hf Hf' R; [exact R| | | | |].
    - destruct Hf as [_ Hf]. change (run pr w (o :: l)) with (run pr (fst (step pr w o)) l). apply IH; auto. now apply rel_chart_left.
    - destruct Hf' as [_ Hf']. change (run pr' w' (o :: l')) with (run pr' (fst (step pr' w' o)) l'). apply IH; auto. now apply rel_chart_right.
    - destruct Hf as [H1 Hf], Hf' as [H1' Hf']. change (run pr w (OTick e tk :: l)) with (run pr (fst (step pr w (OTick e tk))) l). change (run pr' w' (OTick e tk' :: l')) with (run pr' (fst (step pr' w' (OTick e tk'))) l').
      apply IH; auto. apply (rel_tick S pr pr' e tk tk' w w'); auto.
    - destruct Hf as [_ Hf], Hf' as [_ Hf']. change (run pr w (OCmd c :: l)) with (run pr (fst (step pr w (OCmd c))) l). change (run pr' w' (OCmd c' :: l')) with (run pr' (fst (step pr' w' (OCmd c'))) l').
      apply IH; auto. apply (rel_cmd S w w' c c'); auto. now apply call_in_Rcq.
    - destruct Hf as [_ Hf], Hf' as [_ Hf']. change (run pr w (o :: l)) with (run pr (fst (step pr w o)) l). change (run pr' w' (o :: l')) with (run pr' (fst (step pr' w' o)) l').
      apply IH; auto. now apply rel_same.
  Qed.
  Lemma run_converted pr pr' l l' : programs_in u pr pr' -> ops_in u pr empty_world l l' -> charts_fine pr empty_world l -> charts_fine pr' empty_world l' ->
    converted u (run pr empty_world l) (run pr' empty_world l').
  Proof. intros Hp Ho Hf Hf'. apply rel_converted. apply run_rel; auto. apply rel_empty. Qed.
End run.

(** ** What it means *)
Lemma trade_converted u t t' : units_ok u -> trade_in u t t' ->
  closed_quantities t' = u_size u * closed_quantities t /\ opened_quantities t' = u_size u * opened_quantities t /\ closed t' = closed t /\
  (result t' == u_gain u * result t)%Q /\ (opened_result t' == u_gain u * opened_result t)%Q /\ (closed_result t' == u_gain u * closed_result t)%Q.
Proof.
  intros Hu R. split; [now apply closed_quantities_in, R|]. split; [now apply opened_in|]. split; [now apply (closed_in u Hu)|]. split; [now apply result_in|].
  split; [now apply opened_result_in|now apply closed_result_in].
Qed.
Lemma results_converted u w w' ids : units_ok u -> converted u w w' -> Forall2 (fun r r' => r' == u_gain u * r)%Q (results_of w ids) (results_of w' ids).
Proof.
  intros Hu R. unfold results_of. induction ids as [|i ids IH]; [constructor|]. pose proof (F2_lookup _ _ _ i (co_trades _ _ _ R)) as Ht. cbn [omap list_omap].
  destruct (w_trades w !! i), (w_trades w' !! i); try easy. cbn [map]. constructor; [now apply result_in|exact IH].
Qed.
Lemma results_of_cents w ids : Forall cents (results_of w ids).
Proof. unfold results_of. induction (omap _ ids) as [|t l IH]; constructor; [apply ProfitProofs.result_cents|auto]. Qed.
Lemma Qsum_cents l : Forall cents l -> cents (Qsum l).
Proof. intros Hl. induction Hl as [|x l Hx Hl IH]; [now exists 0%Z|]. cbn [Qsum]. now apply cents_add. Qed.
Lemma Qsum_scaled g l l' : Forall2 (fun r r' => r' == g * r)%Q l l' -> (Qsum l' == g * Qsum l)%Q.
Proof. intros Hl. induction Hl as [|x y l l' E Hl IH]; cbn [Qsum]; [ring|]. rewrite E, IH. ring. Qed.
Lemma strategy_converted u w w' s a : units_ok u -> converted u w w' -> (strategy_result w' s a == u_gain u * strategy_result w s a)%Q.
Proof.
  intros Hu R. unfold strategy_result. change (@round2 Q NumQ) with Qround2.
  assert (forall w, Qround2 (fold_left fadd (results_of w (sel_trades s a)) f0) == Qsum (results_of w (sel_trades s a)))%Q as E.
  { intros w0. rewrite (Qround2_proper _ _ (qfold_add _ _)). change (@f0 Q NumQ) with 0%Q. rewrite Qround2_fix; [ring|]. apply cents_add; [now exists 0%Z|]. apply Qsum_cents, results_of_cents. }
  rewrite !E. now apply Qsum_scaled, results_converted.
Qed.
Lemma parts_scaled g l l' : (0 < g)%Q -> Forall2 (fun r r' => r' == g * r)%Q l l' -> (gains l' == g * gains l)%Q /\ (losses l' == g * losses l)%Q.
Proof.
  intros Hg Hl. induction Hl as [|x y l l' E Hl [IH1 IH2]]; [split; unfold gains, losses; cbn [map sum_of]; ring|].
  change (gains (y :: l')) with (Qmax y 0 + gains l')%Q. change (gains (x :: l)) with (Qmax x 0 + gains l)%Q.
  change (losses (y :: l')) with (Qmax (- y) 0 + losses l')%Q. change (losses (x :: l)) with (Qmax (- x) 0 + losses l)%Q. rewrite IH1, IH2.
  assert (forall a b, b == g * a -> Qmax b 0 == g * Qmax a 0)%Q as Hm.
  { intros a b Eb. destruct (Qlt_le_dec a 0) as [Ha|Ha].
    - rewrite (Q.max_r a 0) by lra. rewrite (Q.max_r b 0); [ring|]. rewrite Eb. setoid_replace 0%Q with (g * 0)%Q by ring. apply Qmult_le_l; lra.
    - rewrite (Q.max_l a 0) by lra. rewrite (Q.max_l b 0); [exact Eb|]. rewrite Eb. apply Qmult_le_0_compat; lra. }
  rewrite (Hm _ _ E). rewrite (Hm (- x) (- y))%Q by (rewrite E; ring). split; ring.
Qed.
Lemma pf_value (w : world Q) s a : let rs := results_of w (sel_trades s a) in exists v, profit_factor w s a = Ok v /\
  (losses rs == 0 -> v == gains rs)%Q /\ (0 < losses rs -> v == Qround2 (gains rs / Qmax 1 (losses rs)))%Q.
Proof.
  intros rs.
  unfold profit_factor. fold rs. pose proof (build_sums_spec rs) as Hb. destruct (build_sums rs) as [ps ns]. destruct Hb as [Hp Hn].
  pose proof (gains_nonneg rs) as Hg. pose proof (losses_nonneg rs) as Hlo. destruct (feqb ns f0) eqn:E0.
  - apply qeqb in E0. rewrite qf0 in E0. exists ps. split; [auto|]. split; [auto|]. intros. lra.
  - apply qeqb_false in E0. rewrite qf0 in E0. set (ns' := if fltb (fabs ns) (fofZ 1) then fofZ 1 else ns).
    assert (Qabs ns == losses rs)%Q as Ea by (rewrite Qabs_neg; lra).
    assert (~ ns' == 0 /\ (ps / ns' == gains rs / Qmax 1 (losses rs) \/ ps / ns' == - (gains rs / Qmax 1 (losses rs))))%Q as [Hz Hq].
    { unfold ns'. destruct (fltb (fabs ns) (fofZ 1)) eqn:E1.
      - apply qltb in E1. change (fabs ns) with (Qabs ns) in E1. change (fofZ 1) with 1%Q in *. rewrite Ea in E1. rewrite (Q.max_l 1) by lra. split; [lra|]. left. rewrite Hp. reflexivity.
      - apply qltb_false in E1. change (fabs ns) with (Qabs ns) in E1. change (fofZ 1) with 1%Q in E1. rewrite Ea in E1. rewrite (Q.max_r 1) by lra. split; [lra|]. right. rewrite Hp, Hn. field. lra. }
    unfold fdivr. assert (feqb ns' f0 = false) as -> by (apply qeqb_false; rewrite qf0; exact Hz). cbn [rbind].
    exists (fabs (round2 (fdiv ps ns'))). split; [auto|]. split; [intros; lra|]. intros Hl. change (@round2 Q NumQ) with Qround2. change (@fabs Q NumQ) with Qabs.
    assert (0 <= gains rs / Qmax 1 (losses rs))%Q as Hpos.
    { apply Qle_shift_div_l; [|lra]. pose proof (Q.le_max_l 1 (losses rs)). lra. }
    pose proof (Qround2_nonneg _ Hpos) as Hrp. rewrite (Qround2_proper _ _ (qdiv _ _)). destruct Hq as [E|E]; rewrite (Qround2_proper _ _ E); [now rewrite Qabs_pos|].
    rewrite Qround2_opp, Qabs_opp. now rewrite Qabs_pos.
Qed.
Lemma pf_converted u w w' s a : units_ok u -> converted u w w' -> let rs := results_of w (sel_trades s a) in
  exists v v', profit_factor w s a = Ok v /\ profit_factor w' s a = Ok v' /\
    (losses rs == 0 -> v' == u_gain u * v)%Q /\ (1 <= losses rs -> 1 <= u_gain u * losses rs -> v' == v)%Q /\ (u_gain u == 1 -> v' == v)%Q.
Proof.
  intros Hu R rs. destruct (pf_value w s a) as (v & Ev & V1 & V2). destruct (pf_value w' s a) as (v' & Ev' & V1' & V2'). exists v, v'. split; [auto|]. split; [auto|].
  fold rs in V1, V2. pose proof (gain_pos u Hu) as Hg. destruct (parts_scaled _ _ _ Hg (results_converted u w w' (sel_trades s a) Hu R)) as [G L]. fold rs in G, L.
  pose proof (losses_nonneg rs) as Hn. set (rs' := results_of w' (sel_trades s a)) in *. split; [|split].
  - intros E. rewrite (V1 E), V1'; [exact G|]. rewrite L, E. ring.
  - intros H1 H2. rewrite V2 by lra. rewrite V2' by lra. apply Qround2_proper. rewrite L, G. rewrite (Q.max_r 1 (losses rs)) by lra. rewrite (Q.max_r 1 (u_gain u * losses rs)) by lra. field. lra.
  - intros E. assert (losses rs' == losses rs)%Q as EL by (rewrite L, E; ring). assert (gains rs' == gains rs)%Q as EG by (rewrite G, E; ring).
    destruct (Qeq_dec (losses rs) 0) as [E0|N0]; [rewrite V1, V1' by lra; lra|]. assert (0 < losses rs)%Q as Hp by (destruct (Qle_lt_or_eq _ _ Hn); [auto|exfalso; apply N0; lra]).
    rewrite V2 by lra. rewrite V2' by lra. apply Qround2_proper. rewrite EL, EG. reflexivity.
Qed.
