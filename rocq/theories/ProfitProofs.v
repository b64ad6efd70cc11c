(** The result of a strategy is the sum over its fills (C66). *)
From Verif Require Export SpecProfit MarketProofs StrategyExamples.
From Coq Require Import Lqa.
Open Scope Z_scope.

Lemma cents_sum l : Forall cents l -> cents (sum_of l).
Proof. intros Hl. induction Hl as [|x l Hx Hl IH]; simpl; [now exists 0%Z|]. now apply cents_add. Qed.
Lemma round_cent_exact x y : cents x -> round_cent x y -> (y == x)%Q.
Proof.
  intros [a Ha] (z & Hz & Hd & _). rewrite Ha, Hz in Hd. assert (Qabs ((a # 100) - (z # 100)) == (Z.abs (a - z) # 100))%Q as E.
  { setoid_replace ((a # 100) - (z # 100))%Q with ((a - z) # 100)%Q; [reflexivity|]. unfold Qeq. simpl. lia. }
  rewrite E in Hd. unfold Qle in Hd. simpl in Hd. assert (a = z) as -> by lia. now rewrite Hz, Ha.
Qed.
Lemma sum_of_app l k : (sum_of (l ++ k) == sum_of l + sum_of k)%Q.
Proof. induction l as [|x l IH]; simpl; [ring|]. rewrite IH. ring. Qed.

Section trade.
  Context (ticks : list (tick Q)) (Hcents : Forall cent_quotes ticks).
  Lemma close_fills t tk l : tk ∈ ticks -> opened_at tk t -> (forall c, c ∈ l -> 0 <= tc_qty c /\ exists x, x ∈ ticks /\ closed_at x t (terms c)) ->
    exists fs, Forall2 (fun c f => fl_dir f = tr_dir t /\ fl_qty f = tc_qty c /\ fl_in f = tk /\ fl_out f ∈ ticks /\ tk_dt (fl_out f) = tc_dt c) (List.filter (fun c => 0 <? tc_qty c) l) fs /\
      (pnl (unit_res (tr_dir t) (tr_ov t)) l == sum_of (map fl_gain fs))%Q.
  Proof.
    intros Htk [Hov Hdt]. rewrite Forall_forall in Hcents. assert (cents (tr_ov t)) as Hco by (rewrite Hov; destruct (Hcents _ Htk); now destruct (tr_dir t)).
    induction l as [|c l IH]; intros Hl; [exists []; split; [constructor|reflexivity]|]. destruct IH as (fs & F1 & F2); [intros x Hx; apply Hl; now right|].
    destruct (Hl c ltac:(left)) as (Hq & x & Hx & Hd & Hv). simpl. destruct (Z.ltb_spec 0 (tc_qty c)) as [Hp|Hp].
    - specialize (Hv Hp). exists ({| fl_dir := tr_dir t; fl_qty := tc_qty c; fl_in := tk; fl_out := x |} :: fs). split; [constructor; [auto|exact F1]|].
      simpl. rewrite <- F2. apply Qplus_comp; [|reflexivity]. unfold fl_gain. simpl. rewrite unit_res_exact; [now rewrite Hv, Hov|auto|]. rewrite Hv. destruct (Hcents _ Hx). now destruct (tr_dir t).
    - exists fs. split; [exact F1|]. rewrite <- F2. assert (tc_qty c = 0) as -> by lia. change (inject_Z 0) with 0%Q. ring.
  Qed.
  Lemma trade_fills t : closed t = true -> (exists tk, tk ∈ ticks /\ opened_at tk t) ->
    (forall c, c ∈ tr_closes t -> 0 <= tc_qty c /\ exists x, x ∈ ticks /\ closed_at x t (terms c)) ->
    exists fs, fills_of ticks t fs /\ (result t == sum_of (map fl_gain fs))%Q.
  Proof.
    intros Hc (tk & Htk & Ho) Hl. destruct (close_fills t tk _ Htk Ho Hl) as (fs & F1 & F2). exists fs. split.
    - exists tk. split; [auto|]. split; [symmetry; apply Ho|exact F1].
    - rewrite (q_result t). cbv zeta. rewrite F2. unfold closed in Hc. apply Z.eqb_eq in Hc. rewrite Hc. change (inject_Z 0) with 0%Q. ring.
  Qed.
End trade.

Lemma closes_nonneg (w : world Q) i t c : reach sane_call w -> w_trades w !! i = Some t -> c ∈ tr_closes t -> 0 <= tc_qty c.
Proof. intros R Ht Hc. apply elem_of_list_lookup in Hc as (k & Hk). now apply (proj2 (proj2 (quantities_in_every_state w i t R Ht))) in Hk. Qed.
Lemma market_reach (pr : programs Q) l w : programs_ok market_call pr -> Forall (op_ok market_call) l -> reach market_call w ->
  reach market_call (run pr w l) /\ reach sane_call (run pr w l) /\ programs_ok at_market pr /\ Forall (op_ok at_market) l.
Proof.
  intros Hp Hl R. assert (reach market_call (run pr w l)) as R' by now apply run_reach. split; [auto|]. split; [apply (reach_mono market_call); [now intros c []|auto]|]. split.
  - intros s cb eid v. specialize (Hp s cb eid v). revert Hp. generalize (pr s cb eid v). intros sc. induction sc as [|e|c k IH]; simpl; auto. intros [[A _] B]. split; auto.
  - eapply Forall_impl; [exact Hl|]. intros o Ho. destruct o; auto. now destruct Ho.
Qed.

Lemma run_trade_fills (pr : programs Q) l : programs_ok market_call pr -> Forall (op_ok market_call) l -> forall i t, w_trades (run pr empty_world l) !! i = Some t ->
  Forall cent_quotes (accepted pr empty_world l (tr_epic t)) -> closed t = true ->
  exists fs, fills_of (fake_tick :: accepted pr empty_world l (tr_epic t)) t fs /\ (result t == sum_of (map fl_gain fs))%Q.
Proof.
  intros Hp Hl i t Ht Hcq Hc. destruct (market_reach pr l empty_world Hp Hl (reach_empty _)) as (_ & R & Hp' & Hl'). destruct (run_market pr l Hp' Hl' i t Ht) as [Ho Hcl].
  apply trade_fills; [constructor; [split; now exists 0%Z|auto]|auto|exact Ho|]. intros c Hin. split; [eapply closes_nonneg; eauto|]. exact (Hcl c Hin).
Qed.
Lemma result_cents (t : trade Q) : cents (result t).
Proof.
  destruct (pnl_rounded t) as (u & Hu & E). assert (forall v, cents (u v)) as Hcu by (intros v; destruct (Hu v) as (z & Hz & _); now exists z).
  assert (cents (pnl u (tr_closes t) + u (tr_cv t) * inject_Z (opened_quantities t))) as [z Hz].
  { clear E Hu. apply cents_add; [|now apply cents_mulZ]. induction (tr_closes t) as [|c k IH]; simpl; [now exists 0%Z|]. apply cents_add; [now apply cents_mulZ|auto]. }
  exists z. now rewrite E.
Qed.
Lemma results_cents w l rs : results w l rs -> Forall cents rs.
Proof. intros Hr. induction Hr as [|i r l rs (t & _ & ->) Hr IH]; constructor; auto. apply result_cents. Qed.
Lemma run_strategy_fills (pr : programs Q) l sid s : programs_ok market_call pr -> Forall (op_ok market_call) l -> w_strats (run pr empty_world l) !! sid = Some s ->
  (forall e, Forall cent_quotes (accepted pr empty_world l e)) -> flat_book (run pr empty_world l) s ->
  exists fss, Forall2 (fun i fs => exists t, w_trades (run pr empty_world l) !! i = Some t /\ fills_of (fake_tick :: accepted pr empty_world l (tr_epic t)) t fs) (st_trades s) fss /\
    (strategy_result (run pr empty_world l) s TNone == sum_of (map fl_gain (concat fss)))%Q.
Proof.
  intros Hp Hl Hs Hcq Hb. destruct (market_reach pr l empty_world Hp Hl (reach_empty _)) as (R & _ & _ & _).
  destruct (strategy_result_all _ _ sid s R Hs) as (rs & Hrs & Hrc). apply round_cent_exact in Hrc; [|eapply cents_sum, results_cents; eauto].
  assert (exists fss, Forall2 (fun i fs => exists t, w_trades (run pr empty_world l) !! i = Some t /\ fills_of (fake_tick :: accepted pr empty_world l (tr_epic t)) t fs) (st_trades s) fss /\
    (sum_of rs == sum_of (map fl_gain (concat fss)))%Q) as (fss & F1 & F2); [|exists fss; split; [auto|now rewrite Hrc]].
  clear Hrc. unfold flat_book in Hb. unfold results in Hrs. revert Hb. induction Hrs as [|i r k rs (t & Ht & ->) Hrs IH]; intros Hb.
  - exists []. split; [constructor|reflexivity].
  - destruct IH as (fss & F1 & F2); [intros j y Hj; apply Hb; now right|]. destruct (run_trade_fills pr l Hp Hl i t Ht (Hcq _) (Hb i t ltac:(left) Ht)) as (fs & G1 & G2).
    exists (fs :: fss). split; [constructor; [eauto|auto]|]. simpl. rewrite map_app, sum_of_app, F2, G2. reflexivity.
Qed.

(** ** Markets within bounds *)
Section bounds.
  Context (bl bh al ah : Q) (Hbl : cents bl) (Hbh : cents bh) (Hal : cents al) (Hah : cents ah).
  Notation quoted := (quoted bl bh al ah).
  Definition fair (w : world Q) : Prop :=
    (forall e ep, w_epics w !! e = Some ep -> quoted (ep_last ep)) /\
    (forall i t, w_trades w !! i = Some t -> (exists tk, quoted tk /\ opened_at tk t) /\ forall c, c ∈ tr_closes t -> exists tk, quoted tk /\ closed_at tk t (terms c)).
  Lemma fair_step pr w o : programs_ok at_market pr -> quoted_op bl bh al ah o -> fair w -> fair (fst (step pr w o)).
  Proof.
    intros Hp Ho [E1 E2]. assert (op_ok at_market o) as Ho' by (destruct o; simpl in *; auto; apply Ho). pose proof (step_market pr w o Hp Ho') as Hm.
    assert (forall e ep, w_epics (fst (step pr w o)) !! e = Some ep -> quoted (ep_last ep)) as E3.
    { destruct o as [k|ref|u q ref m|ref tz op cl ds hs pv|e f|e s|f i|e tk|c]; try contradiction; cbn [step].
      - destruct (w_epics w !! e) as [ep|] eqn:Ee; [|unfold epic_on_new_tick; now rewrite Ee].
        destruct (refused_dec ep tk) as [Hn|Hn]; [now rewrite (tick_refused _ _ _ _ _ Ee Hn)|]. rewrite (tick_epics _ _ _ _ _ Ee Hn).
        intros a b Hab. apply insert_lookup_inv in Hab as [(-> & -> & _)|[Hab _]]; [exact Ho|now apply (E1 a)].
      - pose proof (cmd_rest w c) as Er. assert (w_epics (fst (run_cmd w c)) = w_epics w) as -> by (unfold rest in Er; congruence). exact E1. }
    split; [exact E3|]. intros i t' Ht'. specialize (Hm i). rewrite Ht' in Hm. destruct (w_trades w !! i) as [t|] eqn:Et.
    - destruct Hm as [(M1 & M2 & M3 & M4 & M5 & _) (new & Mn & Mf)]. destruct (E2 i t Et) as [(tk & Q1 & [Q2 Q3]) Q4]. split.
      + exists tk. split; [auto|]. split; [now rewrite M3, M4|now rewrite M5].
      + intros c Hc. assert (terms c ∈ map terms (tr_closes t) ++ new) as Hin by (rewrite <- Mn; now apply elem_of_list_fmap_1).
        apply elem_of_app in Hin as [Hin|Hin].
        * apply elem_of_list_fmap in Hin as (c0 & Ec & Hc0). destruct (Q4 c0 Hc0) as (x & X1 & X2). exists x. split; [auto|]. rewrite Ec. unfold closed_at in *. now rewrite M3.
        * rewrite Forall_forall in Mf. destruct (Mf _ Hin) as (ep & He & Hx). exists (ep_last ep). split; [now apply (E3 (tr_epic t'))|exact Hx].
    - destruct Hm as [(ep & He & Hx) Mf]. split; [exists (ep_last ep); split; [now apply (E3 (tr_epic t'))|exact Hx]|].
      intros c Hc. rewrite Forall_forall in Mf. destruct (Mf (terms c)) as (ep' & He' & Hx'); [now apply elem_of_list_fmap_1|]. exists (ep_last ep'). split; [now apply (E3 (tr_epic t'))|exact Hx'].
  Qed.
  Lemma fair_run pr l w : programs_ok at_market pr -> Forall (quoted_op bl bh al ah) l -> fair w -> fair (run pr w l).
  Proof. intros Hp Hl. revert w. induction Hl as [|o l Ho Hl IH]; intros w Hw; simpl; [auto|]. apply IH. now apply fair_step. Qed.

  Lemma unit_bounds d tk x ov v : quoted tk -> quoted x -> ov = entry_price d tk -> v = exit_price d x -> (bl - ah <= unit_res d ov v <= bh - al)%Q.
  Proof.
    intros [[A1 A2] [A3 A4]] [[B1 B2] [B3 B4]] -> ->. unfold unit_res. split; [apply Qround2_ge; [now apply cents_sub|]|apply Qround2_le; [now apply cents_sub|]]; destruct d; simpl; lra.
  Qed.
  Lemma pnl_bounds t l : (exists tk, quoted tk /\ opened_at tk t) -> (forall c, c ∈ l -> 0 <= tc_qty c /\ exists x, quoted x /\ closed_at x t (terms c)) ->
    ((bl - ah) * inject_Z (booked l) <= pnl (unit_res (tr_dir t) (tr_ov t)) l <= (bh - al) * inject_Z (booked l))%Q.
  Proof.
    intros (tk & Htk & [Hov _]) Hl. induction l as [|c l IH]; [change (inject_Z (booked [])) with 0%Q; cbn [pnl]; lra|].
    destruct IH as [I1 I2]; [intros x Hx; apply Hl; now right|]. destruct (Hl c ltac:(left)) as (Hq & x & Hx & _ & Hv).
    change (booked (c :: l)) with (tc_qty c + booked l). cbn [pnl]. rewrite !inject_Z_plus. assert (0 <= inject_Z (tc_qty c))%Q as Hq' by (change 0%Q with (inject_Z 0); now rewrite <- Zle_Qle).
    assert ((bl - ah) * inject_Z (tc_qty c) <= unit_res (tr_dir t) (tr_ov t) (tc_value c) * inject_Z (tc_qty c) <= (bh - al) * inject_Z (tc_qty c))%Q as [J1 J2].
    { destruct (Z.eq_dec (tc_qty c) 0) as [->|Hn]; [change (inject_Z 0) with 0%Q; lra|]. destruct (unit_bounds (tr_dir t) tk x (tr_ov t) (tc_value c) Htk Hx Hov (Hv ltac:(lia))) as [U1 U2].
      split; apply Qmult_le_compat_r; auto. }
    split; lra.
  Qed.
  Lemma strategy_bounds pr l w sid s : programs_ok market_call pr -> Forall (quoted_op bl bh al ah) l -> reach market_call w -> w_trades w = [] ->
    (forall e ep, w_epics w !! e = Some ep -> quoted (ep_last ep)) -> w_strats (run pr w l) !! sid = Some s -> flat_book (run pr w l) s ->
    ((bl - ah) * inject_Z (units (run pr w l) s) <= strategy_result (run pr w l) s TNone <= (bh - al) * inject_Z (units (run pr w l) s))%Q.
  Proof.
    intros Hp Hl R Hw He Hs Hb. assert (Forall (op_ok market_call) l) as Hl' by (eapply Forall_impl; [exact Hl|]; intros o Ho; now destruct o).
    destruct (market_reach pr l w Hp Hl' R) as (R1 & R2 & Hp' & _). assert (fair (run pr w l)) as [_ Hf].
    { apply fair_run; auto. split; [auto|]. rewrite Hw. intros i t Ht. destruct i; discriminate Ht. }
    destruct (strategy_result_all _ _ sid s R1 Hs) as (rs & Hrs & Hrc). apply round_cent_exact in Hrc; [|eapply cents_sum, results_cents; eauto]. rewrite Hrc. clear Hrc.
    unfold units, flat_book in *. set (v := run pr w l) in *. clearbody v. unfold results in Hrs. revert Hb. induction Hrs as [|i r k rs (t & Ht & ->) Hrs IH]; intros Hb.
    - cbn [fold_right sum_of]. change (inject_Z 0) with 0%Q. lra.
    - destruct IH as [I1 I2]; [intros j y Hj; apply Hb; now right|]. cbn [fold_right sum_of]. rewrite Ht. rewrite !inject_Z_plus.
      pose proof (Hb i t ltac:(left) Ht) as Hc. destruct (Hf i t Ht) as [Ho Hcl]. destruct (quantities_in_every_state v i t R2 Ht) as (Hq & _).
      rewrite closed_quantities_booked in Hq. unfold closed in Hc. apply Z.eqb_eq in Hc. destruct (pnl_bounds t (tr_closes t) Ho) as [J1 J2].
      { intros c Hin. split; [eapply closes_nonneg; eauto|auto]. }
      assert (tr_oq t = booked (tr_closes t)) as -> by lia.
      assert (result t == pnl (unit_res (tr_dir t) (tr_ov t)) (tr_closes t))%Q as Er by (rewrite (q_result t); cbv zeta; rewrite Hc; change (inject_Z 0) with 0%Q; ring). rewrite Er. split; lra.
  Qed.
End bounds.
Lemma flat_market b a (pr : programs Q) l w sid s : cents b -> cents a -> programs_ok market_call pr -> Forall (quoted_op b b a a) l -> reach market_call w -> w_trades w = [] ->
  (forall e ep, w_epics w !! e = Some ep -> quoted b b a a (ep_last ep)) -> w_strats (run pr w l) !! sid = Some s -> flat_book (run pr w l) s ->
  (strategy_result (run pr w l) s TNone == - ((a - b) * inject_Z (units (run pr w l) s)))%Q.
Proof. intros Hb Ha Hp Hl R Hw He Hs Hf. destruct (strategy_bounds b b a a Hb Hb Ha Ha pr l w sid s Hp Hl R Hw He Hs Hf). lra. Qed.
