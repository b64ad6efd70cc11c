(** Results of a trade along a history, on Python floats (C07, C09). *)
From Coq Require Import Reals.
From Flocq Require Import Core BinarySingleNaN.
From Verif Require Export FloatTradeProofs SpecFloatTrade.
From Verif Require Import SpecTrade TradeProofs.
From Coq Require Import Lra Psatz.
Open Scope R_scope.

(** The prices of a trade in cents. *)
Record marks (b : Z) (t : trade b64) (ko kv : Z) (ks : list Z) : Prop := {
  mk_o : decimal ko (tr_ov t); mk_v : decimal kv (tr_cv t); mk_s : Forall2 (fun c k => decimal k (tc_value c)) (tr_closes t) ks;
  mk_bo : (Z.abs ko <= b)%Z; mk_bv : (Z.abs kv <= b)%Z; mk_bs : Forall (fun k => Z.abs k <= b)%Z ks;
  mk_q : Forall (fun c => 0 <= tc_qty c)%Z (tr_closes t); mk_p : (0 <= opened_quantities t)%Z }.
(** Exact profit and loss, in cents. *)
Definition exact_pnl (t : trade b64) (ko kv : Z) (ks : list Z) : Z :=
  (side (tr_dir t) * (total (zip_with (fun c k => (k - ko) * tc_qty c)%Z (tr_closes t) ks) + (kv - ko) * opened_quantities t))%Z.

Lemma marks_pnl b q t ko kv ks : marks b t ko kv ks -> tr_oq t = q -> (0 < q)%Z -> (0 < b)%Z -> (2 * b * q <= 100 * 2 ^ 30)%Z -> (Z.of_nat (length (tr_closes t)) <= 900)%Z ->
  is_finite (result t) = true /\ Rabs (real (result t) - IZR (exact_pnl t ko kv ks) / 100) <= 1 / 1000.
Proof.
  intros [Do Dv Ds Bo Bv Bs Hq Hp] Eq Q0 Hb Hbq Hn. assert (q <= 2 ^ 53)%Z as Hq53 by nia.
  assert (b <= 100 * 2 ^ 30)%Z as Hb' by nia. pose proof (Forall2_length _ _ _ Ds) as El.
  assert (booked (tr_closes t) + opened_quantities t = q)%Z as Esum by (rewrite opened_booked, Eq; lia).
  assert (0 <= booked (tr_closes t))%Z as Hbk. { unfold booked. clear - Hq. induction Hq; cbn [map total]; lia. }
  assert (Forall (fun c => tc_qty c <= booked (tr_closes t))%Z (tr_closes t)) as Hqb.
  { clear - Hq. unfold booked. induction Hq as [|c l Hc Hl IH]; constructor; cbn [map total].
    - assert (0 <= total (map tc_qty l))%Z by (clear - Hl; induction Hl; cbn [map total]; lia). lia.
    - eapply Forall_impl; [exact IH|]. cbn. intros x Hx. lia. }
  apply pnl_b64; auto; try lia.
  - eapply Forall_impl; [exact Bs|]. cbn. lia.
  - apply Forall_forall. intros c Hc. rewrite Forall_forall in Hq, Hqb. specialize (Hq _ Hc). specialize (Hqb _ Hc). lia.
  - assert (total (zip_with (fun c k => Z.abs ((k - ko) * tc_qty c)) (tr_closes t) ks) <= 2 * b * booked (tr_closes t))%Z as Hz.
    { clear - Hq Ds Bs Bo. unfold booked. induction Ds as [|c k l ks' Hc Hl IH]; cbn [zip_with map total]; [lia|].
      apply Forall_cons in Hq as [Hc0 Hq]. apply Forall_cons in Bs as [Bk Bs]. specialize (IH Bs Hq).
      assert (Z.abs ((k - ko) * tc_qty c) <= 2 * b * tc_qty c)%Z by (rewrite Z.abs_mul, (Z.abs_eq (tc_qty c)) by lia; apply Z.mul_le_mono_nonneg_r; lia). lia. }
    assert (Z.abs ((kv - ko) * opened_quantities t) <= 2 * b * opened_quantities t)%Z as Ho by (rewrite Z.abs_mul, (Z.abs_eq (opened_quantities t)) by lia; apply Z.mul_le_mono_nonneg_r; lia). nia.
Qed.

Section history.
  Context (b q : Z) (Hb : (0 < b)%Z) (Hq : (0 < q)%Z) (Hbq : (2 * b * q <= 100 * 2 ^ 30)%Z).
  Definition bracketed (t : trade b64) (x : R) (d : R) : Prop := real (tr_min t) - d <= x <= real (tr_max t) + d.
  Definition env (t : trade b64) (l : list b64) : Prop :=
    tr_oq t = q /\ exists ko kv ks, marks b t ko kv ks /\
      ((Z.of_nat (length (tr_closes t)) <= 900)%Z -> is_finite (tr_max t) = true /\ is_finite (tr_min t) = true /\
        bracketed t (IZR (exact_pnl t ko kv ks) / 100) (1 / 1000) /\ Forall (fun x => is_finite x = true /\ bracketed t (real x) (2 / 1000)) l).

  Lemma quote_cents tk (d : dir) : cent_quotes b tk -> exists k, decimal k (match d with BUY => tk_bid tk | SELL => tk_ask tk end) /\ (Z.abs k <= b)%Z.
  Proof. intros (k & j & A & B & C & D). destruct d; eauto. Qed.
  Lemma env_open tk e d s ref t : cent_quotes b tk -> open_from_tick tk e (Dir d) q s ref = Ok t -> env t [result t].
  Proof.
    intros Hc E.
    assert (exists ov cv, t = trade_init d q ov (tk_dt tk) e (Some cv) s ref /\ (exists k, decimal k ov /\ (Z.abs k <= b)%Z) /\ (exists k, decimal k cv /\ (Z.abs k <= b)%Z)) as (ov & cv & -> & (ko & Do & Bo) & (kc & Dc & Bc)).
    { destruct Hc as (k & j & A & B & C & D). destruct d; cbn [open_from_tick] in E; injection E as <-; do 2 eexists; (split; [reflexivity|]); (split; [eexists; split; eassumption|eexists; split; eassumption]). }
    split; [reflexivity|]. set (t := trade_init _ _ _ _ _ _ _ _).
    assert (exists kv, decimal kv (tr_cv t) /\ (Z.abs kv <= b)%Z) as (kv & Dv & Bv) by (unfold t; cbn; destruct (ftruthy cv); eauto).
    exists ko, kv, []. assert (opened_quantities t = q) as Eo by (unfold opened_quantities, closed_quantities; cbn; lia).
    assert (marks b t ko kv []) as M by (split; auto; try (cbn; constructor); lia). split; [exact M|]. intros Hn.
    destruct (marks_pnl b q t ko kv [] M eq_refl Hq Hb Hbq Hn) as [Fr Br].
    assert (tr_max t = result t) as Emx by reflexivity. assert (tr_min t = result t) as Emn by reflexivity. rewrite Emx, Emn. split; [auto|]. split; [auto|]. unfold bracketed. rewrite Emx, Emn.
    apply Rabs_le_inv in Br. split; [lra|]. constructor; [|constructor]. split; [auto|lra].
  Qed.
  Lemma min_max_env (t : trade b64) : is_finite (tr_max t) = true -> is_finite (tr_min t) = true -> is_finite (result t) = true ->
    let t' := update_min_max t in is_finite (tr_max t') = true /\ is_finite (tr_min t') = true /\ real (tr_max t) <= real (tr_max t') /\ real (tr_min t') <= real (tr_min t) /\
      real (tr_min t') <= real (result t') <= real (tr_max t').
  Proof.
    intros Fx Fn Fr. unfold update_min_max.
    set (t1 := if fltb (tr_max t) (result t) then set_maxmin t (result t) (tr_min t) else t). assert (result t1 = result t) as R1 by (unfold t1; destruct (fltb _ _); reflexivity). assert (tr_min t1 = tr_min t) as N1 by (unfold t1; destruct (fltb _ _); reflexivity).
    assert (is_finite (tr_max t1) = true /\ real (tr_max t) <= real (tr_max t1) /\ real (result t) <= real (tr_max t1)) as (X1 & X2 & X3).
    { unfold t1. destruct (fltb (tr_max t) (result t)) eqn:E; cbn [tr_max set_maxmin].
      - apply flt_fin in E; auto. split; [auto|]. lra.
      - split; [auto|]. split; [lra|]. destruct (Rle_lt_dec (real (result t)) (real (tr_max t))) as [C|C]; [auto|]. apply flt_fin in C; auto. congruence. }
    clearbody t1. rewrite N1, R1. destruct (fltb (result t) (tr_min t)) eqn:E; cbn zeta.
    - change (result (set_maxmin t1 (tr_max t1) (result t))) with (result t1). cbn [tr_max tr_min set_maxmin]. rewrite R1. apply flt_fin in E; auto. split; [auto|]. split; [auto|]. lra.
    - rewrite N1, R1. split; [auto|]. split; [auto|]. split; [auto|]. split; [lra|]. split; [|auto]. destruct (Rle_lt_dec (real (tr_min t)) (real (result t))) as [C|C]; [auto|]. apply flt_fin in C; auto. congruence.
  Qed.
  Lemma bracket_in (t t' : trade b64) x d : real (tr_max t) <= real (tr_max t') -> real (tr_min t') <= real (tr_min t) -> bracketed t x d -> bracketed t' x d.
  Proof. unfold bracketed. lra. Qed.
  Lemma env_tick t l tk : cent_quotes b tk -> env t l -> env (update_from_tick t tk) (result (update_from_tick t tk) :: l).
  Proof.
    intros Hc (Eq & ko & kv & ks & M & Hn). destruct (closed t) eqn:Ec.
    - rewrite update_from_tick_closed by auto. split; [auto|]. exists ko, kv, ks. split; [auto|]. intros Hl. destruct (Hn Hl) as (F1 & F2 & B & A). do 3 (split; [auto|]).
      constructor; [|auto]. destruct (marks_pnl b q t ko kv ks M Eq Hq Hb Hbq Hl) as [Fr Br]. split; [auto|]. unfold bracketed in *. apply Rabs_le_inv in Br. lra.
    - unfold update_from_tick, update. rewrite Ec. set (v := match tr_dir t with BUY => tk_bid tk | SELL => tk_ask tk end). destruct (quote_cents tk (tr_dir t) Hc) as (k & Dk & Bk). fold v in Dk.
      set (t1 := set_cv t v). assert (marks b t1 ko k ks) as M1. { destruct M. split; auto. }
      destruct (update_min_max_same t1) as [Hs Hcv]. pose proof (same_opened _ _ Hs) as Eop. destruct Hs as (_ & _ & S1 & S2 & S3 & S4 & _).
      assert (marks b (update_min_max t1) ko k ks) as M2. { destruct M1. split; rewrite ?S3, ?S4, ?Hcv, ?Eop; auto. }
      split; [rewrite S2; exact Eq|]. exists ko, k, ks. split; [exact M2|]. rewrite S3. intros Hl. destruct (Hn Hl) as (F1 & F2 & B & A).
      destruct (marks_pnl b q t1 ko k ks M1 Eq Hq Hb Hbq Hl) as [Fr Br].
      destruct (min_max_env t1 F1 F2 Fr) as (X1 & X2 & X3 & X4 & X5). split; [auto|]. split; [auto|].
      assert (is_finite (result (update_min_max t1)) = true /\ Rabs (real (result (update_min_max t1)) - IZR (exact_pnl (update_min_max t1) ko k ks) / 100) <= 1 / 1000) as [Fr2 Br2].
      { apply (marks_pnl b q); auto; [rewrite S2; exact Eq|rewrite S3; exact Hl]. }
      split; [unfold bracketed; apply Rabs_le_inv in Br2; lra|]. constructor; [split; [auto|unfold bracketed; lra]|]. eapply Forall_impl; [exact A|]. intros x [Fx Bx]. split; [auto|]. eapply bracket_in; [exact X3|exact X4|exact Bx].
  Qed.
  Lemma env_close t l n ref t' c (tk : tick b64) : qty_ok n -> env t l -> close t (tr_cv t) (DtAware (tk_dt tk)) n ref = Ok (t', c) -> env t' (result t' :: l).
  Proof.
    intros Hok (Eq & ko & kv & ks & M & Hn) E. apply close_inv in E as (-> & Ev & Eqc & _). set (t' := set_closes t (tr_closes t ++ [c])).
    assert (opened_quantities t' = opened_quantities t - tc_qty c)%Z as Eo by apply set_closes_opened.
    assert (0 <= tc_qty c <= opened_quantities t)%Z as Hc by (rewrite Eqc; apply close_quantity_bounds; [auto|apply M]).
    assert (marks b t' ko kv (ks ++ [kv])) as M'.
    { destruct M. split; auto.
      - cbn [t' tr_closes set_closes]. apply Forall2_app; [auto|]. constructor; [now rewrite Ev|constructor].
      - apply Forall_app. split; [auto|]. constructor; [auto|constructor].
      - cbn [t' tr_closes set_closes]. apply Forall_app. split; [auto|]. constructor; [lia|constructor].
      - lia. }
    assert (exact_pnl t' ko kv (ks ++ [kv]) = exact_pnl t ko kv ks) as Ee.
    { unfold exact_pnl. change (tr_dir t') with (tr_dir t). f_equal. rewrite Eo. cbn [t' tr_closes set_closes]. rewrite zip_with_app by (apply (Forall2_length _ _ _ (mk_s _ _ _ _ _ M))). rewrite total_app. cbn [zip_with total]. ring. }
    split; [exact Eq|]. exists ko, kv, (ks ++ [kv]). split; [auto|]. intros Hl.
    assert (Z.of_nat (length (tr_closes t)) <= 900)%Z as Hl' by (unfold t' in Hl; cbn [tr_closes set_closes] in Hl; rewrite app_length in Hl; cbn [length] in Hl; lia).
    destruct (Hn Hl') as (F1 & F2 & B & A). change (tr_max t') with (tr_max t). change (tr_min t') with (tr_min t). rewrite Ee. split; [auto|]. split; [auto|]. split; [exact B|]. constructor; [|exact A].
    destruct (marks_pnl b q t' ko kv _ M' Eq Hq Hb Hbq Hl) as [Fr Br]. split; [auto|]. rewrite Ee in Br. unfold bracketed in *. apply Rabs_le_inv in Br. change (tr_max t') with (tr_max t). change (tr_min t') with (tr_min t). lra.
  Qed.
  Lemma priced_env t l : priced b q t l -> env t l.
  Proof.
    induction 1 as [tk e d s ref t Hc E|t l tk Hc _ IH|t l tk n ref t' c Hc Hok _ IH E].
    - eapply env_open; eauto.
    - now apply env_tick.
    - eapply env_close; [exact Hok|apply env_tick; eauto|exact E].
  Qed.
  (** C09: a close moves the result by at most 0.002. *)
  Lemma close_near t l tk n ref t' c : cent_quotes b tk -> qty_ok n -> priced b q t l -> close_from_tick t tk n ref = Ok (t', c) -> (Z.of_nat (length (tr_closes t')) <= 900)%Z ->
    is_finite (result t') = true /\ Rabs (real (result t') - real (result (update_from_tick t tk))) <= 2 / 1000.
  Proof.
    intros Hc Hok Hp E Hl. apply priced_env in Hp. apply (env_tick _ _ tk Hc) in Hp. unfold close_from_tick in E. set (t1 := update_from_tick t tk) in *. destruct Hp as (Eq & ko & kv & ks & M & _).
    apply close_inv in E as (-> & Ev & Eqc & _). set (t' := set_closes t1 (tr_closes t1 ++ [c])) in *.
    assert (opened_quantities t' = opened_quantities t1 - tc_qty c)%Z as Eo by apply set_closes_opened.
    assert (0 <= tc_qty c <= opened_quantities t1)%Z as Hcq by (rewrite Eqc; apply close_quantity_bounds; [auto|apply M]).
    assert (marks b t' ko kv (ks ++ [kv])) as M'.
    { destruct M. split; auto.
      - cbn [t' tr_closes set_closes]. apply Forall2_app; [auto|]. constructor; [now rewrite Ev|constructor].
      - apply Forall_app. split; [auto|]. constructor; [auto|constructor].
      - cbn [t' tr_closes set_closes]. apply Forall_app. split; [auto|]. constructor; [lia|constructor].
      - lia. }
    assert (exact_pnl t' ko kv (ks ++ [kv]) = exact_pnl t1 ko kv ks) as Ee.
    { unfold exact_pnl. change (tr_dir t') with (tr_dir t1). f_equal. rewrite Eo. cbn [t' tr_closes set_closes]. rewrite zip_with_app by (apply (Forall2_length _ _ _ (mk_s _ _ _ _ _ M))). rewrite total_app. cbn [zip_with total]. ring. }
    assert (Z.of_nat (length (tr_closes t1)) <= 900)%Z as Hl' by (unfold t' in Hl; cbn [tr_closes set_closes] in Hl; rewrite app_length in Hl; cbn [length] in Hl; lia).
    destruct (marks_pnl b q t' ko kv _ M' Eq Hq Hb Hbq Hl) as [Fr Br]. destruct (marks_pnl b q t1 ko kv _ M Eq Hq Hb Hbq Hl') as [Fr1 Br1]. split; [auto|]. rewrite Ee in Br. apply Rabs_le_inv in Br, Br1. apply Rabs_le. lra.
  Qed.
  Lemma envelope_near t l : priced b q t l -> (Z.of_nat (length (tr_closes t)) <= 900)%Z ->
    is_finite (tr_max t) = true /\ is_finite (tr_min t) = true /\
    forall x, x ∈ l -> is_finite x = true /\ real (tr_min t) - 2 / 1000 <= real x <= real (tr_max t) + 2 / 1000.
  Proof.
    intros Hp Hl. apply priced_env in Hp as (_ & ko & kv & ks & _ & Hn). destruct (Hn Hl) as (F1 & F2 & _ & A). split; [auto|]. split; [auto|]. rewrite Forall_forall in A. exact A.
  Qed.
End history.
