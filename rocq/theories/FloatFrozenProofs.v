(** Closed trades and new trades on Python floats (C06, C08). *)
From Coq Require Import Reals.
From Flocq Require Import Core BinarySingleNaN.
From Verif Require Export FloatTradeProofs FloatMirrorProofs.
From Verif Require Import SpecTrade TradeProofs.
From Coq Require Import Lra Psatz.
Open Scope R_scope.

Lemma zero_close (t : trade b64) c : within 1000 (tr_ov t) -> within 1000 (tc_value c) -> tc_qty c = 0%Z -> is_finite (close_result t c) = true /\ real (close_result t c) = 0.
Proof.
  intros Ho Hv Hq. unfold close_result. rewrite Hq. destruct (ofZ_fin 0 ltac:(lia)) as [V0 F0].
  assert (is_finite (close_result_avg t c) = true) as Fa.
  { unfold close_result_avg. destruct (tr_dir t); eapply (round2_bounded (1000 + 1)); try lia; apply (sub_bounded _ _ 1000); auto; lia. }
  destruct (mul_fin (close_result_avg t c) (fofZ 0) 0) as [E [Ff _]]; [lia|auto|auto|rewrite V0, Rmult_0_r, Rabs_R0; apply bpow_ge_0|].
  rewrite V0, Rmult_0_r in E. rewrite rnd_0 in E.
  destruct (round2_spec _ Ff) as [E2 F2]. split; [auto|]. rewrite E2, E. unfold cent. rewrite Rmult_0_l. change 0 with (IZR 0) at 1. rewrite ZnearestE_IZR. unfold Rdiv. rewrite Rmult_0_l. apply rnd_0.
Qed.
Lemma add_zero (x z : b64) : is_finite x = true -> is_finite z = true -> real z = 0 -> is_finite (fadd x z) = true /\ real (fadd x z) = real x.
Proof.
  intros Fx Fz Ez. pose proof (Bplus_correct 53 1024 prec53 prec53_1024 mode_NE x z Fx Fz) as H. rewrite Ez, Rplus_0_r in H.
  change (round radix2 (SpecFloat.fexp 53 1024) (round_mode mode_NE) (real x)) with (rnd (real x)) in H. rewrite rnd_val in H.
  rewrite Rlt_bool_true in H by apply val_lt. destruct H as (H1 & H2 & _). auto.
Qed.
Lemma zero_add (z x : b64) : real z = 0 -> is_finite z = true -> is_finite (fadd z x) = true -> is_finite x = true.
Proof. intros Ez Fz. destruct x as [s|s| |s m e Hm]; auto; destruct z as [s'|s'| |s' m' e' Hm']; try discriminate; intros H; simpl in H; auto; discriminate. Qed.
Lemma fold_zero (l : list b64) acc : is_finite acc = true -> Forall (fun x => is_finite x = true /\ real x = 0) l -> is_finite (fold_left fadd l acc) = true /\ real (fold_left fadd l acc) = real acc.
Proof.
  intros Fa Hl. revert acc Fa. induction Hl as [|x l [Fx Ex] Hl IH]; intros acc Fa; cbn [fold_left]; auto. destruct (add_zero acc x Fa Fx Ex) as [F1 E1]. destruct (IH _ F1) as [F2 E2]. rewrite E2. auto.
Qed.
Lemma opened_zero (t : trade b64) : closed t = true -> opened_result t = f0.
Proof. intros Hc. unfold opened_result, opened_result_avg. rewrite Hc. apply Z.eqb_eq in Hc. rewrite Hc. reflexivity. Qed.
Lemma closed_result_calls (t t' : trade b64) : trade_call t t' -> closed t = true -> within 1000 (tr_ov t) -> Forall (fun c => within 1000 (tc_value c)) (tr_closes t') -> is_finite (closed_result t) = true ->
  is_finite (closed_result t') = true /\ real (closed_result t') = real (closed_result t) /\ Forall (fun c => within 1000 (tc_value c)) (tr_closes t).
Proof.
  intros Hcall Hc Ho Hv Hf. destruct (closed_call _ _ Hcall Hc) as (H1 & H2 & H3 & H4 & H5 & H6 & k & Hk & Hz).
  assert (forall c, close_result t' c = close_result t c) as Ecr. { intros c. unfold close_result, close_result_avg. now rewrite H5, H6. }
  unfold closed_result, fsum. destruct Hk as [Hk|(-> & Ev & Eq)].
  - rewrite Hk in *. apply Forall_app in Hv as [Hv1 Hv2]. rewrite map_app, fold_left_app. replace (map (close_result t') (tr_closes t)) with (map (close_result t) (tr_closes t)) by (apply map_ext; intros; now rewrite Ecr).
    destruct (fold_zero (map (close_result t') k) (fold_left fadd (map (close_result t) (tr_closes t)) f0)) as [F E].
    + exact Hf.
    + clear - Hv2 Hz Ecr Ho. induction Hv2 as [|c l Hc Hl IH]; cbn [map]; [constructor|]. apply Forall_cons in Hz as [Hq Hz]. constructor; [rewrite Ecr; now apply zero_close|auto].
    + auto.
  - assert (map (close_result t') (tr_closes t') = map (close_result t) (tr_closes t)) as El.
    { clear - Ev Eq Ecr. revert Ev Eq. generalize (tr_closes t). induction (tr_closes t') as [|c l IH]; intros [|c' l'] E1 E2; try discriminate; auto. cbn [map] in *. injection E1 as Ea E1. injection E2 as Eb E2. f_equal; [|now apply IH]. rewrite Ecr. unfold close_result, close_result_avg. now rewrite Ea, Eb. }
    rewrite El. split; [exact Hf|]. split; [auto|]. clear - Hv Ev. revert Ev. generalize (tr_closes t). induction Hv as [|c l Hc Hl IH]; intros [|c' l'] E; try discriminate; constructor; cbn [map] in E; injection E as E1 E; [now rewrite <- E1|auto].
Qed.
Lemma closed_frozen_b64 (t t' : trade b64) : closed t = true -> rtc trade_call t t' -> within 1000 (tr_ov t) -> Forall (fun c => within 1000 (tc_value c)) (tr_closes t') -> is_finite (result t) = true ->
  is_finite (result t') = true /\ real (result t') = real (result t).
Proof.
  intros Hc Hr Ho Hv Hf. 
  assert (closed t' = true /\ is_finite (closed_result t') = true /\ real (closed_result t') = real (closed_result t)) as (Hc' & Hf' & E).
  { unfold result in Hf. rewrite (opened_zero t Hc) in Hf. apply zero_add in Hf; [|reflexivity|reflexivity].
    assert (closed t' = true /\ is_finite (closed_result t') = true /\ real (closed_result t') = real (closed_result t) /\ Forall (fun c => within 1000 (tc_value c)) (tr_closes t)) as (? & ? & ? & _); [|auto].
    induction Hr as [t|x y z Hxy Hyz IH]; [auto|].
    pose proof (closed_call _ _ Hxy Hc) as (K1 & _ & _ & _ & K5 & _).
    assert (Forall (fun c => within 1000 (tc_value c)) (tr_closes y)) as Hy.
    { clear - Hyz Hv K1. revert K1. induction Hyz as [|a b c Hab Hbc IH]; intros K1; auto. destruct (closed_call _ _ Hab K1) as (L1 & _ & _ & _ & _ & _ & k & Hk & _). specialize (IH Hv L1). destruct Hk as [Hk|(-> & Ev & _)]; [rewrite Hk in IH; now apply Forall_app in IH as [? _]|].
      clear - IH Ev. revert Ev. generalize (tr_closes a). induction IH as [|c l Hc Hl IH]; intros [|c' l'] E; try discriminate; constructor; cbn [map] in E; injection E as E1 E; [now rewrite <- E1|auto]. }
    destruct (closed_result_calls _ _ Hxy Hc Ho Hy Hf) as (F1 & E1 & V1). rewrite <- K5 in Ho. destruct (IH K1 Ho Hv F1) as (A & B & C & D). rewrite C. auto. }
  unfold result. rewrite (opened_zero t Hc), (opened_zero t' Hc').
  assert (forall x : b64, is_finite x = true -> is_finite (fadd f0 x) = true /\ real (fadd f0 x) = real x) as Hadd.
  { intros x Fx. pose proof (Bplus_correct 53 1024 prec53 prec53_1024 mode_NE f0 x eq_refl Fx) as H. change (real f0) with 0 in H. rewrite Rplus_0_l in H.
    change (round radix2 (SpecFloat.fexp 53 1024) (round_mode mode_NE) (real x)) with (rnd (real x)) in H. rewrite rnd_val in H. rewrite Rlt_bool_true in H by apply val_lt. destruct H as (H1 & H2 & _). auto. }
  unfold result in Hf. rewrite (opened_zero t Hc) in Hf. apply zero_add in Hf; [|reflexivity|reflexivity].
  destruct (Hadd _ Hf) as [G1 G2], (Hadd _ Hf') as [G3 G4]. rewrite G2, G4. auto.
Qed.

(** C08 *)
Lemma open_b64 (tk : tick b64) k j e d q s ref t : decimal k (tk_bid tk) -> decimal j (tk_ask tk) -> (Z.abs k <= 100 * 2 ^ 30)%Z -> (Z.abs j <= 100 * 2 ^ 30)%Z -> (Z.abs q <= 2 ^ 53)%Z -> (Z.abs ((j - k) * q) <= 100 * 2 ^ 30)%Z ->
  (match d with BUY => k | SELL => j end <> 0)%Z -> open_from_tick tk e (Dir d) q s ref = Ok t ->
  decimal (match d with BUY => j | SELL => k end) (tr_ov t) /\ decimal (match d with BUY => k | SELL => j end) (tr_cv t) /\ tr_oq t = q /\ tr_dt t = tk_dt tk /\
  is_finite (result t) = true /\ Rabs (real (result t) - - IZR ((j - k) * q) / 100) <= / 2 ^ 19.
Proof.
  intros Dk Dj Bk Bj Bq Bs Hz E.
  assert (forall z x, decimal z x -> (Z.abs z <= 100 * 2 ^ 30)%Z -> z <> 0%Z -> ftruthy x = true) as Htr.
  { intros z x Dz Bz Nz. unfold ftruthy. destruct (feqb x f0) eqn:Ef; [|reflexivity]. apply feq_fin in Ef; [|apply Dz|reflexivity]. change (real f0) with 0 in Ef.
    assert (cent (real x) = z) as Ec. { apply decimal_cent; auto. eapply Rle_trans; [now apply abs_cents|]. apply bpow_le. lia. }
    rewrite Ef in Ec. unfold cent in Ec. rewrite Rmult_0_l in Ec. change 0 with (IZR 0) in Ec. rewrite ZnearestE_IZR in Ec. lia. }
  assert (exists ko kv, decimal ko (tr_ov t) /\ decimal kv (tr_cv t) /\ tr_closes t = [] /\ tr_oq t = q /\ tr_dt t = tk_dt tk /\ tr_dir t = d /\ ko = match d with BUY => j | SELL => k end /\ kv = match d with BUY => k | SELL => j end) as (ko & kv & Do & Dv & El & Eq & Ed & Edir & -> & ->).
  { destruct d; cbn [open_from_tick] in E; injection E as <-; unfold trade_init.
    - exists j, k. rewrite (Htr k _ Dk Bk Hz). auto 10.
    - exists k, j. rewrite (Htr j _ Dj Bj Hz). auto 10. }
  split; [auto|]. split; [auto|]. split; [auto|]. split; [auto|].
  assert (opened_quantities t = q) as Eo. { rewrite opened_booked, El, Eq. unfold booked. simpl. lia. }
  destruct (pnl_sharp_b64 t (match d with BUY => j | SELL => k end) (match d with BUY => k | SELL => j end) []) as [Fr Br]; auto.
  - rewrite El. constructor.
  - destruct d; auto.
  - destruct d; auto.
  - now rewrite Eo.
  - rewrite El. constructor.
  - simpl. lia.
  - rewrite El, Eo. cbn [zip_with total]. destruct d; lia.
  - split; [auto|]. rewrite El, Eo, Edir in Br. cbn [zip_with total length INR] in Br.
    replace (side d * (0 + ((match d with BUY => k | SELL => j end) - (match d with BUY => j | SELL => k end)) * q))%Z with (- ((j - k) * q))%Z in Br by (destruct d; cbn [side]; lia). rewrite opp_IZR in Br. eapply Rle_trans; [exact Br|]. lra.
Qed.
