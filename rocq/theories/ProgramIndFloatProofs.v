(** Values of indicators in whole programs, with the floats of the machine. *)
From Verif Require Export ProgramHistProofs.
From Coq Require Import Reals.
From Flocq Require Import Core BinarySingleNaN.
From Verif Require Import FloatHeikinProofs FloatRsiValueProofs FloatOlhcProofs FloatExamples SpecTrade SpecFrames.
Open Scope R_scope.

Lemma program_candles_b64 : forall pr ops fid i ha (fs : fset b64) k f iv, (1 <= fs_max fs)%Z -> in_kind i = KCandle ha ->
  (forall eid tk, OTick eid tk ∈ ops -> quotes_within 1019 tk) ->
  (forall j, OAddIndicator fid j ∈ ops -> in_ref j = in_ref i -> j = i) -> w_fsets (run pr empty_world ops) !! fid = Some fs -> fs_heap fs !! k = Some f -> value_at fs (in_ref i) k = Some iv ->
  exists o hi lo la, c_open (fs_heap fs) f iv = Ok o /\ c_high (fs_heap fs) f iv = Ok hi /\ c_low (fs_heap fs) f iv = Ok lo /\ candle_last iv = Ok la /\
    is_finite o = true /\ is_finite hi = true /\ is_finite lo = true /\ is_finite la = true /\
    real lo <= real o /\ real lo <= real la /\ real o <= real hi /\ real la <= real hi.
Proof.
  intros. match goal with X : forall eid tk, _ -> quotes_within _ _ |- _ => rename X into Hq end. destruct (run_hist pr ops fid fs (only i) (fun tk _ => quotes_within 1019 tk)) as (u & ref & fs0 & _ & Hinit & Hhist); [assumption|intros eid tk Hin z r; exact (Hq eid tk Hin)|assumption|].
  eapply (candle_finite_b64 u (fs_q fs) ref (fs_max fs)) with (T := (fun tk _ => quotes_within 1019 tk)) (fs0 := fs0); eauto; try (split; discriminate).
Qed.
Lemma program_geometry_b64 : forall pr ops fid i ha (fs : fset b64) k f iv, (1 <= fs_max fs)%Z -> in_kind i = KCandle ha ->
  (forall eid tk, OTick eid tk ∈ ops -> quotes_within 30 tk) ->
  (forall j, OAddIndicator fid j ∈ ops -> in_ref j = in_ref i -> j = i) -> w_fsets (run pr empty_world ops) !! fid = Some fs -> fs_heap fs !! k = Some f -> value_at fs (in_ref i) k = Some iv ->
  exists o hi lo la co ch cl ca, c_open (fs_heap fs) f iv = Ok o /\ c_high (fs_heap fs) f iv = Ok hi /\ c_low (fs_heap fs) f iv = Ok lo /\ candle_last iv = Ok la /\
    decimal co o /\ decimal ch hi /\ decimal cl lo /\ decimal ca la /\ (cl <= co <= ch)%Z /\ (cl <= ca <= ch)%Z /\
    Rabs (real (candle_height hi lo) - IZR (ch - cl) / 100) <= / 2 ^ 18 /\
    if ((co =? 0) || (ca =? 0))%Z then candle_head o hi la = None /\ candle_body o la = None /\ candle_tail o lo la = None /\ candle_color o la = None
    else exists hd bd tl, candle_head o hi la = Some hd /\ candle_body o la = Some bd /\ candle_tail o lo la = Some tl /\
      decimal (ch - Z.max co ca) hd /\ decimal (Z.abs (co - ca)) bd /\ decimal (Z.min co ca - cl) tl /\
      candle_color o la = Some (if (co <? ca)%Z then GREEN else if (ca <? co)%Z then RED else BLACK).
Proof.
  intros. match goal with X : forall eid tk, _ -> quotes_within _ _ |- _ => rename X into Hq end. destruct (run_hist pr ops fid fs (only i) (fun tk _ => quotes_within 30 tk)) as (u & ref & fs0 & _ & Hinit & Hhist); [assumption|intros eid tk Hin z r; exact (Hq eid tk Hin)|assumption|].
  eapply (geometry_b64 30 u (fs_q fs) ref (fs_max fs)) with (T := (fun tk _ => quotes_within 30 tk)) (fs0 := fs0); eauto; try (split; discriminate).
Qed.
Lemma program_heikin_b64 : forall pr ops fid i (fs : fset b64) k f iv, (1 <= fs_max fs)%Z -> in_kind i = KCandle true ->
  (forall eid tk, OTick eid tk ∈ ops -> quotes_within 27 tk) ->
  (forall j, OAddIndicator fid j ∈ ops -> in_ref j = in_ref i -> j = i) -> w_fsets (run pr empty_world ops) !! fid = Some fs -> fs_heap fs !! k = Some f -> value_at fs (in_ref i) k = Some iv ->
  exists o la r cf ch cl cc co ca, c_open (fs_heap fs) f iv = Ok o /\ candle_last iv = Ok la /\ previous_value fs (in_ref i) k r /\
    decimal cf (tk_value (iv_first iv)) /\ decimal ch (tk_value (iv_high iv)) /\ decimal cl (tk_value (iv_low iv)) /\ decimal cc (tk_value (iv_last iv)) /\
    decimal co o /\ decimal ca la /\ (Z.abs (4 * ca - (cf + ch + cl + cc)) <= 2)%Z /\
    match r with
    | None => co = cf
    | Some (j, pv) => exists pf po pl cpo cpl, fs_heap fs !! j = Some pf /\ c_open (fs_heap fs) pf pv = Ok po /\ candle_last pv = Ok pl /\
        decimal cpo po /\ decimal cpl pl /\ (Z.abs (2 * co - (cpo + cpl)) <= 1)%Z
    end.
Proof.
  intros. match goal with X : forall eid tk, _ -> quotes_within _ _ |- _ => rename X into Hq end. destruct (run_hist pr ops fid fs (only i) (fun tk _ => quotes_within 27 tk)) as (u & ref & fs0 & _ & Hinit & Hhist); [assumption|intros eid tk Hin z r; exact (Hq eid tk Hin)|assumption|].
  eapply (heikin_b64 u (fs_q fs) ref (fs_max fs)) with (T := (fun tk _ => quotes_within 27 tk)) (fs0 := fs0); eauto; try (split; discriminate).
Qed.
Lemma program_sma_b64 : forall e pr ops fid i mp (fs : fset b64) k f iv p, (0 <= e)%Z -> (1 <= fs_max fs)%Z -> in_kind i = KSMA mp -> in_mopen i = false ->
  (forall eid tk, OTick eid tk ∈ ops -> quotes_within e tk) -> (forall j, OAddIndicator fid j ∈ ops -> in_ref j = in_ref i -> j = i) -> w_fsets (run pr empty_world ops) !! fid = Some fs -> fs_heap fs !! k = Some f -> value_at fs (in_ref i) k = Some iv ->
  (1 <= p <= mp)%Z -> (p <= 1000)%Z -> (p * 2 ^ (e + 1) <= 2 ^ 30)%Z ->
  exists s lc, valued_from fs (in_ref i) s /\ (s <= k)%nat /\ iv_data iv = DSMA lc /\
    if (Z.of_nat (S k - s) <? p)%Z then sma_value f lc p = Ok None
    else exists v m ks, sma_value f lc p = Ok (Some v) /\ Forall2 decimal ks (window (Z.to_nat p) k (closes fs)) /\ decimal m v /\ (2 * Z.abs (m * p - SpecTrade.total ks) <= p)%Z /\
      exists x y, x ∈ window (Z.to_nat p) k (closes fs) /\ y ∈ window (Z.to_nat p) k (closes fs) /\ real x <= real v <= real y.
Proof.
  intros. match goal with X : forall eid tk, _ -> quotes_within _ _ |- _ => rename X into Hq end. destruct (run_hist pr ops fid fs (only i) (fun tk _ => quotes_within e tk)) as (u & ref & fs0 & _ & Hinit & Hhist); [assumption|intros eid tk Hin z r; exact (Hq eid tk Hin)|assumption|].
  eapply (sma_b64 e u (fs_q fs) ref (fs_max fs)) with (T := (fun tk _ => quotes_within e tk)) (fs0 := fs0); eauto; try (split; discriminate).
Qed.
Lemma program_rsi_b64 : forall pr ops fid i p o (fs : fset b64) k iv, (2 <= fs_max fs)%Z -> (2 <= p * fs_q fs < 2 ^ 53)%Z -> in_kind i = KRSI p o -> in_mopen i = false ->
  (forall j, OAddIndicator fid j ∈ ops -> in_ref j = in_ref i -> j = i) -> (forall eid tk, OTick eid tk ∈ ops -> quotes_within 800 tk) -> charts_fine pr empty_world ops -> w_fsets (run pr empty_world ops) !! fid = Some fs -> value_at fs (in_ref i) k = Some iv ->
  exists s lc v, valued_from fs (in_ref i) s /\ (s <= k)%nat /\ iv_data iv = DRSI (p * fs_q fs) lc v /\
    if (S k - (s - 1) <=? Z.to_nat (p * fs_q fs))%nat then v = None
    else exists x, v = Some x /\ is_finite x = true /\ 0 <= real x <= 100.
Proof.
  intros. match goal with X : forall eid tk, _ -> quotes_within _ _ |- _ => rename X into Hq end. destruct (run_hist_fine pr ops fid fs (only i) (fun tk r => quotes_within 800 tk /\ r = Ok ())) as (u & ref & fs0 & _ & Hinit & Hhist); [assumption|intros eid tk Hin z; split; [exact (Hq eid tk Hin)|reflexivity]|assumption|assumption|].
  eapply (rsi_hist_b64 u (fs_q fs) ref (fs_max fs)); eauto.
Qed.
Lemma program_rsi_value_b64 : forall pr ops fid i p o (fs : fset b64) k iv, (2 <= fs_max fs)%Z -> (2 <= p * fs_q fs <= 2 ^ 20)%Z -> in_kind i = KRSI p o -> in_mopen i = false ->
  (forall j, OAddIndicator fid j ∈ ops -> in_ref j = in_ref i -> j = i) -> (forall eid tk, OTick eid tk ∈ ops -> quotes_within 20 tk) -> charts_fine pr empty_world ops -> w_fsets (run pr empty_world ops) !! fid = Some fs -> value_at fs (in_ref i) k = Some iv ->
  exists s lc v, valued_from fs (in_ref i) s /\ (s <= k)%nat /\ iv_data iv = DRSI (p * fs_q fs) lc v /\
    if (S k - (s - 1) <=? Z.to_nat (p * fs_q fs))%nat then v = None
    else exists x m ks, v = Some x /\ Forall2 decimal ks (window (S (Z.to_nat (p * fs_q fs))) k (closes fs)) /\ decimal m x /\ rsi_cents ks m /\ (0 <= m <= 10000)%Z.
Proof.
  intros. match goal with X : forall eid tk, _ -> quotes_within _ _ |- _ => rename X into Hq end. destruct (run_hist_fine pr ops fid fs (only i) (fun tk r => quotes_within 20 tk /\ r = Ok ())) as (u & ref & fs0 & _ & Hinit & Hhist); [assumption|intros eid tk Hin z; split; [exact (Hq eid tk Hin)|reflexivity]|assumption|assumption|].
  eapply (rsi_value_b64 u (fs_q fs) ref (fs_max fs)); eauto.
Qed.
Lemma program_pivot_b64 : forall pr ops fid i (fs : fset b64) k f iv, (1 <= fs_max fs)%Z -> in_kind i = KPivot false -> (forall eid tk, OTick eid tk ∈ ops -> quotes_within 27 tk) ->
  (forall j, OAddIndicator fid j ∈ ops -> in_ref j = in_ref i -> j = i) -> w_fsets (run pr empty_world ops) !! fid = Some fs -> fs_heap fs !! k = Some f -> value_at fs (in_ref i) k = Some iv ->
  exists r, previous_value fs (in_ref i) k r /\
    match r with
    | None => pivot (fs_heap fs) f iv = Ok None /\ pivot_levels (fs_heap fs) f iv None None None None None None
    | Some (j, pv) => exists ch cl cc m p,
        decimal ch (tk_value (iv_high pv)) /\ decimal cl (tk_value (iv_low pv)) /\ decimal cc (tk_value (iv_last pv)) /\ (cl <= cc <= ch)%Z /\
        pivot (fs_heap fs) f iv = Ok (Some p) /\ decimal m p /\ (Z.abs (3 * m - (ch + cl + cc)) <= 1)%Z /\
        if (m =? 0)%Z then pivot_levels (fs_heap fs) f iv None None None None None None
        else exists s3 s2 s1 r1 r2 r3, pivot_levels (fs_heap fs) f iv (Some s3) (Some s2) (Some s1) (Some r1) (Some r2) (Some r3) /\
          decimal (cl - 2 * (ch - m)) s3 /\ decimal (m - (ch - cl)) s2 /\ decimal (2 * m - ch) s1 /\
          decimal (2 * m - cl) r1 /\ decimal (m + (ch - cl)) r2 /\ decimal (ch + 2 * (m - cl)) r3 /\
          real s3 <= real s2 /\ real s2 <= real s1 /\ real s1 <= real p /\ real p <= real r1 /\ real r1 <= real r2 /\ real r2 <= real r3
    end.
Proof.
  intros. match goal with X : forall eid tk, _ -> quotes_within _ _ |- _ => rename X into Hq end. destruct (run_hist pr ops fid fs (only i) (fun tk _ => quotes_within 27 tk)) as (u & ref & fs0 & _ & Hinit & Hhist); [assumption|intros eid tk Hin z r; exact (Hq eid tk Hin)|assumption|].
  eapply (pivots_b64 u (fs_q fs) ref (fs_max fs)) with (T := (fun tk _ => quotes_within 27 tk)) (fs0 := fs0); eauto; try (split; discriminate).
Qed.
Lemma program_olhc_b64 : forall pr ops fid i (fs : fset b64) k f iv, (1 <= fs_max fs)%Z -> in_kind i = KPivot true ->
  (forall eid tk, OTick eid tk ∈ ops -> quotes_within 27 tk) ->
  (forall j, OAddIndicator fid j ∈ ops -> in_ref j = in_ref i -> j = i) -> w_fsets (run pr empty_world ops) !! fid = Some fs -> fs_heap fs !! k = Some f -> value_at fs (in_ref i) k = Some iv ->
  exists r, previous_value fs (in_ref i) k r /\
    match r with
    | None => pivot (fs_heap fs) f iv = Ok None /\ pivot_levels (fs_heap fs) f iv None None None None None None
    | Some (j, pv) => exists ch cl cc co m p,
        decimal ch (tk_value (iv_high pv)) /\ decimal cl (tk_value (iv_low pv)) /\ decimal cc (tk_value (iv_last pv)) /\ decimal co (tk_value (iv_first iv)) /\ (cl <= cc <= ch)%Z /\
        pivot (fs_heap fs) f iv = Ok (Some p) /\ decimal m p /\ (Z.abs (4 * m - (ch + cl + cc + co)) <= 2)%Z /\
        if (m =? 0)%Z then pivot_levels (fs_heap fs) f iv None None None None None None
        else exists s3 s2 s1 r1 r2 r3, pivot_levels (fs_heap fs) f iv (Some s3) (Some s2) (Some s1) (Some r1) (Some r2) (Some r3) /\
          decimal (cl - 2 * (ch - m)) s3 /\ decimal (m - (ch - cl)) s2 /\ decimal (2 * m - ch) s1 /\
          decimal (2 * m - cl) r1 /\ decimal (m + (ch - cl)) r2 /\ decimal (ch + 2 * (m - cl)) r3 /\
          ((cl <= co <= ch)%Z ->
             real s3 <= real s2 /\ real s2 <= real s1 /\ real s1 <= real p /\ real p <= real r1 /\ real r1 <= real r2 /\ real r2 <= real r3)
    end.
Proof.
  intros. match goal with X : forall eid tk, _ -> quotes_within _ _ |- _ => rename X into Hq end. destruct (run_hist pr ops fid fs (only i) (fun tk _ => quotes_within 27 tk)) as (u & ref & fs0 & _ & Hinit & Hhist); [assumption|intros eid tk Hin z r; exact (Hq eid tk Hin)|assumption|].
  eapply (olhc_b64 u (fs_q fs) ref (fs_max fs)) with (T := (fun tk _ => quotes_within 27 tk)) (fs0 := fs0); eauto; try (split; discriminate).
Qed.
