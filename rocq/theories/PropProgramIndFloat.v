(** Values of indicators in whole programs (C38 to C43) with Python floats. *)
From Coq Require Import Reals.
From Flocq Require Import Core BinarySingleNaN.
From Verif Require Import ProgramIndFloatProofs FloatHeikinProofs FloatRsiValueProofs FloatOlhcProofs FloatExamples SpecTrade SpecFrames.
Open Scope R_scope.

(** C38, quotes up to 2^1019. *)
Theorem C38_any_program_b64 : forall pr ops fid i ha (fs : fset b64) k f iv, (1 <= fs_max fs)%Z -> in_kind i = KCandle ha ->
  (forall eid tk, OTick eid tk ∈ ops -> quotes_within 1019 tk) ->
  (forall j, OAddIndicator fid j ∈ ops -> in_ref j = in_ref i -> j = i) -> w_fsets (run pr empty_world ops) !! fid = Some fs -> fs_heap fs !! k = Some f -> value_at fs (in_ref i) k = Some iv ->
  exists o hi lo la, c_open (fs_heap fs) f iv = Ok o /\ c_high (fs_heap fs) f iv = Ok hi /\ c_low (fs_heap fs) f iv = Ok lo /\ candle_last iv = Ok la /\
    is_finite o = true /\ is_finite hi = true /\ is_finite lo = true /\ is_finite la = true /\
    real lo <= real o /\ real lo <= real la /\ real o <= real hi /\ real la <= real hi.
Proof. exact program_candles_b64. Qed.
Print Assumptions C38_any_program_b64.
(** C39, quotes up to 2^30. *)
Theorem C39_any_program_b64 : forall pr ops fid i ha (fs : fset b64) k f iv, (1 <= fs_max fs)%Z -> in_kind i = KCandle ha ->
  (forall eid tk, OTick eid tk ∈ ops -> quotes_within 30 tk) ->
  (forall j, OAddIndicator fid j ∈ ops -> in_ref j = in_ref i -> j = i) -> w_fsets (run pr empty_world ops) !! fid = Some fs -> fs_heap fs !! k = Some f -> value_at fs (in_ref i) k = Some iv ->
  exists o hi lo la co ch cl ca, c_open (fs_heap fs) f iv = Ok o /\ c_high (fs_heap fs) f iv = Ok hi /\ c_low (fs_heap fs) f iv = Ok lo /\ candle_last iv = Ok la /\
    decimal co o /\ decimal ch hi /\ decimal cl lo /\ decimal ca la /\ (cl <= co <= ch)%Z /\ (cl <= ca <= ch)%Z /\
    Rabs (real (candle_height hi lo) - IZR (ch - cl) / 100) <= / 2 ^ 18 /\
    if ((co =? 0) || (ca =? 0))%Z then candle_head o hi la = None /\ candle_body o la = None /\ candle_tail o lo la = None /\ candle_color o la = None
    else exists hd bd tl, candle_head o hi la = Some hd /\ candle_body o la = Some bd /\ candle_tail o lo la = Some tl /\
      decimal (ch - Z.max co ca) hd /\ decimal (Z.abs (co - ca)) bd /\ decimal (Z.min co ca - cl) tl /\
      candle_color o la = Some (if (co <? ca)%Z then GREEN else if (ca <? co)%Z then RED else BLACK).
Proof. exact program_geometry_b64. Qed.
Print Assumptions C39_any_program_b64.
(** C40, quotes up to 2^27. *)
Theorem C40_any_program_b64 : forall pr ops fid i (fs : fset b64) k f iv, (1 <= fs_max fs)%Z -> in_kind i = KCandle true ->
  (forall eid tk, OTick eid tk ∈ ops -> quotes_within 27 tk) ->
  (forall j, OAddIndicator fid j ∈ ops -> in_ref j = in_ref i -> j = i) -> w_fsets (run pr empty_world ops) !! fid = Some fs -> fs_heap fs !! k = Some f -> value_at fs (in_ref i) k = Some iv ->
  exists o la r cf ch cl cc co ca, c_open (fs_heap fs) f iv = Ok o /\ candle_last iv = Ok la /\ previous_value fs (in_ref i) k r /\
    decimal cf (tk_value (iv_first iv)) /\ decimal ch (tk_value (iv_high iv)) /\ decimal cl (tk_value (iv_low iv)) /\ decimal cc (tk_value (iv_last iv)) /\
    decimal co o /\ decimal ca la /\ (Z.abs (4 * ca - (cf + ch + cl + cc)) <= 2)%Z /\
    match r with
    | None => co = cf
    | Some (j, pv) => exists pf po pl cpo cpl, fs_heap fs !! j = Some pf /\ c_open (fs_heap fs) pf pv = Ok po /\ candle_last pv = Ok pl /\
        decimal cpo po /\ decimal cpl pl /\ (Z.abs (2 * co - (cpo + cpl)) <= 1)%Z
    end.
Proof. exact program_heikin_b64. Qed.
Print Assumptions C40_any_program_b64.
(** C41. *)
Theorem C41_any_program_b64 : forall e pr ops fid i mp (fs : fset b64) k f iv p, (0 <= e)%Z -> (1 <= fs_max fs)%Z -> in_kind i = KSMA mp -> in_mopen i = false ->
  (forall eid tk, OTick eid tk ∈ ops -> quotes_within e tk) -> (forall j, OAddIndicator fid j ∈ ops -> in_ref j = in_ref i -> j = i) -> w_fsets (run pr empty_world ops) !! fid = Some fs -> fs_heap fs !! k = Some f -> value_at fs (in_ref i) k = Some iv ->
  (1 <= p <= mp)%Z -> (p <= 1000)%Z -> (p * 2 ^ (e + 1) <= 2 ^ 30)%Z ->
  exists s lc, valued_from fs (in_ref i) s /\ (s <= k)%nat /\ iv_data iv = DSMA lc /\
    if (Z.of_nat (S k - s) <? p)%Z then sma_value f lc p = Ok None
    else exists v m ks, sma_value f lc p = Ok (Some v) /\ Forall2 decimal ks (window (Z.to_nat p) k (closes fs)) /\ decimal m v /\ (2 * Z.abs (m * p - SpecTrade.total ks) <= p)%Z /\
      exists x y, x ∈ window (Z.to_nat p) k (closes fs) /\ y ∈ window (Z.to_nat p) k (closes fs) /\ real x <= real v <= real y.
Proof. exact program_sma_b64. Qed.
Print Assumptions C41_any_program_b64.
(** C42, quotes up to 2^800. *)
Theorem C42_any_program_b64 : forall pr ops fid i p o (fs : fset b64) k iv, (2 <= fs_max fs)%Z -> (2 <= p * fs_q fs < 2 ^ 53)%Z -> in_kind i = KRSI p o -> in_mopen i = false ->
  (forall j, OAddIndicator fid j ∈ ops -> in_ref j = in_ref i -> j = i) -> (forall eid tk, OTick eid tk ∈ ops -> quotes_within 800 tk) -> charts_fine pr empty_world ops -> w_fsets (run pr empty_world ops) !! fid = Some fs -> value_at fs (in_ref i) k = Some iv ->
  exists s lc v, valued_from fs (in_ref i) s /\ (s <= k)%nat /\ iv_data iv = DRSI (p * fs_q fs) lc v /\
    if (S k - (s - 1) <=? Z.to_nat (p * fs_q fs))%nat then v = None
    else exists x, v = Some x /\ is_finite x = true /\ 0 <= real x <= 100.
Proof. exact program_rsi_b64. Qed.
Print Assumptions C42_any_program_b64.
(** C42, quotes up to 2^20: the value. *)
Theorem C42_value_any_program_b64 : forall pr ops fid i p o (fs : fset b64) k iv, (2 <= fs_max fs)%Z -> (2 <= p * fs_q fs <= 2 ^ 20)%Z -> in_kind i = KRSI p o -> in_mopen i = false ->
  (forall j, OAddIndicator fid j ∈ ops -> in_ref j = in_ref i -> j = i) -> (forall eid tk, OTick eid tk ∈ ops -> quotes_within 20 tk) -> charts_fine pr empty_world ops -> w_fsets (run pr empty_world ops) !! fid = Some fs -> value_at fs (in_ref i) k = Some iv ->
  exists s lc v, valued_from fs (in_ref i) s /\ (s <= k)%nat /\ iv_data iv = DRSI (p * fs_q fs) lc v /\
    if (S k - (s - 1) <=? Z.to_nat (p * fs_q fs))%nat then v = None
    else exists x m ks, v = Some x /\ Forall2 decimal ks (window (S (Z.to_nat (p * fs_q fs))) k (closes fs)) /\ decimal m x /\ rsi_cents ks m /\ (0 <= m <= 10000)%Z.
Proof. exact program_rsi_value_b64. Qed.
Print Assumptions C42_value_any_program_b64.
(** C43, HLC pivots. *)
Theorem C43_any_program_b64 : forall pr ops fid i (fs : fset b64) k f iv, (1 <= fs_max fs)%Z -> in_kind i = KPivot false -> (forall eid tk, OTick eid tk ∈ ops -> quotes_within 27 tk) ->
  (forall j, OAddIndicator fid j ∈ ops -> in_ref j = in_ref i -> j = i) -> w_fsets (run pr empty_world ops) !! fid = Some fs -> fs_heap fs !! k = Some f -> value_at fs (in_ref i) k = Some iv ->
  exists r, previous_value fs (in_ref i) k r /\
    match r with
    | None => pivot (fs_heap fs) f iv = Ok None /\ pivot_levels (fs_heap fs) f iv None None None None None None
    | Some (j, pv) => exists ch cl cc m p,
        decimal ch (tk_value (iv_high pv)) /\ decimal cl (tk_value (iv_low pv)) /\ decimal cc (tk_value (iv_last pv)) /\ (cl <= cc <= ch)%Z /\
        pivot (fs_heap fs) f iv = Ok (Some p) /\ decimal m p /\ (Z.abs (3 * m - (ch + cl + cc)) <= 1)%Z /\
        if (m =? 0)%Z then pivot_levels (fs_heap fs) f iv None None None None None None
        else exists s3 s2 s1 r1 r2 r3, pivot_levels (fs_heap fs) f iv (Some s3) (Some s2) (Some s1) (Some r1) (Some r2) (Some r3) /\
          decimal (cl - 2 * (ch - m)) s3 /\ decimal (m - (ch - cl)) s2 /\ decimal (2 * m - ch) s1 /\
          decimal (2 * m - cl) r1 /\ decimal (m + (ch - cl)) r2 /\ decimal (ch + 2 * (m - cl)) r3 /\
          real s3 <= real s2 /\ real s2 <= real s1 /\ real s1 <= real p /\ real p <= real r1 /\ real r1 <= real r2 /\ real r2 <= real r3
    end.
Proof. exact program_pivot_b64. Qed.
Print Assumptions C43_any_program_b64.
(** C43, OLHC pivots. *)
Theorem C43_olhc_any_program_b64 : forall pr ops fid i (fs : fset b64) k f iv, (1 <= fs_max fs)%Z -> in_kind i = KPivot true ->
  (forall eid tk, OTick eid tk ∈ ops -> quotes_within 27 tk) ->
  (forall j, OAddIndicator fid j ∈ ops -> in_ref j = in_ref i -> j = i) -> w_fsets (run pr empty_world ops) !! fid = Some fs -> fs_heap fs !! k = Some f -> value_at fs (in_ref i) k = Some iv ->
  exists r, previous_value fs (in_ref i) k r /\
    match r with
    | None => pivot (fs_heap fs) f iv = Ok None /\ pivot_levels (fs_heap fs) f iv None None None None None None
    | Some (j, pv) => exists ch cl cc co m p,
        decimal ch (tk_value (iv_high pv)) /\ decimal cl (tk_value (iv_low pv)) /\ decimal cc (tk_value (iv_last pv)) /\ decimal co (tk_value (iv_first iv)) /\ (cl <= cc <= ch)%Z /\
        pivot (fs_heap fs) f iv = Ok (Some p) /\ decimal m p /\ (Z.abs (4 * m - (ch + cl + cc + co)) <= 2)%Z /\
        if (m =? 0)%Z then pivot_levels (fs_heap fs) f iv None None None None None None
        else exists s3 s2 s1 r1 r2 r3, pivot_levels (fs_heap fs) f iv (Some s3) (Some s2) (Some s1) (Some r1) (Some r2) (Some r3) /\
          decimal (cl - 2 * (ch - m)) s3 /\ decimal (m - (ch - cl)) s2 /\ decimal (2 * m - ch) s1 /\
          decimal (2 * m - cl) r1 /\ decimal (m + (ch - cl)) r2 /\ decimal (ch + 2 * (m - cl)) r3 /\
          ((cl <= co <= ch)%Z ->
             real s3 <= real s2 /\ real s2 <= real s1 /\ real s1 <= real p /\ real p <= real r1 /\ real r1 <= real r2 /\ real r2 <= real r3)
    end.
Proof. exact program_olhc_b64. Qed.
Print Assumptions C43_olhc_any_program_b64.

(** Two one-minute frames, mid prices around 10. *)
Definition ind79 (r : string) (k : ikind b64) : indicator b64 := {| in_ref := r; in_mopen := false; in_kind := k |}.
Definition tk79 (s k : Z) : op b64 := OTick 0 {| tk_dt := arrow_of_utc tz_UTC (s * 1000000); tk_bid := dec k; tk_ask := dec (k + 2) |}.
Definition idle79 : programs b64 := fun _ _ _ _ => SDone.
Definition ops79 : list (op b64) :=
  [ONewEpic "A" (Some tz_UTC) 0 86399999999 None None None; ONewFrameSet MINUTE 1 "M1" 10; OAddFrameSet 0 0;
   OAddIndicator 0 (ind79 "jp" (KCandle false)); OAddIndicator 0 (ind79 "sma" (KSMA 2)); OAddIndicator 0 (ind79 "rsi" (KRSI 2 None)); OAddIndicator 0 (ind79 "pv" (KPivot false));
   tk79 1600086400 1000; tk79 1600086460 1010].
Example C38_ex_any_program_b64 : charts_fine idle79 empty_world ops79 /\ (forall eid tk, OTick eid tk ∈ ops79 -> quotes_within 20 tk) /\
  (forall j, OAddIndicator 0 j ∈ ops79 -> in_ref j = "jp"%string -> j = ind79 "jp" (KCandle false)) /\
  match w_fsets (run idle79 empty_world ops79) !! 0%nat with
  | Some fs => fs_max fs = 10%Z /\ length (fs_heap fs) = 2%nat /\
      map (fun r => match value_at fs r 1 with Some _ => true | None => false end) ["jp"%string; "sma"%string; "rsi"%string; "pv"%string] = replicate 4 true
  | None => False
  end.
Proof.
  split; [repeat (split; [first [exact Logic.I|vm_compute; reflexivity]|]); exact Logic.I|].
  split.
  { intros eid tk Hj. unfold ops79 in Hj. repeat (apply elem_of_cons in Hj as [Hj|Hj]; [try discriminate Hj|]); [| |now apply elem_of_nil in Hj]; unfold tk79 in Hj; injection Hj as -> ->; split;
      apply dec_small; first [lia|vm_compute; discriminate]. }
  split; [intros j Hj Hr; unfold ops79 in Hj; repeat (apply elem_of_cons in Hj as [Hj|Hj]; [first [discriminate Hj|injection Hj as ->; first [reflexivity|discriminate Hr]]|]); now apply elem_of_nil in Hj|].
  vm_compute. repeat split; reflexivity.
Qed.
