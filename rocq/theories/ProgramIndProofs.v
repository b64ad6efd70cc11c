(** Values of indicators in whole programs. *)
From Verif Require Export ProgramHistProofs IndicatorFinalProofs OlhcProofs.
Open Scope Z_scope.

Lemma program_candles : forall pr ops fid i ha (fs : fset Q) k f iv, 1 <= fs_max fs -> in_kind i = KCandle ha ->
  (forall j, OAddIndicator fid j ∈ ops -> in_ref j = in_ref i -> j = i) -> w_fsets (run pr empty_world ops) !! fid = Some fs -> fs_heap fs !! k = Some f -> value_at fs (in_ref i) k = Some iv ->
  exists o hi lo la, c_open (fs_heap fs) f iv = Ok o /\ c_high (fs_heap fs) f iv = Ok hi /\ c_low (fs_heap fs) f iv = Ok lo /\ candle_last iv = Ok la /\
    (lo <= o /\ lo <= la /\ o <= hi /\ la <= hi)%Q.
Proof.
  intros. destruct (run_hist pr ops fid fs (only i) any_tick) as (u & ref & fs0 & _ & Hinit & Hhist); [assumption|intros; exact Logic.I|assumption|].
  eapply (candle_prices u (fs_q fs) ref (fs_max fs)); eauto.
Qed.
Lemma program_geometry : forall pr ops fid (fs : fset Q) k f r iv o hi lo la, 1 <= fs_max fs ->
  w_fsets (run pr empty_world ops) !! fid = Some fs -> fs_heap fs !! k = Some f -> value_at fs r k = Some iv ->
  c_open (fs_heap fs) f iv = Ok o -> c_high (fs_heap fs) f iv = Ok hi -> c_low (fs_heap fs) f iv = Ok lo -> candle_last iv = Ok la ->
  ((~ o == 0 -> ~ la == 0 ->
    (exists hd bd tl, candle_head o hi la = Some hd /\ candle_body o la = Some bd /\ candle_tail o lo la = Some tl /\
       0 <= hd /\ 0 <= bd /\ 0 <= tl /\ hd + bd + tl == candle_height hi lo) /\
    (candle_color o la = Some GREEN <-> o < la) /\ (candle_color o la = Some RED <-> la < o) /\ (candle_color o la = Some BLACK <-> o == la)) /\
  (o == 0 \/ la == 0 -> candle_head o hi la = None /\ candle_body o la = None /\ candle_tail o lo la = None /\ candle_color o la = None))%Q.
Proof.
  intros. destruct (run_hist pr ops fid fs (fun _ => True) any_tick) as (u & ref & fs0 & _ & Hinit & Hhist); [intros; exact Logic.I|intros; exact Logic.I|assumption|].
  eapply (candle_geometry u (fs_q fs) ref (fs_max fs)); eauto.
Qed.
Lemma program_heikin : forall pr ops fid i (fs : fset Q) k f iv, 1 <= fs_max fs -> in_kind i = KCandle true ->
  (forall j, OAddIndicator fid j ∈ ops -> in_ref j = in_ref i -> j = i) -> w_fsets (run pr empty_world ops) !! fid = Some fs -> fs_heap fs !! k = Some f -> value_at fs (in_ref i) k = Some iv ->
  exists o la r, c_open (fs_heap fs) f iv = Ok o /\ candle_last iv = Ok la /\ previous_value fs (in_ref i) k r /\
    round_cent ((tk_value (iv_first iv) + tk_value (iv_high iv) + tk_value (iv_low iv) + tk_value (iv_last iv)) / 4)%Q la /\
    match r with
    | None => round_cent (tk_value (iv_first iv)) o
    | Some (j, pv) => exists pf po pl, fs_heap fs !! j = Some pf /\ c_open (fs_heap fs) pf pv = Ok po /\ candle_last pv = Ok pl /\ round_cent ((po + pl) / 2)%Q o
    end.
Proof.
  intros. destruct (run_hist pr ops fid fs (only i) any_tick) as (u & ref & fs0 & _ & Hinit & Hhist); [assumption|intros; exact Logic.I|assumption|].
  eapply (ha_recurrence u (fs_q fs) ref (fs_max fs)); eauto.
Qed.
Lemma program_sma : forall pr ops fid i mp (fs : fset Q) k f iv p, 1 <= fs_max fs -> in_kind i = KSMA mp -> in_mopen i = false ->
  (forall j, OAddIndicator fid j ∈ ops -> in_ref j = in_ref i -> j = i) -> w_fsets (run pr empty_world ops) !! fid = Some fs -> fs_heap fs !! k = Some f -> value_at fs (in_ref i) k = Some iv -> 1 <= p <= mp ->
  exists s lc, valued_from fs (in_ref i) s /\ (s <= k)%nat /\ iv_data iv = DSMA lc /\
    if Z.of_nat (S k - s) <? p then sma_value f lc p = Ok None
    else exists v, sma_value f lc p = Ok (Some v) /\ round_cent (mean (window (Z.to_nat p) k (closes fs))) v.
Proof.
  intros. destruct (run_hist pr ops fid fs (only i) any_tick) as (u & ref & fs0 & _ & Hinit & Hhist); [assumption|intros; exact Logic.I|assumption|].
  eapply (sma_hist_Q u (fs_q fs) ref (fs_max fs)); eauto.
Qed.
Lemma program_rsi : forall pr ops fid i p o (fs : fset Q) k iv, 2 <= fs_max fs -> 2 <= p * fs_q fs -> in_kind i = KRSI p o -> in_mopen i = false ->
  (forall j, OAddIndicator fid j ∈ ops -> in_ref j = in_ref i -> j = i) -> charts_fine pr empty_world ops -> w_fsets (run pr empty_world ops) !! fid = Some fs -> value_at fs (in_ref i) k = Some iv ->
  exists s lc v, valued_from fs (in_ref i) s /\ (s <= k)%nat /\ iv_data iv = DRSI (p * fs_q fs) lc v /\
    if (S k - (s - 1) <=? Z.to_nat (p * fs_q fs))%nat then v = None
    else exists x, v = Some x /\ rsi_of (window (S (Z.to_nat (p * fs_q fs))) k (closes fs)) x /\ (0 <= x <= 100)%Q.
Proof.
  intros. destruct (run_hist_fine pr ops fid fs (only i) no_exn) as (u & ref & fs0 & _ & Hinit & Hhist); [assumption|intros; reflexivity|assumption|assumption|].
  eapply (rsi_hist_Q u (fs_q fs) ref (fs_max fs)); eauto.
Qed.
Lemma program_pivot : forall pr ops fid i (fs : fset Q) k f iv, 1 <= fs_max fs -> in_kind i = KPivot false ->
  (forall j, OAddIndicator fid j ∈ ops -> in_ref j = in_ref i -> j = i) -> w_fsets (run pr empty_world ops) !! fid = Some fs -> fs_heap fs !! k = Some f -> value_at fs (in_ref i) k = Some iv ->
  exists r, previous_value fs (in_ref i) k r /\
    match r with
    | None => pivot (fs_heap fs) f iv = Ok None /\ pivot_levels (fs_heap fs) f iv None None None None None None
    | Some (j, pv) =>
        let h := tk_value (iv_high pv) in let l := tk_value (iv_low pv) in let c := tk_value (iv_last pv) in
        exists p, pivot (fs_heap fs) f iv = Ok (Some p) /\ round_cent ((h + l + c) / 3)%Q p /\
          ((p == 0)%Q -> pivot_levels (fs_heap fs) f iv None None None None None None) /\
          (~ (p == 0)%Q -> exists s3 s2 s1 r1 r2 r3, pivot_levels (fs_heap fs) f iv (Some s3) (Some s2) (Some s1) (Some r1) (Some r2) (Some r3) /\
             (s1 == 2 * p - h /\ s2 == p - (h - l) /\ s3 == l - 2 * (h - p) /\ r1 == 2 * p - l /\ r2 == p + (h - l) /\ r3 == h + 2 * (p - l) /\
              s3 <= s2 /\ s2 <= s1 /\ s1 <= p /\ p <= r1 /\ r1 <= r2 /\ r2 <= r3)%Q)
    end.
Proof.
  intros. destruct (run_hist pr ops fid fs (only i) any_tick) as (u & ref & fs0 & _ & Hinit & Hhist); [assumption|intros; exact Logic.I|assumption|].
  eapply (hist_pivot u (fs_q fs) ref (fs_max fs)); eauto.
Qed.
Lemma program_olhc : forall pr ops fid i (fs : fset Q) k f iv, 1 <= fs_max fs -> in_kind i = KPivot true ->
  (forall j, OAddIndicator fid j ∈ ops -> in_ref j = in_ref i -> j = i) -> w_fsets (run pr empty_world ops) !! fid = Some fs -> fs_heap fs !! k = Some f -> value_at fs (in_ref i) k = Some iv ->
  exists r, previous_value fs (in_ref i) k r /\
    match r with
    | None => pivot (fs_heap fs) f iv = Ok None /\ pivot_levels (fs_heap fs) f iv None None None None None None
    | Some (j, pv) =>
        let h := tk_value (iv_high pv) in let l := tk_value (iv_low pv) in let c := tk_value (iv_last pv) in let o := tk_value (iv_first iv) in
        exists p, pivot (fs_heap fs) f iv = Ok (Some p) /\ round_cent ((h + l + c + o) / 4)%Q p /\
          ((p == 0)%Q -> pivot_levels (fs_heap fs) f iv None None None None None None) /\
          (~ (p == 0)%Q -> exists s3 s2 s1 r1 r2 r3, pivot_levels (fs_heap fs) f iv (Some s3) (Some s2) (Some s1) (Some r1) (Some r2) (Some r3) /\
             (s1 == 2 * p - h /\ s2 == p - (h - l) /\ s3 == l - 2 * (h - p) /\ r1 == 2 * p - l /\ r2 == p + (h - l) /\ r3 == h + 2 * (p - l) /\
              (s3 <= s2 /\ s2 <= s1 /\ s1 <= p /\ p <= r1 /\ r1 <= r2 /\ r2 <= r3 <-> l <= p <= h))%Q) /\
          (l <= o <= h -> l <= p <= h)%Q
    end.
Proof.
  intros. destruct (run_hist pr ops fid fs (only i) any_tick) as (u & ref & fs0 & _ & Hinit & Hhist); [assumption|intros; exact Logic.I|assumption|].
  eapply (hist_olhc u (fs_q fs) ref (fs_max fs)); eauto.
Qed.
