(** Properties of indicators: candles (C38-C40), moving average (C41), relative strength (C42),
    pivots (C43), market_open_only (C44). *)
From Verif Require Import IndicatorFinalProofs OlhcProofs IndicatorExamples TightenProofs.
Open Scope Z_scope.

(** C38: in every history of a frame set every candle (Japanese or Heikin Ashi) has its four prices, and low is below
    open and last, which are below high.  [T] is any condition on ticks and outcomes. *)
Theorem C38_candle_order : forall u q ref mx i ha T fs0 (fs : fset Q) k f iv, 1 <= mx -> in_kind i = KCandle ha ->
  fset_init u q ref mx = Ok fs0 -> fs_hist (only i) T fs0 fs -> fs_heap fs !! k = Some f -> value_at fs (in_ref i) k = Some iv ->
  exists o hi lo la, c_open (fs_heap fs) f iv = Ok o /\ c_high (fs_heap fs) f iv = Ok hi /\ c_low (fs_heap fs) f iv = Ok lo /\ candle_last iv = Ok la /\
    (lo <= o /\ lo <= la /\ o <= hi /\ la <= hi)%Q.
Proof. exact candle_prices. Qed.
Print Assumptions C38_candle_order.

(** The closing price of a candle in memory is not known while its frame is the current one, and its last price afterwards. *)
Theorem C38_close : forall {F} `{Num F} mx (fs : fset F) j id f iv la, 1 <= mx -> fs_reach mx fs -> fs_frames fs !! j = Some id ->
  fs_heap fs !! id = Some f -> candle_last iv = Ok la ->
  (fs_current_id fs = Some id -> c_close f iv = Ok None) /\ (fs_current_id fs <> Some id -> c_close f iv = Ok (Some la)).
Proof. exact @close_price. Qed.
Print Assumptions C38_close.
Example C38_ex_close : let fs := run_ex jp 2 3 in fs_frames fs = [2; 3; 4]%nat /\ fs_current_id fs = Some 4%nat /\
  map (fun k => match fs_heap fs !! k, value_at fs "jp" k with Some f, Some iv => match c_close f iv, candle_last iv with Ok c, Ok l => Some (Qred <$> c, Qred l) | _, _ => None end | _, _ => None end) [3; 4]%nat =
    [Some (Some (253 # 25), 253 # 25); Some (None, 1013 # 100)]%Q.
Proof. split; [computes|]. split; computes. Qed.

Example C38_ex : let fs := run_ex ha 2 10 in fs_hist (only ha) no_exn (fs0 MINUTE 2 10) fs /\
  map (prices fs "ha") [0; 1; 2; 3]%nat =
    [Ok (10, 10, 10, 10); Ok (10, 1003 # 100, 499 # 50, 10); Ok (10, 101 # 10, 10, 503 # 50); Ok (1003 # 100, 253 # 25, 1003 # 100, 101 # 10)]%Q.
Proof. split; [apply with_ind_hist; computes|computes]. Qed.
Example C38_ex_japanese : let fs := run_ex jp 2 2 in fs_hist (only jp) no_exn (fs0 MINUTE 2 2) fs /\
  map (prices fs "jp") [0; 1; 2; 3]%nat =
    [Ok (10, 10, 10, 10); Ok (1003 # 100, 1003 # 100, 499 # 50, 499 # 50); Ok (1001 # 100, 101 # 10, 1001 # 100, 101 # 10); Ok (1007 # 100, 253 # 25, 1007 # 100, 253 # 25)]%Q.
Proof. split; [apply with_ind_hist; computes|computes]. Qed.

(** C39: head, body and tail are non-negative and sum to the height, and the color compares last to open, when open and
    last are not 0; otherwise they are None. *)
Theorem C39_geometry : forall u q ref mx (I : indicator Q -> Prop) T fs0 (fs : fset Q) k f r iv o hi lo la, 1 <= mx ->
  fset_init u q ref mx = Ok fs0 -> fs_hist I T fs0 fs -> fs_heap fs !! k = Some f -> value_at fs r k = Some iv ->
  c_open (fs_heap fs) f iv = Ok o -> c_high (fs_heap fs) f iv = Ok hi -> c_low (fs_heap fs) f iv = Ok lo -> candle_last iv = Ok la ->
  ((~ o == 0 -> ~ la == 0 ->
    (exists hd bd tl, candle_head o hi la = Some hd /\ candle_body o la = Some bd /\ candle_tail o lo la = Some tl /\
       0 <= hd /\ 0 <= bd /\ 0 <= tl /\ hd + bd + tl == candle_height hi lo) /\
    (candle_color o la = Some GREEN <-> o < la) /\ (candle_color o la = Some RED <-> la < o) /\ (candle_color o la = Some BLACK <-> o == la)) /\
  (o == 0 \/ la == 0 -> candle_head o hi la = None /\ candle_body o la = None /\ candle_tail o lo la = None /\ candle_color o la = None))%Q.
Proof. exact candle_geometry. Qed.
Print Assumptions C39_geometry.

(** A green candle, and a candle that opens at 0. *)
Example C39_ex_green : let fs := run_ex jp 4 5 in fs_hist (only jp) no_exn (fs0 MINUTE 4 5) fs /\
  prices fs "jp" 1 = Ok (1003 # 100, 101 # 10, 499 # 50, 101 # 10)%Q /\
  candle_color (F:=Q) (1003 # 100) (101 # 10) = Some GREEN /\ candle_head (F:=Q) (1003 # 100) (101 # 10) (101 # 10) = Some (0 # 1)%Q /\
  candle_body (F:=Q) (1003 # 100) (101 # 10) = Some (7 # 100)%Q /\ candle_tail (F:=Q) (1003 # 100) (499 # 50) (101 # 10) = Some (1 # 20)%Q.
Proof. split; [apply with_ind_hist; computes|]. repeat split; computes. Qed.
Example C39_ex_zero : let fs := with_ind jp MINUTE 4 5 (minutes w_leap [0; 5]) in fs_hist (only jp) no_exn (fs0 MINUTE 4 5) fs /\
  prices fs "jp" 0 = Ok (0, 0, 0, 0)%Q.
Proof. split; [apply with_ind_hist; computes|]. computes. Qed.

(** C40: the recurrence of Heikin Ashi candles. *)
Theorem C40_recurrence : forall u q ref mx i T fs0 (fs : fset Q) k f iv, 1 <= mx -> in_kind i = KCandle true ->
  fset_init u q ref mx = Ok fs0 -> fs_hist (only i) T fs0 fs -> fs_heap fs !! k = Some f -> value_at fs (in_ref i) k = Some iv ->
  exists o la r, c_open (fs_heap fs) f iv = Ok o /\ candle_last iv = Ok la /\ previous_value fs (in_ref i) k r /\
    round_cent ((tk_value (iv_first iv) + tk_value (iv_high iv) + tk_value (iv_low iv) + tk_value (iv_last iv)) / 4)%Q la /\
    match r with
    | None => round_cent (tk_value (iv_first iv)) o
    | Some (j, pv) => exists pf po pl, fs_heap fs !! j = Some pf /\ c_open (fs_heap fs) pf pv = Ok po /\ candle_last pv = Ok pl /\ round_cent ((po + pl) / 2)%Q o
    end.
Proof. exact ha_recurrence. Qed.
Print Assumptions C40_recurrence.
(** The open of a closed candle changes only when a frame leaves the memory. *)
Theorem C40_stable_in_memory : forall {F} `{Num F} u q ref mx i (T T' : tick F -> res unit -> Prop) fs0 fs fs' k f f' iv, 1 <= mx -> in_kind i = KCandle true ->
  fset_init u q ref mx = Ok fs0 -> fs_hist (only i) T fs0 fs -> fs_hist (only i) T' fs fs' ->
  (length (fs_heap fs) - length (fs_frames fs) = length (fs_heap fs') - length (fs_frames fs'))%nat ->
  (S k < length (fs_heap fs))%nat -> fs_heap fs !! k = Some f -> fs_heap fs' !! k = Some f' -> value_at fs (in_ref i) k = Some iv ->
  value_at fs' (in_ref i) k = Some iv /\ c_open (fs_heap fs') f' iv = c_open (fs_heap fs) f iv.
Proof. exact @ha_stable. Qed.
Print Assumptions C40_stable_in_memory.
(** Finding: once an older frame is evicted the open of a closed candle changes. *)
Theorem C40_stable_refuted : exists i (fs fs' : fset Q) k f f' iv o o', in_kind i = KCandle true /\
  fs_hist (only i) no_exn (fs0 MINUTE 1 3) fs /\ fs_hist (only i) no_exn fs fs' /\
  fs_heap fs !! k = Some f /\ fr_next f <> None /\ fs_heap fs' !! k = Some f' /\ fr_next f' <> None /\
  value_at fs (in_ref i) k = Some iv /\ value_at fs' (in_ref i) k = Some iv /\
  c_open (fs_heap fs) f iv = Ok o /\ c_open (fs_heap fs') f' iv = Ok o' /\ ~ (o == o')%Q.
Proof. exact ha_unstable. Qed.
Print Assumptions C40_stable_refuted.

(** Frame 1 opens at the mean of 10 and 10, frame 2 at the mean of 10 and 10, frame 3 at the mean of 10 and 10.06. *)
Example C40_ex : let fs := run_ex ha 2 10 in fs_hist (only ha) no_exn (fs0 MINUTE 2 10) fs /\
  map (fun k => ticks4 (val fs "ha" k)) [1; 2; 3]%nat = [(1003 # 100, 1003 # 100, 499 # 50, 499 # 50); (1001 # 100, 101 # 10, 1001 # 100, 101 # 10); (1007 # 100, 253 # 25, 1007 # 100, 253 # 25)]%Q /\
  map (fun k => c_open (fs_heap fs) (frame_at fs k) (val fs "ha" k)) [1; 2; 3]%nat = [Ok 10; Ok 10; Ok (1003 # 100)]%Q.
Proof. split; [apply with_ind_hist; computes|]. split; computes. Qed.

(** C41: registered before the first tick, the moving average of [p] periods on frame [k] is the rounded mean of the closing
    values of frames k-p+1 .. k, None exactly on the first p-1 frames, whatever the memory size. *)
Theorem C41_sma : forall u q ref mx i mp T fs0 (fs : fset Q) k f p, 1 <= mx -> in_kind i = KSMA mp -> in_mopen i = false ->
  fset_init u q ref mx = Ok fs0 -> fs_hist (only i) T (fst (add_indicator fs0 i)) fs -> fs_heap fs !! k = Some f -> 1 <= p <= mp ->
  exists iv lc, value_at fs (in_ref i) k = Some iv /\ iv_data iv = DSMA lc /\
    (Z.of_nat (S k) < p -> sma_value f lc p = Ok None) /\
    (p <= Z.of_nat (S k) -> exists v, sma_value f lc p = Ok (Some v) /\ round_cent (mean (window (Z.to_nat p) k (closes fs))) v).
Proof. exact sma_first. Qed.
Print Assumptions C41_sma.
(** Registered at any time, the values belong to the frames from some frame [s] on, and the averages count the frames from [s] on. *)
Theorem C41_sma_registered_later : forall u q ref mx i mp (T : tick Q -> res unit -> Prop) fs0 fs k f iv p, 1 <= mx -> in_kind i = KSMA mp -> in_mopen i = false ->
  fset_init u q ref mx = Ok fs0 -> fs_hist (only i) T fs0 fs -> fs_heap fs !! k = Some f -> value_at fs (in_ref i) k = Some iv -> 1 <= p <= mp ->
  exists s lc, valued_from fs (in_ref i) s /\ (s <= k)%nat /\ iv_data iv = DSMA lc /\
    if Z.of_nat (S k - s) <? p then sma_value f lc p = Ok None
    else exists v, sma_value f lc p = Ok (Some v) /\ round_cent (mean (window (Z.to_nat p) k (closes fs))) v.
Proof. exact sma_hist_Q. Qed.
Print Assumptions C41_sma_registered_later.

Example C41_ex : let fs := run_ex (sma 3) 1 2 in fs_hist (only (sma 3)) no_exn (fst (add_indicator (fs0 MINUTE 1 2) (sma 3))) fs /\
  map (sma_of fs 3) [0; 1; 2; 3; 4; 5; 6; 7]%nat = [Ok None; Ok None; Ok (Some 10); Ok (Some (1001 # 100)); Ok (Some (1003 # 100)); Ok (Some (503 # 50)); Ok (Some (101 # 10)); Ok (Some (1011 # 100))]%Q.
Proof. split; [apply with_ind_hist0; computes|computes]. Qed.

(** C42 *)
Theorem C42_rsi : forall u q ref mx i p o (fs0 fs : fset Q) k, 2 <= mx -> 2 <= p * q -> in_kind i = KRSI p o -> in_mopen i = false ->
  fset_init u q ref mx = Ok fs0 -> fs_hist (only i) no_exn (fst (add_indicator fs0 i)) fs -> (k < length (fs_heap fs))%nat ->
  exists iv lc v, value_at fs (in_ref i) k = Some iv /\ iv_data iv = DRSI (p * q) lc v /\
    (Z.of_nat k < p * q -> v = None) /\
    (p * q <= Z.of_nat k -> exists x, v = Some x /\ rsi_of (window (S (Z.to_nat (p * q))) k (closes fs)) x /\ (0 <= x <= 100)%Q).
Proof. exact rsi_first. Qed.
Print Assumptions C42_rsi.
(** Registered at any time: the first value belongs to frame [s] and the first change considered is the one from frame s-1 to frame s. *)
Theorem C42_rsi_registered_later : forall u q ref mx i p o (fs0 fs : fset Q) k iv, 2 <= mx -> 2 <= p * q -> in_kind i = KRSI p o -> in_mopen i = false ->
  fset_init u q ref mx = Ok fs0 -> fs_hist (only i) no_exn fs0 fs -> value_at fs (in_ref i) k = Some iv ->
  exists s lc v, valued_from fs (in_ref i) s /\ (s <= k)%nat /\ iv_data iv = DRSI (p * q) lc v /\
    if (S k - (s - 1) <=? Z.to_nat (p * q))%nat then v = None
    else exists x, v = Some x /\ rsi_of (window (S (Z.to_nat (p * q))) k (closes fs)) x /\ (0 <= x <= 100)%Q.
Proof. exact rsi_hist_Q. Qed.
Print Assumptions C42_rsi_registered_later.

Example C42_ex : let fs := run_ex (rsi 3) 1 5 in fs_hist (only (rsi 3)) no_exn (fst (add_indicator (fs0 MINUTE 1 5) (rsi 3))) fs /\
  map (rsi_val fs) [0; 1; 2; 3; 4; 5; 6; 7]%nat = [None; None; None; Some (1091 # 20); Some (7059 # 100); Some (80 # 1); Some (1647 # 20); Some (6667 # 100)]%Q.
Proof. split; [apply with_ind_hist0; computes|computes]. Qed.

(** An RSI is refused exactly when its changes do not fit in the frames kept in memory; other indicators never are. *)
Theorem C42_memory_check : forall {F} `{Num F} pr (w : world F) fid fs i, w_fsets w !! fid = Some fs ->
  (forall p o, in_kind i = KRSI p o ->
    (p * fs_q fs <= fs_max fs -> snd (step pr w (OAddIndicator fid i)) = Ok ()) /\
    (fs_max fs < p * fs_q fs -> snd (step pr w (OAddIndicator fid i)) = Err BaseIndicatorException)) /\
  ((forall p o, in_kind i <> KRSI p o) -> snd (step pr w (OAddIndicator fid i)) = Ok ()).
Proof. exact @rsi_refused. Qed.
Print Assumptions C42_memory_check.
Example C42_memory_ex : exists fs : fset Q, fset_init HOUR 2 "H2" 10 = Ok fs /\ 5 * fs_q fs <= fs_max fs /\ fs_max fs < 6 * fs_q fs.
Proof. eexists. split; [reflexivity|]. simpl. lia. Qed.

(** Findings: a single change, a single frame in memory, no period. *)
Theorem C42_one_period_refuted : exists i p o (fs : fset Q), in_kind i = KRSI p o /\ p * 1 = 1 /\
  fs_hist (only i) no_exn (fst (add_indicator (fs0 MINUTE 1 5) i)) fs /\ map (rsi_val fs) [0; 1; 2; 3; 4; 5; 6; 7]%nat = [None; Some (100 # 1)%Q; None; None; None; None; None; None].
Proof. exact rsi_one. Qed.
Print Assumptions C42_one_period_refuted.
Theorem C42_one_frame_refuted : exists i p o (fs : fset Q), in_kind i = KRSI p o /\ 2 <= p * 1 /\
  fs_hist (only i) no_exn (fst (add_indicator (fs0 MINUTE 1 1) i)) fs /\ length (fs_heap fs) = 8%nat /\ map (rsi_val fs) [0; 1; 2; 3; 4; 5; 6; 7]%nat = replicate 8 None.
Proof. exact rsi_memory. Qed.
Print Assumptions C42_one_frame_refuted.
Theorem C42_no_period_refuted : exists i (fs : fset Q) tk, in_kind i = KRSI 0 None /\ fs = fst (add_indicator (fs0 MINUTE 1 5) i) /\ snd (add_indicator (fs0 MINUTE 1 5) i) = Ok () /\
  fs_on_new_tick 5 fs tk true None = (fs, Err BaseIndicatorException).
Proof. exact rsi_zero. Qed.
Print Assumptions C42_no_period_refuted.

(** C43 *)
Theorem C43_pivots : forall u q ref mx i T fs0 (fs : fset Q) k f iv, 1 <= mx -> in_kind i = KPivot false ->
  fset_init u q ref mx = Ok fs0 -> fs_hist (only i) T fs0 fs -> fs_heap fs !! k = Some f -> value_at fs (in_ref i) k = Some iv ->
  exists r, previous_value fs (in_ref i) k r /\
    match r with
    | None => pivot (fs_heap fs) f iv = Ok None /\ pivot_levels (fs_heap fs) f iv None None None None None None
    | Some (j, pv) =>
        let h := tk_value (iv_high pv) in let l := tk_value (iv_low pv) in let c := tk_value (iv_last pv) in
        exists p, pivot (fs_heap fs) f iv = Ok (Some p) /\ round_cent ((h + l + c) / 3)%Q p /\
          ((p == 0)%Q -> pivot_levels (fs_heap fs) f iv None None None None None None) /\
          (~ (p == 0)%Q -> exists s3 s2 s1 r1 r2 r3, pivot_levels (fs_heap fs) f iv (Some s3) (Some s2) (Some s1) (Some r1) (Some r2) (Some r3) /\
             (s1 == 2 * p - h /\ s2 == p - (h - l) /\ s3 == l - 2 * (h - p) /\ r1 == 2 * p - l /\ r2 == p + (h - l) /\ r3 == h + 2 * (p - l) /\
              s3 <= s2 /\ s2 <= s1 /\ s1 <= p /\ p <= r1 /\ r1 <= r2 /\ r2 <= r3)%Q)
    end.
Proof. exact hist_pivot. Qed.
Print Assumptions C43_pivots.

Example C43_ex : let fs := run_ex piv 2 5 in fs_hist (only piv) no_exn (fs0 MINUTE 2 5) fs /\
  levels fs "pv" 2 = [Ok (Some (248 # 25)); Ok (Some (199 # 20)); Ok (Some (997 # 100)); Ok (Some 10); Ok (Some (501 # 50)); Ok (Some (201 # 20)); Ok (Some (1007 # 100))]%Q.
Proof. split; [apply with_ind_hist; computes|computes]. Qed.
(** A pivot of exactly 0 has no levels. *)
Example C43_ex_zero : let fs := with_ind piv MINUTE 1 5 (minutes w_leap [0; 5]) in fs_hist (only piv) no_exn (fs0 MINUTE 1 5) fs /\
  levels fs "pv" 1 = [Ok None; Ok None; Ok None; Ok (Some 0); Ok None; Ok None; Ok None]%Q.
Proof. split; [apply with_ind_hist; computes|computes]. Qed.
(** OLHC pivots: the mean includes the open of the current frame; the levels are in order exactly when the pivot is in the previous
    range, in particular when the open is. *)
Theorem C43_olhc : forall u q ref mx i T fs0 (fs : fset Q) k f iv, 1 <= mx -> in_kind i = KPivot true ->
  fset_init u q ref mx = Ok fs0 -> fs_hist (only i) T fs0 fs -> fs_heap fs !! k = Some f -> value_at fs (in_ref i) k = Some iv ->
  exists r, previous_value fs (in_ref i) k r /\
    match r with
    | None => pivot (fs_heap fs) f iv = Ok None /\ pivot_levels (fs_heap fs) f iv None None None None None None
    | Some (j, pv) =>
        let h := tk_value (iv_high pv) in let l := tk_value (iv_low pv) in let c := tk_value (iv_last pv) in let o := tk_value (iv_first iv) in
        exists p, pivot (fs_heap fs) f iv = Ok (Some p) /\ round_cent ((h + l + c + o) / 4)%Q p /\
          ((p == 0)%Q -> pivot_levels (fs_heap fs) f iv None None None None None None) /\
          (~ (p == 0)%Q -> exists s3 s2 s1 r1 r2 r3, pivot_levels (fs_heap fs) f iv (Some s3) (Some s2) (Some s1) (Some r1) (Some r2) (Some r3) /\
             (s1 == 2 * p - h /\ s2 == p - (h - l) /\ s3 == l - 2 * (h - p) /\ r1 == 2 * p - l /\ r2 == p + (h - l) /\ r3 == h + 2 * (p - l) /\
              (s3 <= s2 /\ s2 <= s1 /\ s1 <= p /\ p <= r1 /\ r1 <= r2 /\ r2 <= r3 <-> l <= p <= h))%Q) /\
          (l <= o <= h -> l <= p <= h)%Q
    end.
Proof. exact hist_olhc. Qed.
Print Assumptions C43_olhc.
(** High 11, low 10, close 11, open 10.40. *)
Example C43_ex_olhc : let fs := with_ind olhc MINUTE 2 5 (minutes w_leap [1050; 1000; 1100; 1040]) in fs_hist (only olhc) no_exn (fs0 MINUTE 2 5) fs /\
  map (rmap (option_map Qred)) (levels fs "pv" 2) = [Ok (Some (46 # 5)); Ok (Some (48 # 5)); Ok (Some (51 # 5)); Ok (Some (53 # 5)); Ok (Some (56 # 5)); Ok (Some (58 # 5)); Ok (Some (61 # 5))]%Q.
Proof. split; [apply with_ind_hist; computes|computes]. Qed.
(** Finding: OLHC pivots need not be ordered. *)
Theorem C43_olhc_refuted : exists i (fs : fset Q) k f iv p s1, in_kind i = KPivot true /\ fs_hist (only i) no_exn (fs0 MINUTE 2 5) fs /\
  fs_heap fs !! k = Some f /\ value_at fs (in_ref i) k = Some iv /\ pivot (fs_heap fs) f iv = Ok (Some p) /\ support1 (fs_heap fs) f iv = Ok (Some s1) /\ (p < s1)%Q.
Proof. exact olhc_unordered. Qed.
Print Assumptions C43_olhc_refuted.

(** C44: with an indicator registered before the first tick, every frame has a log of ticks with market flags, and the value of
    the indicator summarises the ticks of the log it listens to (all of them, or those with the market open). *)
Theorem C44_hears : forall {F} `{Num F} u q ref mx i G fs0 l rs fs, 1 <= mx -> fset_init u q ref mx = Ok fs0 ->
  fs_log (only i) G (fst (add_indicator fs0 i)) l rs fs -> comparable (map fst rs) ->
  length l = length (fs_heap fs) /\
  forall k b f, l !! k = Some b -> fs_heap fs !! k = Some f -> last (map fst b) = Some (fr_last f) /\ hears i b (value_at fs (in_ref i) k).
Proof. exact @log_hears. Qed.
Print Assumptions C44_hears.
(** When no frame is created for an empty period at an opening, an open-market indicator hears only ticks received with the
    market open. *)
Theorem C44_open_ticks_only : forall {F} `{Num F} u q ref mx i fs0 l rs fs b x, 1 <= mx -> fset_init u q ref mx = Ok fs0 -> in_mopen i = true ->
  fs_log (only i) no_gap_at_opening (fst (add_indicator fs0 i)) l rs fs -> b ∈ l -> x ∈ heard i b -> (x, true) ∈ rs.
Proof. exact @log_heard_open. Qed.
Print Assumptions C44_open_ticks_only.
(** The ticks heard determine the four ticks of the value, hence the prices of a Japanese candle. *)
Theorem C44_determined : forall {F} `{Num F} ts (iv iv' : ivalue F), isummary ts iv -> isummary ts iv' ->
  iv_first iv = iv_first iv' /\ iv_high iv = iv_high iv' /\ iv_low iv = iv_low iv' /\ iv_last iv = iv_last iv'.
Proof. exact @isummary_unique. Qed.
Print Assumptions C44_determined.

(** Ticks 1000 (open), 2000 (closed), 900 (open) in one frame, 800 (closed) in the next. *)
Definition ticks_oc : list (tick Q * bool) :=
  [(tk_at tz_UTC w_leap 1000, true); (tk_at tz_UTC (w_leap + US_MIN) 2000, false); (tk_at tz_UTC (w_leap + 2 * US_MIN) 900, true); (tk_at tz_UTC (w_leap + 15 * US_MIN) 800, false)].
Example C44_ex : let fs := with_ind jp_open_only MINUTE 15 5 ticks_oc in let l := log_of jp_open_only MINUTE 15 5 ticks_oc in
  fs_log (only jp_open_only) no_gap_at_opening (fst (add_indicator (fs0 MINUTE 15 5) jp_open_only)) l ticks_oc fs /\
  map length l = [3; 1]%nat /\ ticks4 (val fs "jp" 0) = (10, 10, 9, 9)%Q /\ (match value_at fs "jp" 1 with None => true | Some _ => false end) = true.
Proof.
  split; [|split; [computes|split; computes]]. apply with_ind_log; [computes|].
  repeat (cbn [feed_ok]; split; [unfold no_gap_at_opening; intros Hm; try discriminate Hm; vm_compute; lia|]). exact I.
Qed.

(** Findings: a frame created for an empty period at an opening; moving averages read the last tick of the frame. *)
Theorem C44_gap_refuted : exists i u q mx l rs (fs : fset Q) k iv, in_mopen i = true /\ 1 <= mx /\ check_unit u q = Ok () /\
  fs_log (only i) any_step (fst (add_indicator (fs0 u q mx) i)) l rs fs /\
  value_at fs (in_ref i) k = Some iv /\ (iv_last iv, true) ∉ rs.
Proof. exact gap_open_refuted. Qed.
Print Assumptions C44_gap_refuted.
Theorem C44_sma_refuted : exists i mp (rs rs' : list (tick Q * bool)) l l' (fs fs' : fset Q) f f' iv iv' lc lc', in_mopen i = true /\ in_kind i = KSMA mp /\ 1 <= mp /\
  fs_log (only i) any_step (fst (add_indicator (fs0 MINUTE 15 5) i)) l rs fs /\ fs_log (only i) any_step (fst (add_indicator (fs0 MINUTE 15 5) i)) l' rs' fs' /\
  List.filter snd rs = List.filter snd rs' /\ fs_heap fs !! 0%nat = Some f /\ fs_heap fs' !! 0%nat = Some f' /\
  value_at fs (in_ref i) 0 = Some iv /\ value_at fs' (in_ref i) 0 = Some iv' /\ iv_data iv = DSMA lc /\ iv_data iv' = DSMA lc' /\
  sma_value f lc 1 = Ok (Some (20 # 1)%Q) /\ sma_value f' lc' 1 = Ok (Some (30 # 1)%Q).
Proof. exact sma_open_refuted. Qed.
Print Assumptions C44_sma_refuted.
