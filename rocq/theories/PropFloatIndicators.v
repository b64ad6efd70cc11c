(** Heikin Ashi candles (C40), the value of the relative strength index (C42) and OLHC pivots (C43) on Python floats. *)
From Coq Require Import Reals.
From Flocq Require Import Core BinarySingleNaN.
From Verif Require Import FloatHeikinProofs FloatRsiValueProofs FloatOlhcProofs FloatExamples SpecTrade SpecFrames.
Open Scope R_scope.

(** C40 on floats, quotes up to 2^27: every candle opens at the float of the number of cents [co] nearest to the mean of the previous
    open and last, and its last is the float of the number of cents [ca] nearest to the mean of first, high, low and last. *)
Theorem C40_recurrence_b64 : forall u q ref mx i (T : tick b64 -> res unit -> Prop) fs0 (fs : fset b64) k f iv, (1 <= mx)%Z -> in_kind i = KCandle true ->
  (forall t r, T t r -> quotes_within 27 t) ->
  fset_init u q ref mx = Ok fs0 -> fs_hist (only i) T fs0 fs -> fs_heap fs !! k = Some f -> value_at fs (in_ref i) k = Some iv ->
  exists o la r cf ch cl cc co ca, c_open (fs_heap fs) f iv = Ok o /\ candle_last iv = Ok la /\ previous_value fs (in_ref i) k r /\
    decimal cf (tk_value (iv_first iv)) /\ decimal ch (tk_value (iv_high iv)) /\ decimal cl (tk_value (iv_low iv)) /\ decimal cc (tk_value (iv_last iv)) /\
    decimal co o /\ decimal ca la /\ (Z.abs (4 * ca - (cf + ch + cl + cc)) <= 2)%Z /\
    match r with
    | None => co = cf
    | Some (j, pv) => exists pf po pl cpo cpl, fs_heap fs !! j = Some pf /\ c_open (fs_heap fs) pf pv = Ok po /\ candle_last pv = Ok pl /\
        decimal cpo po /\ decimal cpl pl /\ (Z.abs (2 * co - (cpo + cpl)) <= 1)%Z
    end.
Proof. exact heikin_b64. Qed.
Print Assumptions C40_recurrence_b64.
(** The second candle opens at the mean of 10.01 and 10.01, the third at the mean of 10.01 and 10.31. *)
Example C40_ex_b64 : fs_hist (only fha) (fun t r => quotes_within 27 t /\ r = Ok ()) (ffs0 1 5) (fst (frun fha)) /\
  prices_are (fprices (fst (frun fha)) "ha" 0) [1001; 1001; 1001; 1001]%Z && prices_are (fprices (fst (frun fha)) "ha" 1) [1001; 1031; 1001; 1031]%Z &&
  prices_are (fprices (fst (frun fha)) "ha" 2) [1016; 1016; 1016; 1016]%Z = true.
Proof. split; [apply frun_small; [lia|vm_compute; reflexivity]|vm_compute; reflexivity]. Qed.

(** C42 on floats, quotes up to 2^20 and at most 2^20 periods: the relative strength index is the float of a number of hundredths [m]
    nearest to the exact index of the closing values (floats of the cents [ks]), up to one hundredth of a hundredth. *)
Theorem C42_rsi_value_b64 : forall u q ref mx i p o (fs0 fs : fset b64) k iv, (2 <= mx)%Z -> (2 <= p * q <= 2 ^ 20)%Z -> in_kind i = KRSI p o -> in_mopen i = false ->
  fset_init u q ref mx = Ok fs0 -> fs_hist (only i) (fun tk r => quotes_within 20 tk /\ r = Ok ()) fs0 fs -> value_at fs (in_ref i) k = Some iv ->
  exists s lc v, valued_from fs (in_ref i) s /\ (s <= k)%nat /\ iv_data iv = DRSI (p * q) lc v /\
    if (S k - (s - 1) <=? Z.to_nat (p * q))%nat then v = None
    else exists x m ks, v = Some x /\ Forall2 decimal ks (window (S (Z.to_nat (p * q))) k (closes fs)) /\ decimal m x /\ rsi_cents ks m /\ (0 <= m <= 10000)%Z.
Proof. exact rsi_value_b64. Qed.
Print Assumptions C42_rsi_value_b64.
(** Closing values 10.01, 10.31, 10.16. *)
Example C42_ex_value_b64 : fs_hist (only frsi) (fun t r => quotes_within 20 t /\ r = Ok ()) (ffs0 1 5) (fst (frun frsi)) /\
  prices_are (match frsi_val (fst (frun frsi)) 2 with Some x => Ok [x] | None => Ok [] end) [6667%Z] = true /\
  rises [1001; 1031; 1016]%Z = 30%Z /\ falls [1001; 1031; 1016]%Z = 15%Z /\ rsi_cents [1001; 1031; 1016]%Z 6667 /\ ~ rsi_cents [1001; 1031; 1016]%Z 6666.
Proof.
  split; [apply frun_small; [lia|vm_compute; reflexivity]|]. split; [vm_compute; reflexivity|]. split; [reflexivity|]. split; [reflexivity|].
  split; [vm_compute; discriminate|]. unfold rsi_cents. vm_compute. intros H. now apply H.
Qed.

(** C43 on floats, quotes up to 2^27, OLHC pivots: the pivot is the float of a number of cents [m] nearest to the quarter of
    high + low + close of the previous value + open of the current one, the levels are the floats of the exact levels, and they are in
    order when the open is in the previous range. *)
Theorem C43_olhc_b64 : forall u q ref mx i (T : tick b64 -> res unit -> Prop) fs0 (fs : fset b64) k f iv, (1 <= mx)%Z -> in_kind i = KPivot true ->
  (forall t r, T t r -> quotes_within 27 t) ->
  fset_init u q ref mx = Ok fs0 -> fs_hist (only i) T fs0 fs -> fs_heap fs !! k = Some f -> value_at fs (in_ref i) k = Some iv ->
  exists r, previous_value fs (in_ref i) k r /\
    match r with
    | None => pivot (fs_heap fs) f iv = Ok None /\ pivot_levels (fs_heap fs) f iv None None None None None None
    | Some (j, pv) => exists ch cl cc co m p,
        decimal ch (tk_value (iv_high pv)) /\ decimal cl (tk_value (iv_low pv)) /\ decimal cc (tk_value (iv_last pv)) /\ decimal co (tk_value (iv_first iv)) /\ (cl <= cc <= ch)%Z /\
        pivot (fs_heap fs) f iv = Ok (Some p) /\ decimal m p /\ (Z.abs (4 * m - (ch + cl + cc + co)) <= 2)%Z /\
        if (m =? 0)%Z then pivot_levels (fs_heap fs) f iv None None None None None None
        else exists s3 s2 s1 r1 r2 r3, pivot_levels (fs_heap fs) f iv (Some s3) (Some s2) (Some s1) (Some r1) (Some r2) (Some r3) /\
          decimal (cl - 2 * (ch - m)) s3 /\ decimal (m - (ch - cl)) s2 /\ decimal (2 * m - ch) s1 /\
          decimal (2 * m - cl) r1 /\ decimal (m + (ch - cl)) r2 /\ decimal (ch + 2 * (m - cl)) r3 /\
          ((cl <= co <= ch)%Z ->
             real s3 <= real s2 /\ real s2 <= real s1 /\ real s1 <= real p /\ real p <= real r1 /\ real r1 <= real r2 /\ real r2 <= real r3)
    end.
Proof. exact olhc_b64. Qed.
Print Assumptions C43_olhc_b64.
(** High 10.31, low 10.01, close 10.31, open of the current frame 10.16. *)
Example C43_ex_olhc_b64 : fs_hist (only folhc) (fun t r => quotes_within 27 t /\ r = Ok ()) (ffs0 2 5) (fst (frun2 folhc)) /\
  prices_are (flevels (fst (frun2 folhc)) 0) [] && prices_are (flevels (fst (frun2 folhc)) 1) [979; 990; 1009; 1020; 1039; 1050; 1069]%Z = true.
Proof. split; [apply frun2_small; [lia|vm_compute; reflexivity]|vm_compute; reflexivity]. Qed.
