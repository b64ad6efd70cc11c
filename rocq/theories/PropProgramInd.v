(** Values of indicators in whole programs (C38 to C43), started from nothing: any callbacks, any calls, any number of epics for a frame set,
    operations that raise exceptions included. *)
From Verif Require Import ProgramIndProofs EpicExamples IndicatorExamples.
Open Scope Z_scope.

(** The frame sets of any program have a history in the sense of the theorems of PropFrames.v and PropIndicators.v. *)
Theorem C32_any_program : forall {F} `{Num F} (pr : programs F) ops fid fs (I : indicator F -> Prop) (T : tick F -> res unit -> Prop),
  (forall i, OAddIndicator fid i ∈ ops -> I i) -> (forall eid tk, OTick eid tk ∈ ops -> forall z r, T (tick_to z tk) r) ->
  w_fsets (run pr empty_world ops) !! fid = Some fs ->
  exists u ref fs0, ONewFrameSet u (fs_q fs) ref (fs_max fs) ∈ ops /\ fset_init u (fs_q fs) ref (fs_max fs) = Ok fs0 /\ fs_hist I T fs0 fs.
Proof. exact @run_hist. Qed.
Print Assumptions C32_any_program.
(** C38: candles of any program. *)
Theorem C38_any_program : forall pr ops fid i ha (fs : fset Q) k f iv, 1 <= fs_max fs -> in_kind i = KCandle ha ->
  (forall j, OAddIndicator fid j ∈ ops -> in_ref j = in_ref i -> j = i) -> w_fsets (run pr empty_world ops) !! fid = Some fs -> fs_heap fs !! k = Some f -> value_at fs (in_ref i) k = Some iv ->
  exists o hi lo la, c_open (fs_heap fs) f iv = Ok o /\ c_high (fs_heap fs) f iv = Ok hi /\ c_low (fs_heap fs) f iv = Ok lo /\ candle_last iv = Ok la /\
    (lo <= o /\ lo <= la /\ o <= hi /\ la <= hi)%Q.
Proof. exact program_candles. Qed.
Print Assumptions C38_any_program.
(** C39. *)
Theorem C39_any_program : forall pr ops fid (fs : fset Q) k f r iv o hi lo la, 1 <= fs_max fs ->
  w_fsets (run pr empty_world ops) !! fid = Some fs -> fs_heap fs !! k = Some f -> value_at fs r k = Some iv ->
  c_open (fs_heap fs) f iv = Ok o -> c_high (fs_heap fs) f iv = Ok hi -> c_low (fs_heap fs) f iv = Ok lo -> candle_last iv = Ok la ->
  ((~ o == 0 -> ~ la == 0 ->
    (exists hd bd tl, candle_head o hi la = Some hd /\ candle_body o la = Some bd /\ candle_tail o lo la = Some tl /\
       0 <= hd /\ 0 <= bd /\ 0 <= tl /\ hd + bd + tl == candle_height hi lo) /\
    (candle_color o la = Some GREEN <-> o < la) /\ (candle_color o la = Some RED <-> la < o) /\ (candle_color o la = Some BLACK <-> o == la)) /\
  (o == 0 \/ la == 0 -> candle_head o hi la = None /\ candle_body o la = None /\ candle_tail o lo la = None /\ candle_color o la = None))%Q.
Proof. exact program_geometry. Qed.
Print Assumptions C39_any_program.
(** C40. *)
Theorem C40_any_program : forall pr ops fid i (fs : fset Q) k f iv, 1 <= fs_max fs -> in_kind i = KCandle true ->
  (forall j, OAddIndicator fid j ∈ ops -> in_ref j = in_ref i -> j = i) -> w_fsets (run pr empty_world ops) !! fid = Some fs -> fs_heap fs !! k = Some f -> value_at fs (in_ref i) k = Some iv ->
  exists o la r, c_open (fs_heap fs) f iv = Ok o /\ candle_last iv = Ok la /\ previous_value fs (in_ref i) k r /\
    round_cent ((tk_value (iv_first iv) + tk_value (iv_high iv) + tk_value (iv_low iv) + tk_value (iv_last iv)) / 4)%Q la /\
    match r with
    | None => round_cent (tk_value (iv_first iv)) o
    | Some (j, pv) => exists pf po pl, fs_heap fs !! j = Some pf /\ c_open (fs_heap fs) pf pv = Ok po /\ candle_last pv = Ok pl /\ round_cent ((po + pl) / 2)%Q o
    end.
Proof. exact program_heikin. Qed.
Print Assumptions C40_any_program.
(** C41. *)
Theorem C41_any_program : forall pr ops fid i mp (fs : fset Q) k f iv p, 1 <= fs_max fs -> in_kind i = KSMA mp -> in_mopen i = false ->
  (forall j, OAddIndicator fid j ∈ ops -> in_ref j = in_ref i -> j = i) -> w_fsets (run pr empty_world ops) !! fid = Some fs -> fs_heap fs !! k = Some f -> value_at fs (in_ref i) k = Some iv -> 1 <= p <= mp ->
  exists s lc, valued_from fs (in_ref i) s /\ (s <= k)%nat /\ iv_data iv = DSMA lc /\
    if Z.of_nat (S k - s) <? p then sma_value f lc p = Ok None
    else exists v, sma_value f lc p = Ok (Some v) /\ round_cent (mean (window (Z.to_nat p) k (closes fs))) v.
Proof. exact program_sma. Qed.
Print Assumptions C41_any_program.
(** C42, when no tick is interrupted by a frame set (C71 gives conditions for that). *)
Theorem C42_any_program : forall pr ops fid i p o (fs : fset Q) k iv, 2 <= fs_max fs -> 2 <= p * fs_q fs -> in_kind i = KRSI p o -> in_mopen i = false ->
  (forall j, OAddIndicator fid j ∈ ops -> in_ref j = in_ref i -> j = i) -> charts_fine pr empty_world ops -> w_fsets (run pr empty_world ops) !! fid = Some fs -> value_at fs (in_ref i) k = Some iv ->
  exists s lc v, valued_from fs (in_ref i) s /\ (s <= k)%nat /\ iv_data iv = DRSI (p * fs_q fs) lc v /\
    if (S k - (s - 1) <=? Z.to_nat (p * fs_q fs))%nat then v = None
    else exists x, v = Some x /\ rsi_of (window (S (Z.to_nat (p * fs_q fs))) k (closes fs)) x /\ (0 <= x <= 100)%Q.
Proof. exact program_rsi. Qed.
Print Assumptions C42_any_program.
(** C43, HLC pivots. *)
Theorem C43_any_program : forall pr ops fid i (fs : fset Q) k f iv, 1 <= fs_max fs -> in_kind i = KPivot false ->
  (forall j, OAddIndicator fid j ∈ ops -> in_ref j = in_ref i -> j = i) -> w_fsets (run pr empty_world ops) !! fid = Some fs -> fs_heap fs !! k = Some f -> value_at fs (in_ref i) k = Some iv ->
  exists r, previous_value fs (in_ref i) k r /\
    match r with
    | None => pivot (fs_heap fs) f iv = Ok None /\ pivot_levels (fs_heap fs) f iv None None None None None None
    | Some (j, pv) =>
        let h := tk_value (iv_high pv) in let l := tk_value (iv_low pv) in let c := tk_value (iv_last pv) in
        exists p, pivot (fs_heap fs) f iv = Ok (Some p) /\ round_cent ((h + l + c) / 3)%Q p /\
          ((p == 0)%Q -> pivot_levels (fs_heap fs) f iv None None None None None None) /\
          (~ (p == 0)%Q -> exists s3 s2 s1 r1 r2 r3, pivot_levels (fs_heap fs) f iv (Some s3) (Some s2) (Some s1) (Some r1) (Some r2) (Some r3) /\
             (s1 == 2 * p - h /\ s2 == p - (h - l) /\ s3 == l - 2 * (h - p) /\ r1 == 2 * p - l /\ r2 == p + (h - l) /\ r3 == h + 2 * (p - l) /\
              s3 <= s2 /\ s2 <= s1 /\ s1 <= p /\ p <= r1 /\ r1 <= r2 /\ r2 <= r3)%Q)
    end.
Proof. exact program_pivot. Qed.
Print Assumptions C43_any_program.
(** C43, OLHC pivots. *)
Theorem C43_olhc_any_program : forall pr ops fid i (fs : fset Q) k f iv, 1 <= fs_max fs -> in_kind i = KPivot true ->
  (forall j, OAddIndicator fid j ∈ ops -> in_ref j = in_ref i -> j = i) -> w_fsets (run pr empty_world ops) !! fid = Some fs -> fs_heap fs !! k = Some f -> value_at fs (in_ref i) k = Some iv ->
  exists r, previous_value fs (in_ref i) k r /\
    match r with
    | None => pivot (fs_heap fs) f iv = Ok None /\ pivot_levels (fs_heap fs) f iv None None None None None None
    | Some (j, pv) =>
        let h := tk_value (iv_high pv) in let l := tk_value (iv_low pv) in let c := tk_value (iv_last pv) in let o := tk_value (iv_first iv) in
        exists p, pivot (fs_heap fs) f iv = Ok (Some p) /\ round_cent ((h + l + c + o) / 4)%Q p /\
          ((p == 0)%Q -> pivot_levels (fs_heap fs) f iv None None None None None None) /\
          (~ (p == 0)%Q -> exists s3 s2 s1 r1 r2 r3, pivot_levels (fs_heap fs) f iv (Some s3) (Some s2) (Some s1) (Some r1) (Some r2) (Some r3) /\
             (s1 == 2 * p - h /\ s2 == p - (h - l) /\ s3 == l - 2 * (h - p) /\ r1 == 2 * p - l /\ r2 == p + (h - l) /\ r3 == h + 2 * (p - l) /\
              (s3 <= s2 /\ s2 <= s1 /\ s1 <= p /\ p <= r1 /\ r1 <= r2 /\ r2 <= r3 <-> l <= p <= h))%Q) /\
          (l <= o <= h -> l <= p <= h)%Q
    end.
Proof. exact program_olhc. Qed.
Print Assumptions C43_olhc_any_program.

(** An epic with one frame set holding one indicator of each kind; a strategy raises at the first tick (the market opens), the tick at 30 s comes
    after one at 60 s and is refused. *)
Definition ind78 (r : string) (k : ikind Q) : indicator Q := {| in_ref := r; in_mopen := false; in_kind := k |}.
Definition ops78 : list (op Q) :=
  [ONewStrategy "s0"; ONewEpic "A" (Some tz_UTC) 0 86399999999 None None None; OAddStrategy 0 0; ONewFrameSet MINUTE 1 "M1" 10; OAddFrameSet 0 0;
   OAddIndicator 0 (ind78 "jp" (KCandle false)); OAddIndicator 0 (ind78 "ha" (KCandle true)); OAddIndicator 0 (ind78 "sma" (KSMA 2));
   OAddIndicator 0 (ind78 "rsi" (KRSI 2 None)); OAddIndicator 0 (ind78 "pv" (KPivot false)); OAddIndicator 0 (ind78 "ol" (KPivot true));
   OTick 0 (tk_s 1600086400 (100#1) (101#1)); OTick 0 (tk_s 1600086460 (104#1) (105#1)); OTick 0 (tk_s 1600086430 (90#1) (91#1));
   OTick 0 (tk_s 1600086470 (102#1) (103#1)); OTick 0 (tk_s 1600086520 (100#1) (101#1))].
Definition fs78 : fset Q := fset_of (run raiser empty_world ops78) 0.
Example C38_ex_any_program : w_fsets (run raiser empty_world ops78) !! 0%nat = Some fs78 /\ charts_fine raiser empty_world ops78 /\
  (forall j, OAddIndicator 0 j ∈ ops78 -> in_ref j = "jp"%string -> j = ind78 "jp" (KCandle false)) /\ fs_max fs78 = 10 /\ length (fs_heap fs78) = 3%nat /\
  map (fun r => match value_at fs78 r 2 with Some _ => true | None => false end) ["jp"%string; "ha"%string; "sma"%string; "rsi"%string; "pv"%string; "ol"%string] = replicate 6 true /\
  existsb (fun k => match snd (step raiser (run raiser empty_world (take k ops78)) (nth k ops78 (ONewStrategy "x"))) with Err KeyError => true | _ => false end) (seq 0 16) = true /\
  existsb (fun k => match snd (step raiser (run raiser empty_world (take k ops78)) (nth k ops78 (ONewStrategy "x"))) with Err EpicException => true | _ => false end) (seq 0 16) = true.
Proof.
  split; [apply fset_of_lookup; vm_compute; lia|]. split; [repeat (split; [first [exact I|vm_compute; reflexivity]|]); exact I|].
  split; [intros j Hj Hr; unfold ops78 in Hj; repeat (apply elem_of_cons in Hj as [Hj|Hj]; [first [discriminate Hj|injection Hj as ->; first [reflexivity|discriminate Hr]]|]); now apply elem_of_nil in Hj|].
  repeat split; vm_compute; reflexivity.
Qed.
(** The averages and the index of the last frame, as written. *)
Example C41_ex_any_program : match fs_heap fs78 !! 2%nat, value_at fs78 "sma" 2 with Some f, Some iv => match iv_data iv with DSMA lc => rmap (option_map Qred) (sma_value f lc 2) | _ => Err KeyError end | _, _ => Err KeyError end = Ok (Some (203 # 2)%Q) /\
  option_map Qred (rsi_val fs78 2) = Some (50 # 1)%Q.
Proof. split; vm_compute; reflexivity. Qed.
