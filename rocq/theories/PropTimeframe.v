(** Properties C28-C31 (estrade/mixins/timeframe.py). *)
From Verif Require Import TimeframeProofs.
Open Scope Z_scope.

(** C28: which quantities are accepted. *)
Theorem C28_accepted : forall u q, 0 < q -> (check_unit u q = Ok () <-> unit_ok u q).
Proof. exact check_unit_spec. Qed.
Print Assumptions C28_accepted.

Theorem C28_rejected : forall u q, 0 < q -> ~ unit_ok u q -> check_unit u q = Err TimeFrameException.
Proof. exact check_unit_reject. Qed.
Print Assumptions C28_rejected.

Theorem C28_zero : forall u, check_unit u 0 = (match u with TICK | YEAR => Ok () | _ => Err ZeroDivisionError end).
Proof. exact check_unit_zero. Qed.
Print Assumptions C28_zero.

(** Negative divisors are accepted too: exactly the divisors, of either sign. *)
Theorem C28_any_sign : forall u q, q <> 0 -> (check_unit u q = Ok () <-> unit_ok u (Z.abs q)).
Proof. exact check_unit_any_sign. Qed.
Print Assumptions C28_any_sign.

Example C28_ex : check_unit MINUTE 15 = Ok () /\ check_unit HOUR 24 = Err TimeFrameException /\
  check_unit DAY 7 = Ok () /\ check_unit DAY 2 = Err TimeFrameException /\ check_unit MINUTE (-15) = Ok ().
Proof. repeat split. Qed.

(** Some datetimes: 2020-02-29 13:47:11.000005 UTC. *)
Definition dt_leap : arrow := arrow_of_utc tz_UTC (days_from_civil 2020 2 29 * US_DAY + 13 * US_HOUR + 47 * US_MIN + 11 * US_SEC + 5).

(** C29: a datetime lies in its own timeframe, in every zone whose skipped times are resolved forwards. *)
Theorem C29_dt_in_frame : forall u q dt s e,
  u <> TICK -> 0 < q -> unit_ok u q -> resolves_forward (ar_tz dt) ->
  get_frame_start u q dt = Ok s -> get_frame_end u q s = Ok e ->
  ar_wall s <= ar_wall dt < ar_wall e.
Proof. exact dt_in_frame. Qed.
Print Assumptions C29_dt_in_frame.

(** Both calls succeed for every datetime of Python's range whose next boundary is in the range as well. *)
Theorem C29_start_total : forall u q dt,
  u <> TICK -> 0 < q -> unit_ok u q -> WALL_MIN <= ar_wall dt <= WALL_MAX ->
  (u = YEAR -> q <= w_year (ar_wall dt)) ->
  exists s, get_frame_start u q dt = Ok s.
Proof. exact start_total. Qed.
Print Assumptions C29_start_total.

Theorem C29_end_total : forall u q s,
  u <> TICK -> 0 < q -> unit_ok u q -> boundary u q (ar_wall s) -> WALL_MIN <= ar_wall s ->
  (forall e, next_boundary u q (ar_wall s) e -> e <= WALL_MAX) ->
  exists e, get_frame_end u q s = Ok e.
Proof. exact end_total. Qed.
Print Assumptions C29_end_total.

(** A year quantity greater than the year is accepted by the constructor but no frame can be built. *)
Theorem C29_year_quantity_refuted : exists q dt, 0 < q /\ check_unit YEAR q = Ok () /\
  WALL_MIN <= ar_wall dt <= WALL_MAX /\ get_frame_start YEAR q dt = Err ValueError.
Proof. exists 2021, dt_leap. repeat split; vm_compute; congruence. Qed.
Print Assumptions C29_year_quantity_refuted.

Example C29_ex :
  (let! s := get_frame_start MONTH 3 dt_leap in let! e := get_frame_end MONTH 3 s in Ok (w_ymd (ar_wall s), w_ymd (ar_wall e)))
    = Ok ((2020, 1, 1), (2020, 4, 1)) /\
  (let! s := get_frame_start MINUTE 15 dt_leap in let! e := get_frame_end MINUTE 15 s in
   Ok (w_hour (ar_wall s), w_minute (ar_wall s), w_hour (ar_wall e), w_minute (ar_wall e))) = Ok (13, 45, 14, 0).
Proof. split; vm_compute; reflexivity. Qed.

(** C30: idempotent, monotone, consecutive. *)
Theorem C30_idempotent : forall u q dt s s', u <> TICK -> 0 < q -> unit_ok u q ->
  get_frame_start u q dt = Ok s -> get_frame_start u q s = Ok s' -> s' = s.
Proof. exact start_idem. Qed.
Print Assumptions C30_idempotent.

Theorem C30_monotone : forall u q d1 d2 s1 s2, u <> TICK -> 0 < q -> unit_ok u q ->
  get_frame_start u q d1 = Ok s1 -> get_frame_start u q d2 = Ok s2 ->
  ar_wall d1 <= ar_wall d2 -> ar_wall s1 <= ar_wall s2.
Proof. exact start_mono. Qed.
Print Assumptions C30_monotone.

Theorem C30_end_is_next_start : forall u q s e, u <> TICK -> 0 < q -> unit_ok u q -> no_skip (ar_tz s) ->
  boundary u q (ar_wall s) -> get_frame_end u q s = Ok e ->
  next_boundary u q (ar_wall s) (ar_wall e) /\ ar_tz e = ar_tz s /\
  forall s', get_frame_start u q e = Ok s' -> s' = e.
Proof. exact end_next. Qed.
Print Assumptions C30_end_is_next_start.

(** Two datetimes share a frame exactly when no boundary separates them. *)
Theorem C30_same_frame : forall u q d1 d2 s1 s2, u <> TICK -> 0 < q -> unit_ok u q ->
  get_frame_start u q d1 = Ok s1 -> get_frame_start u q d2 = Ok s2 -> ar_wall d1 <= ar_wall d2 ->
  (ar_wall s1 = ar_wall s2 <-> ~ exists b, boundary u q b /\ ar_wall d1 < b <= ar_wall d2).
Proof. exact same_frame. Qed.
Print Assumptions C30_same_frame.

(** [b] is the start of [dt]'s frame exactly when [b] is a boundary with [b <= dt < end b]. *)
Theorem C30_partition : forall u q dt s b e, u <> TICK -> 0 < q -> unit_ok u q -> no_skip (ar_tz dt) ->
  get_frame_start u q dt = Ok s -> boundary u q (ar_wall b) -> ar_tz b = ar_tz dt -> get_frame_end u q b = Ok e ->
  (ar_wall s = ar_wall b <-> ar_wall b <= ar_wall dt < ar_wall e).
Proof. exact start_partition. Qed.
Print Assumptions C30_partition.

(** A zone that skips the first hour of 2018-11-04 (Sao Paulo): a day ends one hour after the start of the next day. *)
Definition skip_at : Z := days_from_civil 2018 11 4 * US_DAY.
Definition tz_skip : tzinfo :=
  {| tz_id := 7; tz_wall u := if u <? skip_at then u else u + US_HOUR;
     tz_utc w := if w <? skip_at + US_HOUR then w else w - US_HOUR;
     tz_resolve w := if (skip_at <=? w) && (w <? skip_at + US_HOUR) then w + US_HOUR else w |}.
Theorem C30_skipped_boundary_refuted : exists q z d1 d2 s1 e1 s2,
  0 < q /\ unit_ok DAY q /\ resolves_forward z /\
  get_frame_start DAY q (arrow_of_utc z d1) = Ok s1 /\ get_frame_end DAY q s1 = Ok e1 /\
  get_frame_start DAY q (arrow_of_utc z d2) = Ok s2 /\
  ar_wall s1 < ar_wall s2 /\ ar_wall s2 < ar_wall e1.
Proof.
  assert (unit_ok DAY 1) as Hok by apply Z.divide_1_l.
  destruct (start_total DAY 1 (arrow_of_utc tz_skip (skip_at - 1)) ltac:(discriminate) ltac:(lia) Hok
              ltac:(vm_compute; split; discriminate) (fun Ey : DAY = YEAR => ltac:(discriminate Ey))) as [s1 E1].
  destruct (start_total DAY 1 (arrow_of_utc tz_skip (skip_at + US_HOUR)) ltac:(discriminate) ltac:(lia) Hok
              ltac:(vm_compute; split; discriminate) (fun Ey : DAY = YEAR => ltac:(discriminate Ey))) as [s2 E2].
  pose proof (get_frame_start_wall DAY 1 _ _ ltac:(lia) ltac:(discriminate) E1) as (W1 & T1 & _).
  pose proof (get_frame_start_wall DAY 1 _ _ ltac:(lia) ltac:(discriminate) E2) as (W2 & T2 & _).
  assert (ar_wall s1 = skip_at - US_DAY) as W1' by (rewrite W1; vm_compute; reflexivity).
  assert (ar_wall s2 = skip_at) as W2' by (rewrite W2; vm_compute; reflexivity).
  assert (w_shift DAY 1 (ar_wall s1) = Ok skip_at) as E3 by (rewrite W1'; vm_compute; reflexivity).
  assert (get_frame_end DAY 1 s1 = Ok (arrow_of_wall tz_skip (tz_resolve tz_skip skip_at))) as E4
    by (unfold get_frame_end, arrow_shift; rewrite E3, T1; reflexivity).
  exists 1, tz_skip, (skip_at - 1), (skip_at + US_HOUR), s1, (arrow_of_wall tz_skip (tz_resolve tz_skip skip_at)), s2.
  rewrite W1', W2'. split; [lia|]. split; [exact Hok|].
  split; [intros w; unfold tz_skip, tz_resolve; us; destruct (_ && _); lia|].
  do 3 (split; [assumption|]). split; vm_compute; reflexivity.
Qed.
Print Assumptions C30_skipped_boundary_refuted.

Example C30_ex : exists s e, get_frame_start WEEK 1 dt_leap = Ok s /\ get_frame_end WEEK 1 s = Ok e /\
  w_ymd (ar_wall s) = (2020, 2, 24) /\ w_ymd (ar_wall e) = (2020, 3, 2) /\ no_skip (ar_tz s).
Proof.
  eexists _, _. split; [vm_compute; reflexivity|]. split; [vm_compute; reflexivity|].
  split; [vm_compute; reflexivity|]. split; [vm_compute; reflexivity|]. intros w. reflexivity.
Qed.

(** C31: the start is the last calendar boundary at or before the datetime, in the same zone. *)
Theorem C31_last_boundary : forall u q dt s, u <> TICK -> 0 < q -> unit_ok u q ->
  get_frame_start u q dt = Ok s ->
  last_boundary u q (ar_wall dt) (ar_wall s) /\ ar_tz s = ar_tz dt.
Proof. exact start_last_boundary. Qed.
Print Assumptions C31_last_boundary.

(** A TICK frame starts at the tick itself. *)
Theorem C31_tick : forall q dt, get_frame_start TICK q dt = Ok dt /\ get_frame_end TICK q dt = Ok dt.
Proof. exact tick_start. Qed.
Print Assumptions C31_tick.

Example C31_ex :
  map (fun p => (let! s := get_frame_start (fst p) (snd p) dt_leap in Ok (w_ymd (ar_wall s), w_hour (ar_wall s), w_minute (ar_wall s), w_second (ar_wall s))))
    [(SECOND, 10); (MINUTE, 30); (HOUR, 4); (DAY, 1); (DAY, 7); (WEEK, 1); (MONTH, 6); (YEAR, 100)]
  = [Ok ((2020,2,29),13,47,10); Ok ((2020,2,29),13,30,0); Ok ((2020,2,29),12,0,0); Ok ((2020,2,29),0,0,0);
     Ok ((2020,2,24),0,0,0); Ok ((2020,2,24),0,0,0); Ok ((2020,1,1),0,0,0); Ok ((2000,1,1),0,0,0)].
Proof. vm_compute. reflexivity. Qed.
