(** estrade/mixins/timeframe.py *)
From Verif Require Export Arrow.

(** estrade/enums/__init__.py:40-64 *)
Inductive unit_ := TICK | SECOND | MINUTE | HOUR | DAY | WEEK | MONTH | YEAR.
Global Instance unit_eq_dec : EqDecision unit_.
Proof. solve_decision. Defined.

(** timeframe.py:40-47, [None] for the units that return early (line 37). *)
Definition unit_quantity_modulo (u : unit_) : option Z :=
  match u with
  | TICK | YEAR => None
  | SECOND => Some 60 | MINUTE => Some 60 | HOUR => Some 12
  | DAY => Some 7 | WEEK => Some 1 | MONTH => Some 12
  end.

(** Python [a % b]. Coq's [Z.modulo] has the same sign convention. *)
Definition pymod (a b : Z) : res Z := if b =? 0 then Err ZeroDivisionError else Ok (a mod b).

(** timeframe.py:36-50 [_check_unit_consistency], called by [__init__] (line 34); the earlier
    [check_unit_consistency] (lines 80-82) always succeeds. *)
Definition check_unit (u : unit_) (q : Z) : res unit :=
  match unit_quantity_modulo u with
  | None => Ok ()
  | Some m => let! r := pymod m q in if r =? 0 then Ok () else Err TimeFrameException
  end.

(** timeframe.py:52-63 and 84-162 [get_frame_start]. *)
Definition get_frame_start (u : unit_) (q : Z) (dt : arrow) : res arrow :=
  let w := ar_wall dt in
  match u with
  | TICK => Ok dt                                                            (* 84-85 *)
  | SECOND =>                                                                (* 87-92 *)
      let! r := pymod (w_second w) q in arrow_sub_td dt (r * US_SEC + w_micro w)
  | MINUTE =>                                                                (* 94-100 *)
      let! r := pymod (w_minute w) q in
      arrow_sub_td dt (r * US_MIN + w_second w * US_SEC + w_micro w)
  | HOUR =>                                                                  (* 102-109 *)
      let! r := pymod (w_hour w) q in
      arrow_sub_td dt (r * US_HOUR + w_minute w * US_MIN + w_second w * US_SEC + w_micro w)
  | DAY =>                                                                   (* 111-119 *)
      let! r := pymod (w_weekday w) q in
      arrow_sub_td dt (r * US_DAY + w_hour w * US_HOUR + w_minute w * US_MIN
                       + w_second w * US_SEC + w_micro w)
  | WEEK =>                                                                  (* 121-129 *)
      arrow_sub_td dt (w_weekday w * US_DAY + w_hour w * US_HOUR + w_minute w * US_MIN
                       + w_second w * US_SEC + w_micro w)
  | MONTH =>                                                                 (* 131-145 *)
      let! r := pymod (w_month w - 1) q in
      let! s := w_replace_first (w_year w) (w_month w - r) in
      Ok (arrow_of_wall (ar_tz dt) s)
  | YEAR =>                                                                  (* 147-162 *)
      let! r := pymod (w_year w) q in
      let! s := w_replace_first (w_year w - r) 1 in
      Ok (arrow_of_wall (ar_tz dt) s)
  end.

(** arrow 0.17 [dt.shift(<unit>s=q)]: wall-clock [+ relativedelta], then imaginary times are
    resolved.  timeframe.py:30-32 builds the argument from the unit name. *)
Definition w_shift (u : unit_) (q : Z) (w : Z) : res Z :=
  match u with
  | TICK => Ok w
  | SECOND => w_add w (q * US_SEC)
  | MINUTE => w_add w (q * US_MIN)
  | HOUR => w_add w (q * US_HOUR)
  | DAY => w_add w (q * US_DAY)
  | WEEK => w_add w (q * 7 * US_DAY)
  | MONTH => w_add_months w q
  | YEAR => w_add_months w (q * 12)
  end.
Definition arrow_shift (u : unit_) (q : Z) (a : arrow) : res arrow :=
  let! w := w_shift u q (ar_wall a) in
  Ok (arrow_of_wall (ar_tz a) (tz_resolve (ar_tz a) w)).

(** timeframe.py:65-78 [get_frame_end]: unit TICK has no timedelta and returns its input. *)
Definition get_frame_end (u : unit_) (q : Z) (start : arrow) : res arrow :=
  match u with TICK => Ok start | _ => arrow_shift u q start end.
