(** Python [datetime] fields of a naive wall-clock value.

    A wall-clock value is a number of microseconds since 1970-01-01T00:00:00 on the
    proleptic Gregorian calendar.  This file models the part of CPython's [datetime]
    used by estrade (estrade/mixins/timeframe.py and estrade/epic.py): [.year .month .day .hour
    .minute .second .microsecond .weekday() .date() .time()], [datetime.replace],
    [+/- timedelta] with their range errors, and dateutil's [relativedelta(months/years)].
    It is pinned by the specification in SpecCalendar.v. *)
From Verif Require Export PyBase.

Definition US_SEC : Z := 1000000.
Definition US_MIN : Z := 60 * US_SEC.
Definition US_HOUR : Z := 60 * US_MIN.
Definition US_DAY : Z := 24 * US_HOUR.

(** Day number (days since 1970-01-01) -> (year, month, day). *)
Definition civil_of_doe (doe : Z) : Z * Z * Z :=   (* day of the 400-year era starting on 1 March *)
  let yoe := (doe - doe / 1460 + doe / 36524 - doe / 146096) / 365 in
  let doy := doe - (365 * yoe + yoe / 4 - yoe / 100) in
  let mp := (5 * doy + 2) / 153 in
  let d := doy - (153 * mp + 2) / 5 + 1 in
  let m := if mp <? 10 then mp + 3 else mp - 9 in
  (if m <=? 2 then yoe + 1 else yoe, m, d).

Definition civil_from_days (z : Z) : Z * Z * Z :=
  let z' := z + 719468 in
  let '(y, m, d) := civil_of_doe (z' mod 146097) in
  (y + 400 * (z' / 146097), m, d).

(** (year, month, day) -> day number. *)
Definition days_from_civil (y m d : Z) : Z :=
  let y' := if m <=? 2 then y - 1 else y in
  let era := y' / 400 in
  let yoe := y' mod 400 in
  let doy := (153 * (if 2 <? m then m - 3 else m + 9) + 2) / 5 + d - 1 in
  let doe := yoe * 365 + yoe / 4 - yoe / 100 + doy in
  era * 146097 + doe - 719468.

(** Fields of a wall-clock value. *)
Definition w_days (w : Z) : Z := w / US_DAY.
Definition w_tod (w : Z) : Z := w mod US_DAY.                 (* .time(), in microseconds *)
Definition w_hour (w : Z) : Z := w_tod w / US_HOUR.
Definition w_minute (w : Z) : Z := (w_tod w / US_MIN) mod 60.
Definition w_second (w : Z) : Z := (w_tod w / US_SEC) mod 60.
Definition w_micro (w : Z) : Z := w_tod w mod US_SEC.
Definition w_weekday (w : Z) : Z := (w_days w + 3) mod 7.     (* Monday = 0; 1970-01-01 is a Thursday *)
Definition w_ymd (w : Z) : Z * Z * Z := civil_from_days (w_days w).
Definition w_year (w : Z) : Z := let '(y, _, _) := w_ymd w in y.
Definition w_month (w : Z) : Z := let '(_, m, _) := w_ymd w in m.
Definition w_day (w : Z) : Z := let '(_, _, d) := w_ymd w in d.

(** Midnight of a civil date. *)
Definition w_of_date (y m d : Z) : Z := days_from_civil y m d * US_DAY.

(** Python's supported range: 0001-01-01T00:00:00 .. 9999-12-31T23:59:59.999999. *)
Definition WALL_MIN : Z := -62135596800000000.
Definition WALL_MAX : Z := 253402300799999999.
Definition in_range (w : Z) : bool := (WALL_MIN <=? w) && (w <=? WALL_MAX).

(** [dt + timedelta] / [dt - timedelta]: OverflowError out of range. *)
Definition w_add (w d : Z) : res Z :=
  if in_range (w + d) then Ok (w + d) else Err OverflowError.

Definition is_leap (y : Z) : bool := (y mod 4 =? 0) && (negb (y mod 100 =? 0) || (y mod 400 =? 0)).
Definition days_in_month (y m : Z) : Z :=
  if m =? 2 then (if is_leap y then 29 else 28)
  else if (m =? 4) || (m =? 6) || (m =? 9) || (m =? 11) then 30 else 31.

(** [dt.replace(year=y, month=m, day=1, hour=0, minute=0, second=0, microsecond=0)]:
    ValueError for a year or month out of range. *)
Definition w_replace_first (y m : Z) : res Z :=
  if (1 <=? y) && (y <=? 9999) && (1 <=? m) && (m <=? 12)
  then Ok (w_of_date y m 1) else Err ValueError.

(** [dt + relativedelta(months=k)] / [relativedelta(years=k)] (dateutil 2.8.1, used by
    arrow's shift): move the month count, clip the day to the month length, keep the time of
    day; a year out of range raises ValueError. *)
Definition w_add_months (w k : Z) : res Z :=
  let '(y, m, d) := w_ymd w in
  let t := y * 12 + (m - 1) + k in
  let y' := t / 12 in
  let m' := t mod 12 + 1 in
  if (1 <=? y') && (y' <=? 9999)
  then Ok (w_of_date y' m' (Z.min d (days_in_month y' m')) + w_tod w)
  else Err ValueError.
