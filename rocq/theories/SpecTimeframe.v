(** Timeframe boundaries in calendar terms. *)
From Verif Require Import Timeframe SpecCalendar.
Open Scope Z_scope.

(** [boundary u q w]: the wall-clock instant [w] (microseconds) is a start of a timeframe of [q] units. *)
Inductive boundary : unit_ -> Z -> Z -> Prop :=
  (** a whole second, second-of-minute a multiple of q *)
  | b_second q n s : 0 <= s < 60 -> (q | s) -> boundary SECOND q (n * 60000000 + s * 1000000)
  (** a whole minute, minute-of-hour a multiple of q *)
  | b_minute q n m : 0 <= m < 60 -> (q | m) -> boundary MINUTE q (n * 3600000000 + m * 60000000)
  (** a whole hour, hour-of-day a multiple of q *)
  | b_hour q n h : 0 <= h < 24 -> (q | h) -> boundary HOUR q (n * 86400000000 + h * 3600000000)
  (** midnight of a day whose day-of-week (Monday = 0) is a multiple of q *)
  | b_day q n : (q | weekday n) -> boundary DAY q (n * 86400000000)
  (** midnight of a Monday *)
  | b_week q n : weekday n = 0 -> boundary WEEK q (n * 86400000000)
  (** midnight of the first day of a month, month-of-year (January = 0) a multiple of q *)
  | b_month q n y m : date_of n (y, m, 1) -> (q | m - 1) -> boundary MONTH q (n * 86400000000)
  (** midnight of 1 January of a year multiple of q *)
  | b_year q n y : date_of n (y, 1, 1) -> (q | y) -> boundary YEAR q (n * 86400000000).

(** The units and quantities users may pass. *)
Definition unit_ok (u : unit_) (q : Z) : Prop :=
  match u with
  | TICK | YEAR => True
  | SECOND | MINUTE => (q | 60)
  | HOUR | MONTH => (q | 12)
  | DAY => (q | 7)
  | WEEK => q = 1
  end.

(** The greatest boundary at or before [w], and the next boundary after [s]. *)
Definition last_boundary (u : unit_) (q w s : Z) : Prop :=
  boundary u q s /\ s <= w /\ forall b, boundary u q b -> b <= w -> b <= s.
Definition next_boundary (u : unit_) (q s e : Z) : Prop :=
  boundary u q e /\ s < e /\ forall b, boundary u q b -> s < b -> e <= b.

(** A time zone in which no wall-clock time is skipped. *)
Definition no_skip (z : tzinfo) : Prop := forall w, tz_resolve z w = w.
(** dateutil's resolve_imaginary only moves forward. *)
Definition resolves_forward (z : tzinfo) : Prop := forall w, w <= tz_resolve z w.
