(** Independent specification of the Gregorian calendar: leap years, month lengths and
    "the day after".  No arithmetic closed formula is used. *)
From Coq Require Import ZArith Bool.
Open Scope Z_scope.

(** Divisible by 4, except centuries, except multiples of 400. *)
Definition leap_year (y : Z) : Prop := (4 | y) /\ (~ (100 | y) \/ (400 | y)).

Inductive month_length (y : Z) : Z -> Z -> Prop :=
  | ml31 m : m = 1 \/ m = 3 \/ m = 5 \/ m = 7 \/ m = 8 \/ m = 10 \/ m = 12 -> month_length y m 31
  | ml30 m : m = 4 \/ m = 6 \/ m = 9 \/ m = 11 -> month_length y m 30
  | ml28 : ~ leap_year y -> month_length y 2 28
  | ml29 : leap_year y -> month_length y 2 29.

(** [next_day (y,m,d) (y',m',d')]: the second date is the day after the first. *)
Inductive next_day : Z * Z * Z -> Z * Z * Z -> Prop :=
  | nd_day y m d n : month_length y m n -> 1 <= d < n -> next_day (y, m, d) (y, m, d + 1)
  | nd_month y m n : month_length y m n -> m < 12 -> next_day (y, m, n) (y, m + 1, 1)
  | nd_year y : next_day (y, 12, 31) (y + 1, 1, 1).

(** [date_of n d]: the [n]-th day counted from Thursday 1970-01-01 (before it when negative) is [d]. *)
Inductive date_of : Z -> Z * Z * Z -> Prop :=
  | date_epoch : date_of 0 (1970, 1, 1)
  | date_next n a b : date_of n a -> next_day a b -> date_of (n + 1) b
  | date_prev n a b : date_of n b -> next_day a b -> date_of (n - 1) a.

(** Day of the week, Monday = 0. *)
Definition weekday (n : Z) : Z := (n + 3) mod 7.
