(** Vocabulary for statements about Python floats (binary64). *)
From Coq Require Import Reals.
From Flocq Require Import Core BinarySingleNaN.
From Verif Require Import NumFloat Tick Trade.

(** The real number denoted by a finite float. *)
Notation real := (@B2R 53 1024).
(** [x] is finite and at most [2^e] in absolute value. *)
Definition within (e : Z) (x : b64) : Prop := is_finite x = true /\ (Rabs (real x) <= bpow radix2 e)%R.
Definition quotes_within (e : Z) (t : tick b64) : Prop := within e (tk_bid t) /\ within e (tk_ask t).
(** [x] is what Python reads for the decimal [k / 100]: the nearest float, ties to even. *)
Definition decimal (k : Z) (x : b64) : Prop :=
  is_finite x = true /\ real x = round radix2 (FLT_exp (-1074) 53) ZnearestE (IZR k / 100).
(** +1 for BUY, -1 for SELL. *)
Definition side (d : dir) : Z := match d with BUY => 1 | SELL => -1 end.
(** [y] is the opposite of [x]; zeros are not distinguished by their signs, NaN is opposite to NaN. *)
Definition opposite (x y : b64) : Prop :=
  match x, y with
  | B754_nan, B754_nan => True
  | B754_infinity s, B754_infinity s' => s' = negb s
  | (B754_zero _ | B754_finite _ _ _ _), (B754_zero _ | B754_finite _ _ _ _) => real y = (- real x)%R
  | _, _ => False
  end.
