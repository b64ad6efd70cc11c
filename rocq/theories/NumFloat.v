(** Python floats: IEEE-754 binary64 (Flocq's [binary_float 53 1024], one NaN), as an instance of [Num]. *)
From Coq Require Import Reals.
From Flocq Require Import Core BinarySingleNaN.
From Verif Require Export Num.
Open Scope Z_scope.

Notation b64 := (binary_float 53 1024).
Global Instance prec53 : Prec_gt_0 53 := eq_refl.
Global Instance prec53_1024 : Prec_lt_emax 53 1024 := eq_refl.

(** [float(z)] for an int: nearest, ties to even.  An int beyond the range of floats raises OverflowError in
    Python and gives an infinity here. *)
Definition b64_ofZ (z : Z) : b64 := binary_normalize 53 1024 prec53 prec53_1024 mode_NE z 0 false.

(** [round(x, 2)], CPython Objects/floatobject.c [double_round]: the exact value is rounded to a decimal with
    two digits (ties to even), which is converted to the nearest float (ties to even); a float without fractional part,
    an infinity or a NaN is kept; the sign of a zero result is that of [x]. *)
Definition b64_round2 (x : b64) : b64 :=
  match x with
  | B754_finite s m e _ =>
      if 0 <=? e then x else
      match Zround_half_even (Zpos m * 100) (Pos.shiftl 1 (Z.to_N (- e))) with
      | Zpos p => SF2B _ (proj1 (Bdiv_correct_aux 53 1024 prec53 prec53_1024 mode_NE s p 0 false 100 0))
      | _ => B754_zero s
      end
  | _ => x
  end.

Global Instance NumB64 : Num b64 := {
  fofZ := b64_ofZ;
  fadd := @Bplus 53 1024 prec53 prec53_1024 mode_NE;
  fsub := @Bminus 53 1024 prec53 prec53_1024 mode_NE;
  fmul := @Bmult 53 1024 prec53 prec53_1024 mode_NE;
  fdiv := @Bdiv 53 1024 prec53 prec53_1024 mode_NE;
  fabs := @Babs 53 1024;
  round2 := b64_round2;
  fltb := @Bltb 53 1024;
  fleb := @Bleb 53 1024;
  feqb := @Beqb 53 1024;
}.
