(** The arithmetic used by estrade on Python floats, as a class, and its exact
    rational instance. *)
From Verif Require Export PyBase.
Open Scope Z_scope.

(** The float operations that occur in estrade: [+ - * /], [abs], [round(x, 2)],
    the comparisons, and the conversion of an [int] operand. *)
Class Num (F : Type) := {
  fofZ : Z -> F;
  fadd : F -> F -> F;
  fsub : F -> F -> F;
  fmul : F -> F -> F;
  fdiv : F -> F -> F;      (* only called with a non-zero divisor, see [fdivr] *)
  fabs : F -> F;
  round2 : F -> F;         (* Python round(x, 2) *)
  fltb : F -> F -> bool;   (* x < y *)
  fleb : F -> F -> bool;   (* x <= y *)
  feqb : F -> F -> bool;   (* x == y *)
}.

Section ops.
  Context {F} `{Num F}.
  Definition f0 : F := fofZ 0.
  (** Python truthiness of a float: [not x] is [x == 0]. *)
  Definition ftruthy (x : F) : bool := negb (feqb x f0).
  (** Python [x / y]: ZeroDivisionError on a zero divisor. *)
  Definition fdivr (x y : F) : res F := if feqb y f0 then Err ZeroDivisionError else Ok (fdiv x y).
  (** Python [max(a, b)] keeps the first of equal arguments: replaces only when [b > a]. *)
  Definition fmax (a b : F) : F := if fltb a b then b else a.
  (** Python [min(a, b)]: replaces only when [b < a]. *)
  Definition fmin (a b : F) : F := if fltb b a then b else a.
  (** Python [sum(l)]: left to right from int 0 (CPython < 3.12: plain additions). *)
  Definition fsum (l : list F) : F := fold_left fadd l f0.
End ops.

(** ** Exact instance: rationals, [round(x, 2)] half to even on the cents
    (what Python computes on [fractions.Fraction]). *)
Definition Zround_half_even (n : Z) (d : positive) : Z :=
  let q := n / Zpos d in
  let r := n mod Zpos d in
  match 2 * r ?= Zpos d with
  | Lt => q
  | Gt => q + 1
  | Eq => if Z.even q then q else q + 1
  end.
Definition Qround_half_even (x : Q) : Z := Zround_half_even (Qnum x) (Qden x).
Definition Qround2 (x : Q) : Q := Qred (inject_Z (Qround_half_even (x * inject_Z 100)%Q) / inject_Z 100)%Q.

Global Instance NumQ : Num Q := {
  fofZ := inject_Z;
  fadd x y := Qred (x + y)%Q;
  fsub x y := Qred (x - y)%Q;
  fmul x y := Qred (x * y)%Q;
  fdiv x y := Qred (x / y)%Q;
  fabs x := Qabs x;
  round2 := Qround2;
  fltb x y := negb (Qle_bool y x);
  fleb x y := Qle_bool x y;
  feqb x y := Qeq_bool x y;
}.
