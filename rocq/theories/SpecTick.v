(** What a valid price argument is. *)
From Verif Require Import Tick.

(** [numeric a p]: the argument [a] is a number, of price [p]. *)
Inductive numeric {F} `{Num F} : numarg F -> F -> Prop :=
  | numeric_int z : numeric (NInt z) (fofZ z)
  | numeric_float x : numeric (NFloat x) x.
