(** Rounding to cents, as a relation: [y] is a whole number of cents nearest to [x], the even one
    when two are equally near. *)
From Coq Require Import ZArith QArith Qabs.
Open Scope Q_scope.

Definition round_cent (x y : Q) : Prop :=
  exists z : Z, y == (z # 100) /\ Qabs (x - y) <= 1 # 200 /\ (Qabs (x - y) == 1 # 200 -> Z.even z = true).
