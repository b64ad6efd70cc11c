(** The relative strength index in whole cents. *)
From Coq Require Import ZArith List Lia.
From Verif Require Import SpecTrade.
Import ListNotations.
Open Scope Z_scope.

Fixpoint moves (ks : list Z) : list Z :=
  match ks with
  | a :: ((b :: _) as l) => (b - a) :: moves l
  | _ => []
  end.
(** The cents gained, and the cents lost. *)
Definition rises (ks : list Z) : Z := total (map (fun d => Z.max 0 d) (moves ks)).
Definition falls (ks : list Z) : Z := total (map (fun d => Z.max 0 (- d)) (moves ks)).
(** [m] is the number of hundredths of the index nearest to 100 * rises / (rises + falls), up to a hundredth of such a hundredth;
    10000 when nothing was lost. *)
Definition rsi_cents (ks : list Z) (m : Z) : Prop :=
  if falls ks =? 0 then m = 10000 else 100 * Z.abs (m * (rises ks + falls ks) - 10000 * rises ks) <= 51 * (rises ks + falls ks).
