(** Vocabulary: histories of calls that give prices to a trade, quantities closed at a price, opposite results. *)
From Verif Require Import Trade SpecTrade.
From Coq Require Import QArith.
Open Scope Z_scope.

Section calls.
  Context {F : Type} `{Num F}.
  (** A call on a trade: [update(v)] or [close(v, d, q, ref)], with any arguments. *)
  Inductive tcall := TUpdate (v : F) | TClose (v : F) (d : dtarg) (q : option Z) (ref : string).
  (** An exception (naive datetime) leaves the trade as it is. *)
  Definition do_call (t : trade F) (c : tcall) : trade F :=
    match c with
    | TUpdate v => update t v
    | TClose v d q ref => match close t v d q ref with Ok (t', _) => t' | Err _ => t end
    end.
  Definition do_calls (t : trade F) (l : list tcall) : trade F := fold_left do_call l t.
End calls.
Arguments tcall F : clear implicits.

(** Quantity closed at the price [p]. *)
Definition booked_at (p : Q) (l : list (tclose Q)) : Z :=
  total (map tc_qty (List.filter (fun c => Qeq_bool (tc_value c) p) l)).

(** The same close at a price moved by [d]. *)
Definition moved (d : Q) (c c' : tclose Q) : Prop := (tc_value c' == tc_value c + d)%Q /\ tc_qty c' = tc_qty c.

(** The same call with its price moved by [d]. *)
Inductive moved_call (d : Q) : tcall Q -> tcall Q -> Prop :=
  | mc_update v v' : (v' == v + d)%Q -> moved_call d (TUpdate v) (TUpdate v')
  | mc_close v v' dt q ref : (v' == v + d)%Q -> moved_call d (TClose v dt q ref) (TClose v' dt q ref).
