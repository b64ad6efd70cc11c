(** Vocabulary of the trade properties: what a caller can do to a trade, and what the figures of a trade
    should be. *)
From Verif Require Import Trade.
From Coq Require Import QArith.
Open Scope Z_scope.

(** A requested quantity is not negative. *)
Definition qty_ok (q : option Z) : Prop := match q with Some z => 0 <= z | None => True end.

Section calls.
  Context {F : Type} `{Num F}.

  (** One call on a trade: price updates, closes with a non-negative quantity, and the status writes of
      provider threads. *)
  Inductive trade_call : trade F -> trade F -> Prop :=
    | call_update t v : trade_call t (update t v)
    | call_tick t tk : trade_call t (update_from_tick t tk)
    | call_close t v d q ref t' c : qty_ok q -> close t v d q ref = Ok (t', c) -> trade_call t t'
    | call_close_tick t tk q ref t' c : qty_ok q -> close_from_tick t tk q ref = Ok (t', c) -> trade_call t t'
    | call_status t s : trade_call t (set_status t s)
    | call_close_status t i s : trade_call t (set_closes t (alter (fun c => set_cstatus c s) i (tr_closes t))).

  (** The trade was just created by [Trade(...)] with quantity [q]. *)
  Inductive created (q : Z) : trade F -> Prop :=
    | created_init d ov dt epic cv strat ref : created q (trade_init d q ov dt epic cv strat ref).

  (** Calls that only use market quotes: updates and tick-driven closes (any quantity); the list holds
      the results observed at creation and after each revaluation, latest first. *)
  Inductive observed : trade F -> list F -> Prop :=
    | obs_created q t : created q t -> observed t [result t]
    | obs_update t l v : observed t l -> observed (update t v) (result (update t v) :: l)
    | obs_tick t l tk : observed t l -> observed (update_from_tick t tk) (result (update_from_tick t tk) :: l)
    | obs_close t l tk q ref t' c : observed t l -> close_from_tick t tk q ref = Ok (t', c) ->
        observed t' (result (update_from_tick t tk) :: l)
    | obs_status t l s : observed t l -> observed (set_status t s) l
    | obs_close_status t l i s : observed t l ->
        observed (set_closes t (alter (fun c => set_cstatus c s) i (tr_closes t))) l.
End calls.

(** Sum of a list of integers. *)
Fixpoint total (l : list Z) : Z := match l with [] => 0 | x :: l' => x + total l' end.
(** Quantities recorded by closes. *)
Definition booked {F} (l : list (tclose F)) : Z := total (map tc_qty l).

Open Scope Q_scope.
(** +1 for BUY, -1 for SELL. *)
Definition sgn (d : dir) : Q := match d with BUY => 1 | SELL => -1 end.
(** Sum over closes of [u price * quantity]. *)
Fixpoint pnl (u : Q -> Q) (l : list (tclose Q)) : Q :=
  match l with [] => 0 | c :: l' => u (tc_value c) * inject_Z (tc_qty c) + pnl u l' end.

(** [m] is the greatest (least) element of [l]. *)
Definition is_max (m : Q) (l : list Q) : Prop := (forall x, x ∈ l -> x <= m) /\ (exists x, x ∈ l /\ m == x).
Definition is_min (m : Q) (l : list Q) : Prop := (forall x, x ∈ l -> m <= x) /\ (exists x, x ∈ l /\ m == x).
