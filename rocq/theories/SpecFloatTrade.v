(** Histories of a trade priced in cents, on Python floats. *)
From Verif Require Import Trade SpecTrade SpecBinary64 NumFloat.
Open Scope Z_scope.

(** The quotes are the floats of at most [b] cents, in absolute value. *)
Definition cent_quotes (b : Z) (t : tick b64) : Prop :=
  exists k j, decimal k (tk_bid t) /\ decimal j (tk_ask t) /\ Z.abs k <= b /\ Z.abs j <= b.
(** A trade of quantity [q] opened from a tick, then updated and closed (in part or not) from ticks; the list holds its results, latest first. *)
Inductive priced (b q : Z) : trade b64 -> list b64 -> Prop :=
  | priced_open tk e d s ref t : cent_quotes b tk -> open_from_tick tk e (Dir d) q s ref = Ok t -> priced b q t [result t]
  | priced_tick t l tk : cent_quotes b tk -> priced b q t l -> priced b q (update_from_tick t tk) (result (update_from_tick t tk) :: l)
  | priced_close t l tk n ref t' c : cent_quotes b tk -> qty_ok n -> priced b q t l -> close_from_tick t tk n ref = Ok (t', c) ->
      priced b q t' (result t' :: result (update_from_tick t tk) :: l).
(** The prices of the trade are floats of cents (at most 2^30 units); its profit and loss is exactly [z] cents, out of gross moves of [g] cents. *)
Definition cent_pnl (t : trade b64) (z g : Z) : Prop :=
  exists ko kv ks, decimal ko (tr_ov t) /\ decimal kv (tr_cv t) /\ Forall2 (fun c k => decimal k (tc_value c)) (tr_closes t) ks /\
    Z.abs ko <= 100 * 2 ^ 30 /\ Z.abs kv <= 100 * 2 ^ 30 /\ Forall (fun k => Z.abs k <= 100 * 2 ^ 30) ks /\
    Z.abs (opened_quantities t) <= 2 ^ 53 /\ Forall (fun c => Z.abs (tc_qty c) <= 2 ^ 53) (tr_closes t) /\
    z = side (tr_dir t) * (SpecTrade.total (zip_with (fun c k => (k - ko) * tc_qty c) (tr_closes t) ks) + (kv - ko) * opened_quantities t) /\
    g = SpecTrade.total (zip_with (fun c k => Z.abs ((k - ko) * tc_qty c)) (tr_closes t) ks) + Z.abs ((kv - ko) * opened_quantities t).
