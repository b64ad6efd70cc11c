(** Vocabulary for the prices and dates of openings and closings in whole programs (C63). *)
From Verif Require Export SpecWorld SpecEpic.
Open Scope Z_scope.

Section spec.
  Context {F : Type} `{Num F}.

  (** No call closes a trade at a price given by the caller. *)
  Definition at_market (c : cmd F) : Prop := match c with CTradeClose _ _ _ _ _ => False | _ => True end.
  Definition entry_price (d : dir) (tk : tick F) : F := match d with BUY => tk_ask tk | SELL => tk_bid tk end.
  (** Price, quantity and date of a close (its status changes later). *)
  Definition terms (c : tclose F) : F * Z * arrow := (tc_value c, tc_qty c, tc_dt c).

  (** Opened, resp. closed, at this tick. *)
  Definition opened_at (tk : tick F) (t : trade F) : Prop := tr_ov t = entry_price (tr_dir t) tk /\ tr_dt t = tk_dt tk.
  Definition closed_at (tk : tick F) (t : trade F) (x : F * Z * arrow) : Prop :=
    let '(v, q, d) := x in d = tk_dt tk /\ (0 < q -> v = exit_price (tr_dir t) tk).
  (** What never changes in a trade. *)
  Definition same_deal (t t' : trade F) : Prop :=
    tr_epic t' = tr_epic t /\ tr_strat t' = tr_strat t /\ tr_dir t' = tr_dir t /\ tr_ov t' = tr_ov t /\ tr_dt t' = tr_dt t /\ tr_ref t' = tr_ref t.

  (** From trades [ts] to trades [ts'], everything opened or closed is so at the last tick of its epic, among the epics [es]. *)
  Definition now (es : list (epic F)) (t : trade F) (p : tick F -> Prop) : Prop := exists e, es !! tr_epic t = Some e /\ p (ep_last e).
  Definition at_last_tick (es : list (epic F)) (ts ts' : list (trade F)) : Prop := forall i,
    match ts !! i, ts' !! i with
    | Some t, Some t' => same_deal t t' /\ exists new, map terms (tr_closes t') = map terms (tr_closes t) ++ new /\ Forall (fun x => now es t' (fun tk => closed_at tk t' x)) new
    | None, Some t' => now es t' (fun tk => opened_at tk t') /\ Forall (fun x => now es t' (fun tk => closed_at tk t' x)) (map terms (tr_closes t'))
    | Some _, None => False
    | None, None => True
    end.

  (** The opening, the closes and the last tick of the epic are in this order on the epic's clock. *)
  Definition well_dated (e : epic F) (t : trade F) : Prop :=
    let ds := tr_dt t :: map tc_dt (tr_closes t) ++ [tk_dt (ep_last e)] in
    Forall (fun d => ar_tz d = ep_tz e) ds /\ Sorted Z.le (map ar_wall ds).
End spec.
