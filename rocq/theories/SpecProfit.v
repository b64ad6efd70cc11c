(** Vocabulary of C66: the result of a strategy as a sum over what was bought and sold at quoted prices. *)
From Verif Require Export SpecMarket SpecTrade NumQProofs.
Open Scope Z_scope.

(** A quantity opened at one tick and closed at another. *)
Record fill := { fl_dir : dir; fl_qty : Z; fl_in : tick Q; fl_out : tick Q }.
Definition fl_gain (f : fill) : Q := (sgn (fl_dir f) * (exit_price (fl_dir f) (fl_out f) - entry_price (fl_dir f) (fl_in f)) * inject_Z (fl_qty f))%Q.
(** The closes of the trade (those of a positive quantity, in order) as fills, all ticks being among [ticks]. *)
Definition fills_of (ticks : list (tick Q)) (t : trade Q) (fs : list fill) : Prop := exists tk, tk ∈ ticks /\ tk_dt tk = tr_dt t /\
  Forall2 (fun c f => fl_dir f = tr_dir t /\ fl_qty f = tc_qty c /\ fl_in f = tk /\ fl_out f ∈ ticks /\ tk_dt (fl_out f) = tc_dt c)
    (List.filter (fun c => 0 <? tc_qty c) (tr_closes t)) fs.
Definition cent_quotes (tk : tick Q) : Prop := cents (tk_bid tk) /\ cents (tk_ask tk).
(** Opened and closed at the quotes only, with positive quantities. *)
Definition market_call (c : cmd Q) : Prop := at_market c /\ sane_call c.
(** All trades of the strategy are closed. *)
Definition flat_book (w : world Q) (s : strategy) : Prop := forall i t, i ∈ st_trades s -> w_trades w !! i = Some t -> closed t = true.
(** The number of units the strategy has traded. *)
Definition units (w : world Q) (s : strategy) : Z := fold_right (fun i z => match w_trades w !! i with Some t => tr_oq t + z | None => z end) 0 (st_trades s).
(** The bid lies between [bl] and [bh], the ask between [al] and [ah]. *)
Definition quoted (bl bh al ah : Q) (tk : tick Q) : Prop := (bl <= tk_bid tk <= bh /\ al <= tk_ask tk <= ah)%Q.
Definition quoted_op bl bh al ah (o : op Q) : Prop := match o with OTick _ tk => quoted bl bh al ah tk | OCmd c => market_call c | _ => False end.
