(** Vocabulary of C07 for whole programs: the revaluations of a trade. *)
From Verif Require Export SpecMarket SpecTrade.
Open Scope Z_scope.

Section spec.
  Context {F : Type} `{Num F}.
  (** From [t0], the trade is revalued and closed at quotes while it is open; the list holds the results after each revaluation, latest first.
      Nothing is recorded once it is closed. *)
  Inductive watched (t0 : trade F) : trade F -> list F -> Prop :=
    | watched_none : watched t0 t0 []
    | watched_update t l v : watched t0 t l -> closed t = false -> watched t0 (update t v) (result (update t v) :: l)
    | watched_close t l tk q ref t' c : watched t0 t l -> closed t = false -> close_from_tick t tk q ref = Ok (t', c) ->
        watched t0 t' (result (update_from_tick t tk) :: l)
    | watched_close_again t l tk q ref t' c : watched t0 t l -> closed t = true -> close_from_tick t tk q ref = Ok (t', c) -> watched t0 t' l
    | watched_status t l s : watched t0 t l -> watched t0 (set_status t s) l
    | watched_close_status t l i s : watched t0 t l -> watched t0 (set_closes t (alter (fun c => set_cstatus c s) i (tr_closes t))) l.
  (** Opened and closed at the quotes only, with positive quantities. *)
  Definition quoted_call (c : cmd F) : Prop := at_market c /\ sane_call c.
  (** The epic of the trade has a backtest provider. *)
  Definition backtested (w : world F) (t : trade F) : Prop := exists e, w_epics w !! tr_epic t = Some e /\ is_backtest w (ep_prov e).
End spec.
