(** Vocabulary of C69: the same program in other units. *)
From Verif Require Export SpecBlind SpecTrade NumQProofs.
Open Scope Z_scope.

(** Prices are multiplied by [u_price] and moved by [u_offset]; quantities are multiplied by [u_size].
    With a negative [u_price] the market is upside down: bid and ask, BUY and SELL are exchanged. *)
Record unit_change := { u_price : Q; u_offset : Q; u_size : Z }.
Definition units_ok (u : unit_change) : Prop := ~ u_price u == 0 /\ (0 < u_size u)%Z.
(** What a result is multiplied by. *)
Definition u_gain (u : unit_change) : Q := (Qabs (u_price u) * inject_Z (u_size u))%Q.
Definition upside_down (u : unit_change) : bool := negb (Qle_bool 0 (u_price u)).

(** The price in the other units.  When the size of the prices changes, both are whole numbers of cents; when the offset is not 0,
    neither is exactly 0. *)
Definition price_in (u : unit_change) (v v' : Q) : Prop := (v' == u_price u * v + u_offset u /\
  (Qabs (u_price u) == 1 \/ cents v /\ cents v') /\ (u_offset u == 0 \/ ~ v == 0 /\ ~ v' == 0))%Q.
Definition tick_in (u : unit_change) (tk tk' : tick Q) : Prop := tk_dt tk' = tk_dt tk /\
  if upside_down u then price_in u (tk_bid tk) (tk_ask tk') /\ price_in u (tk_ask tk) (tk_bid tk')
  else price_in u (tk_bid tk) (tk_bid tk') /\ price_in u (tk_ask tk) (tk_ask tk').
Definition dir_in (u : unit_change) (d : dir) : dir := if upside_down u then other d else d.
Definition dirarg_in (u : unit_change) (d : dirarg) : dirarg := match d with Dir d => Dir (dir_in u d) | BadDir => BadDir end.
Definition qty_in (u : unit_change) (q : option Z) : option Z := Z.mul (u_size u) <$> q.

Inductive cmd_in (u : unit_change) : cmd Q -> cmd Q -> Prop :=
  | ci_open e d q s ref : cmd_in u (COpen e d q s ref) (COpen e (dirarg_in u d) (u_size u * q) s ref)
  | ci_close t q ref : cmd_in u (CClose t q ref) (CClose t (qty_in u q) ref)
  | ci_eclose e t q ref : cmd_in u (CEpicClose e t q ref) (CEpicClose e t (qty_in u q) ref)
  | ci_all s q ref : cmd_in u (CCloseAll s q ref) (CCloseAll s (qty_in u q) ref)
  | ci_update t v v' : price_in u v v' -> cmd_in u (CTradeUpdate t v) (CTradeUpdate t v')
  | ci_uepic t : cmd_in u (CTradeUpdateEpic t) (CTradeUpdateEpic t)
  | ci_tclose t v v' d q ref : price_in u v v' -> cmd_in u (CTradeClose t v d q ref) (CTradeClose t v' d (qty_in u q) ref)
  | ci_cepic t q ref : cmd_in u (CTradeCloseEpic t q ref) (CTradeCloseEpic t (qty_in u q) ref)
  | ci_pause s p : cmd_in u (CPause s p) (CPause s p)
  | ci_stop s b : cmd_in u (CStop s b) (CStop s b)
  | ci_run p k : cmd_in u (CRun p k) (CRun p k).

(** Corresponding trades. *)
Definition close_in (u : unit_change) (c c' : tclose Q) : Prop :=
  price_in u (tc_value c) (tc_value c') /\ tc_qty c' = u_size u * tc_qty c /\ tc_dt c' = tc_dt c /\ tc_status c' = tc_status c /\ tc_ref c' = tc_ref c.
Record trade_in (u : unit_change) (t t' : trade Q) : Prop := {
  ti_epic : tr_epic t' = tr_epic t; ti_strat : tr_strat t' = tr_strat t; ti_dt : tr_dt t' = tr_dt t; ti_status : tr_status t' = tr_status t; ti_ref : tr_ref t' = tr_ref t;
  ti_dir : tr_dir t' = dir_in u (tr_dir t); ti_oq : tr_oq t' = u_size u * tr_oq t; ti_closes : Forall2 (close_in u) (tr_closes t) (tr_closes t');
  ti_ov : price_in u (tr_ov t) (tr_ov t'); ti_cv : price_in u (tr_cv t) (tr_cv t');
  ti_max : (tr_max t' == u_gain u * tr_max t)%Q; ti_min : (tr_min t' == u_gain u * tr_min t)%Q }.
(** Corresponding epics: the same settings, strategies and market state; the last ticks correspond, or neither has received any. *)
Record epic_in (u : unit_change) (e e' : epic Q) : Prop := {
  ei_ref : ep_ref e' = ep_ref e; ei_tz : ep_tz e' = ep_tz e; ei_open : ep_open e' = ep_open e; ei_close : ep_close e' = ep_close e;
  ei_days : ep_days e' = ep_days e; ei_holidays : ep_holidays e' = ep_holidays e; ei_prov : ep_prov e' = ep_prov e; ei_strats : ep_strats e' = ep_strats e;
  ei_mopen : ep_mopen e' = ep_mopen e; ei_last : tick_in u (ep_last e) (ep_last e') \/ ep_last e = fake_tick /\ ep_last e' = fake_tick }.
(** Corresponding states, charts set aside. *)
Record converted (u : unit_change) (w w' : world Q) : Prop := {
  co_trades : Forall2 (trade_in u) (w_trades w) (w_trades w'); co_provs : w_provs w' = w_provs w; co_strats : w_strats w' = w_strats w;
  co_epics : Forall2 (epic_in u) (w_epics w) (w_epics w'); co_log : w_log w' = w_log w }.

(** The offset is 0, or the epic has received a tick. *)
Definition quoted_in (u : unit_change) (w : world Q) (eid : nat) : Prop := (u_offset u == 0)%Q \/ forall e, w_epics w !! eid = Some e -> ep_last e <> fake_tick.
(** A corresponding call that opens no trade on an epic without quotes. *)
Definition call_in (u : unit_change) (w : world Q) (c c' : cmd Q) : Prop := cmd_in u c c' /\ match c with COpen eid _ _ _ _ => quoted_in u w eid | _ => True end.
(** Strategies that make corresponding calls in corresponding states. *)
Definition programs_in (u : unit_change) (pr pr' : programs Q) : Prop := forall sid cb eid w w', converted u w w' -> quoted_in u w eid ->
  alongside (converted u) (call_in u) (at_callback w sid cb eid) (at_callback w' sid cb eid) (pr sid cb eid w) (pr' sid cb eid w').
(** Main programs that do the same in other units, apart from what they do with frame sets and indicators. *)
Inductive ops_in (u : unit_change) (pr : programs Q) : world Q -> list (op Q) -> list (op Q) -> Prop :=
  | oi_nil w : ops_in u pr w [] []
  | oi_left w o l l' : is_chart o = true -> ops_in u pr (fst (step pr w o)) l l' -> ops_in u pr w (o :: l) l'
  | oi_right w o l l' : is_chart o = true -> ops_in u pr w l l' -> ops_in u pr w l (o :: l')
  | oi_tick w e tk tk' l l' : tick_in u tk tk' -> ops_in u pr (fst (step pr w (OTick e tk))) l l' -> ops_in u pr w (OTick e tk :: l) (OTick e tk' :: l')
  | oi_cmd w c c' l l' : call_in u w c c' -> ops_in u pr (fst (step pr w (OCmd c))) l l' -> ops_in u pr w (OCmd c :: l) (OCmd c' :: l')
  | oi_same w o l l' : match o with OTick _ _ | OCmd _ => False | _ => True end -> ops_in u pr (fst (step pr w o)) l l' -> ops_in u pr w (o :: l) (o :: l').
