(** Vocabulary of the properties of providers, strategies and epics: the states a program can be in. *)
From Coq Require Export Sorting.Sorted.
From Verif Require Export World SpecTrade.
Open Scope Z_scope.

Section spec.
  Context {F : Type} `{Num F}.

  (** Creation and registration of objects. *)
  Definition setup (o : op F) : Prop :=
    match o with OTick _ _ | OCmd _ => False | _ => True end.

  (** Every call made by a callback satisfies [P]. *)
  Fixpoint script_ok (P : cmd F -> Prop) (s : script F) : Prop :=
    match s with
    | SDone | SRaise _ => True
    | SCall c k => P c /\ forall w r, script_ok P (k w r)
    end.
  Definition programs_ok (P : cmd F -> Prop) (pr : programs F) : Prop := forall sid cb eid w, script_ok P (pr sid cb eid w).
  Definition op_ok (P : cmd F -> Prop) (o : op F) : Prop := match o with OCmd c => P c | _ => True end.

  (** States a program whose calls satisfy [P] can go through, between operations and inside the
      processing of a tick (callbacks included).  The steps of a tick are allowed in any order: this
      contains every state of a real run (theorem [run_reach] and [callback_reach] in WorldProofs.v). *)
  Inductive reach (P : cmd F -> Prop) : world F -> Prop :=
    | reach_empty : reach P empty_world
    | reach_call w c : reach P w -> P c -> reach P (fst (run_cmd w c))
    | reach_setup pr w o : reach P w -> setup o -> reach P (fst (step pr w o))
    | reach_accept w eid e tk : reach P w -> w_epics w !! eid = Some e ->
        arrow_ltb (tk_dt (tick_to (ep_tz e) tk)) (tk_dt (ep_last e)) = false ->
        reach P (upd_epics w (<[eid := ep_set_last e (tick_to (ep_tz e) tk) (is_market_open e (tick_to (ep_tz e) tk))]> (w_epics w)))
    | reach_fset w eid e x : reach P w -> w_epics w !! eid = Some e -> x ∈ ep_fsets e ->
        reach P (fst (update_frame_set (ep_last e) w x))
    | reach_value w eid e : reach P w -> w_epics w !! eid = Some e -> reach P (update_open_trades w (ep_prov e) (ep_last e))
    | reach_active w sid s d : reach P w -> w_strats w !! sid = Some s ->
        reach P (upd_strats w (<[sid := fst (is_active s d)]> (w_strats w)))
    | reach_log w l : reach P w -> reach P (upd_log w l).

  (** Trades are opened with positive quantities, closes ask for non-negative quantities. *)
  Definition sane_call (c : cmd F) : Prop :=
    match c with
    | COpen _ _ q _ _ => 0 < q
    | CClose _ q _ | CEpicClose _ _ q _ | CCloseAll _ q _ | CTradeClose _ _ _ q _ | CTradeCloseEpic _ q _ => qty_ok q
    | _ => True
    end.
  (** Any call. *)
  Definition any_call (c : cmd F) : Prop := True.

  (** Trade [i] is registered in provider [p]. *)
  Definition registered (w : world F) (pid i : nat) : Prop := exists p, w_provs w !! pid = Some p /\ i ∈ pv_trades p.
  Definition is_backtest (w : world F) (pid : nat) : Prop := exists p, w_provs w !! pid = Some p /\ pv_kind p = PBacktests.
  Definition is_open (w : world F) (i : nat) : Prop := exists t, w_trades w !! i = Some t /\ opened_quantities t <> 0.

  (** Ids in creation order, each once. *)
  Definition increasing (l : list nat) : Prop := StronglySorted lt l.

  (** Net open quantity of a strategy over a list of trades: BUY counts positively, SELL negatively. *)
  Definition dsign (d : dir) : Z := match d with BUY => 1 | SELL => -1 end.
  Definition exposure_of (w : world F) (s : option nat) (i : nat) : Z :=
    match w_trades w !! i with
    | Some t => if decide (tr_strat t = s) then dsign (tr_dir t) * opened_quantities t else 0
    | None => 0
    end.
  Definition exposure (w : world F) (s : option nat) (pid : nat) : Z :=
    match w_provs w !! pid with
    | Some p => total (map (exposure_of w s) (pv_trades p))
    | None => 0
    end.

  (** Trade [i] is an open trade of strategy [s] in direction [d]. *)
  Definition open_dir (w : world F) (s : option nat) (d : dir) (i : nat) : Prop :=
    exists t, w_trades w !! i = Some t /\ tr_strat t = s /\ tr_dir t = d /\ opened_quantities t <> 0.
End spec.

Section netting.
  Context {F : Type} `{Num F}.
  (** The open trades of strategy [s] in direction [d] of a provider, newest first. *)
  Definition other (d : dir) : dir := match d with BUY => SELL | SELL => BUY end.
  Definition open_in (w : world F) (s : option nat) (d : dir) (i : nat) : bool :=
    match w_trades w !! i with
    | Some t => bool_decide (tr_strat t = s) && bool_decide (tr_dir t = d) && negb (opened_quantities t =? 0)
    | None => false
    end.
  Definition open_trades_of (w : world F) (p : provider) (s : option nat) (d : dir) : list nat :=
    List.filter (open_in w s d) (reverse (pv_trades p)).
  Definition open_qty (w : world F) (i : nat) : Z :=
    match w_trades w !! i with Some t => opened_quantities t | None => 0 end.
  (** Quantity taken from an open quantity [a] when [before] was already taken by newer trades out of [q]:
      what is left of [q], and everything once nothing is left. *)
  Definition netted (q before a : Z) : Z := if q <=? before then a else Z.min a (q - before).
End netting.

Section threads.
  Context {F : Type} `{Num F}.
  Implicit Types (w : world F).
  (** Thread number [k] of provider [a] has target [j]; [d] tells whether it ran. *)
  Definition has_job w (a k : nat) (j : job) (d : bool) : Prop :=
    exists p, w_provs w !! a = Some p /\ pv_threads p !! k = Some {| th_job := j; th_done := d |}.
  Definition handed w (a : nat) (j : job) : Prop := exists k d, has_job w a k j d.
  (** The status of the trade or close a thread is about is CONFIRMED. *)
  Definition confirmed w (j : job) : Prop :=
    match j with
    | JOpen i => exists t, w_trades w !! i = Some t /\ tr_status t = CONFIRMED
    | JClose i c => exists t x, w_trades w !! i = Some t /\ tr_closes t !! c = Some x /\ tc_status x = CONFIRMED
    end.
  (** What a thread is about exists; its status; the status a provider of kind [k] gives. *)
  Definition has_target w (j : job) : Prop :=
    match j with JOpen i => exists t, w_trades w !! i = Some t | JClose i c => exists t x, w_trades w !! i = Some t /\ tr_closes t !! c = Some x end.
  Definition has_status w (j : job) (s : status) : Prop :=
    match j with
    | JOpen i => exists t, w_trades w !! i = Some t /\ tr_status t = s
    | JClose i c => exists t x, w_trades w !! i = Some t /\ tr_closes t !! c = Some x /\ tc_status x = s
    end.
  Definition answer (k : pkind) (j : job) : option status :=
    match k, j with PBase, _ => None | PBacktests, _ => Some CONFIRMED | PCustom so _, JOpen _ => Some so | PCustom _ sc, JClose _ _ => Some sc end.
  (** Closes are made through an epic or a strategy, not by calling Trade.close directly. *)
  Definition via_provider (c : cmd F) : Prop :=
    match c with CTradeClose _ _ _ _ _ | CTradeCloseEpic _ _ _ => False | _ => True end.

  (** The state with all statuses and the progress of threads blanked. *)
  Definition erase_trade (t : trade F) : trade F :=
    set_closes (set_status t CREATED) ((fun c => set_cstatus c CREATED) <$> tr_closes t).
  Definition erase_prov (p : provider) : provider :=
    pv_set_threads p ((fun th => {| th_job := th_job th; th_done := false |}) <$> pv_threads p).
  Definition erase w : world F :=
    {| w_trades := erase_trade <$> w_trades w; w_provs := erase_prov <$> w_provs w; w_strats := w_strats w;
       w_epics := w_epics w; w_fsets := w_fsets w; w_log := w_log w |}.

  (** [s'] makes the calls of [s], with request threads run in between wherever the scheduler likes; its
      decisions do not depend on statuses or on the progress of threads. *)
  Inductive woven : script F -> script F -> Prop :=
    | woven_done : woven SDone SDone
    | woven_raise e : woven (SRaise e) (SRaise e)
    | woven_call c k k' : (forall w w' r, erase w = erase w' -> woven (k w r) (k' w' r)) -> woven (SCall c k) (SCall c k')
    | woven_run p n s k' : (forall w r, woven s (k' w r)) -> woven s (SCall (CRun p n) k').
  Definition woven_programs (pr pr' : programs F) : Prop :=
    forall sid cb eid w w', erase w = erase w' -> woven (pr sid cb eid w) (pr' sid cb eid w').
  Inductive woven_ops : list (op F) -> list (op F) -> Prop :=
    | wops_nil : woven_ops [] []
    | wops_op o l l' : woven_ops l l' -> woven_ops (o :: l) (o :: l')
    | wops_run p n l l' : woven_ops l l' -> woven_ops l (OCmd (CRun p n) :: l').
End threads.

(** The price at which a trade in direction [d] is valued by a tick. *)
Definition exit_price {F} (d : dir) (tk : tick F) : F := match d with BUY => tk_bid tk | SELL => tk_ask tk end.
(** The trade was only revalued: everything but the current price and the result envelope is kept. *)
Definition only_revalued {F} (t t' : trade F) : Prop :=
  tr_epic t' = tr_epic t /\ tr_strat t' = tr_strat t /\ tr_dir t' = tr_dir t /\ tr_oq t' = tr_oq t /\ tr_closes t' = tr_closes t /\
  tr_ov t' = tr_ov t /\ tr_dt t' = tr_dt t /\ tr_status t' = tr_status t /\ tr_ref t' = tr_ref t.
