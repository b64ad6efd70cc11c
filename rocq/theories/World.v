(** estrade/epic.py, estrade/strategy.py, estrade/trade_provider.py, estrade/tick_provider.py as
    one state machine over the objects of a program. *)
From Verif Require Export Trade Frames.

(** The request hooks of a trade provider (trade_provider.py:44-61, 85-102): the abstract base raises
    NotImplementedError in the thread, the backtest provider sets CONFIRMED (lines 195-213), a
    custom provider is represented by the statuses its hooks assign. *)
Inductive pkind := PBacktests | PBase | PCustom (s_open s_close : status).

(** A started thread (trade_provider.py:77-83, 111-117): its target and whether it ran. *)
Inductive job := JOpen (trade : nat) | JClose (trade : nat) (close_index : nat).
Record thread := { th_job : job; th_done : bool }.

(** trade_provider.py:30-42; [default_transaction_status] is never read by the code. *)
Record provider := { pv_kind : pkind; pv_trades : list nat; pv_threads : list thread }.

(** strategy.py:33-44 *)
Record strategy := {
  st_ref : string; st_epics : dict nat; st_paused : option arrow; st_stopped : bool; st_trades : list nat }.

(** The callbacks of a strategy, strategy.py:191-225. *)
Inductive callback := OnEveryTick | OnMarketOpen | OnMarketClose | OnEveryTickMarketOpen.
(** Ghost: a callback invocation (strategy, callback, epic). *)
Record event := { ev_strat : nat; ev_cb : callback; ev_epic : nat }.

Definition dir_opp (d : dir) : dir := match d with BUY => SELL | SELL => BUY end.

(** [for ... in l: body], stopping at the first exception. *)
Fixpoint forM {A W} (f : W -> A -> W * res unit) (w : W) (l : list A) : W * res unit :=
  match l with
  | [] => (w, Ok ())
  | x :: l' => match f w x with
               | (w', Ok _) => forM f w' l'
               | (w', Err e) => (w', Err e)
               end
  end.

Section world.
  Context {F : Type} `{Num F}.

  (** epic.py:45-95; [open_time]/[close_time] are microseconds of the day, holidays are day
      numbers, [ep_prov] etc. are object ids. *)
  Record epic := {
    ep_ref : string; ep_tz : tzinfo; ep_open : Z; ep_close : Z; ep_days : list Z; ep_holidays : list Z;
    ep_prov : nat; ep_last : tick F; ep_fsets : dict nat; ep_strats : dict nat; ep_mopen : bool }.

  (** All objects of the program.  [w_log] is a ghost recording callback invocations. *)
  Record world := {
    w_trades : list (trade F); w_provs : list provider; w_strats : list strategy;
    w_epics : list epic; w_fsets : list (fset F); w_log : list event }.

  Definition empty_world : world :=
    {| w_trades := []; w_provs := []; w_strats := []; w_epics := []; w_fsets := []; w_log := [] |}.

  Definition upd_trades (w : world) x := {| w_trades := x; w_provs := w_provs w; w_strats := w_strats w;
    w_epics := w_epics w; w_fsets := w_fsets w; w_log := w_log w |}.
  Definition upd_provs (w : world) x := {| w_trades := w_trades w; w_provs := x; w_strats := w_strats w;
    w_epics := w_epics w; w_fsets := w_fsets w; w_log := w_log w |}.
  Definition upd_strats (w : world) x := {| w_trades := w_trades w; w_provs := w_provs w; w_strats := x;
    w_epics := w_epics w; w_fsets := w_fsets w; w_log := w_log w |}.
  Definition upd_epics (w : world) x := {| w_trades := w_trades w; w_provs := w_provs w; w_strats := w_strats w;
    w_epics := x; w_fsets := w_fsets w; w_log := w_log w |}.
  Definition upd_fsets (w : world) x := {| w_trades := w_trades w; w_provs := w_provs w; w_strats := w_strats w;
    w_epics := w_epics w; w_fsets := x; w_log := w_log w |}.
  Definition upd_log (w : world) x := {| w_trades := w_trades w; w_provs := w_provs w; w_strats := w_strats w;
    w_epics := w_epics w; w_fsets := w_fsets w; w_log := x |}.

  Definition pv_set_trades (p : provider) l := {| pv_kind := pv_kind p; pv_trades := l; pv_threads := pv_threads p |}.
  Definition pv_set_threads (p : provider) l := {| pv_kind := pv_kind p; pv_trades := pv_trades p; pv_threads := l |}.
  Definition st_set_trades (s : strategy) l := {| st_ref := st_ref s; st_epics := st_epics s;
    st_paused := st_paused s; st_stopped := st_stopped s; st_trades := l |}.
  Definition st_set_paused (s : strategy) p := {| st_ref := st_ref s; st_epics := st_epics s;
    st_paused := p; st_stopped := st_stopped s; st_trades := st_trades s |}.
  Definition st_set_stopped (s : strategy) b := {| st_ref := st_ref s; st_epics := st_epics s;
    st_paused := st_paused s; st_stopped := b; st_trades := st_trades s |}.
  Definition st_set_epics (s : strategy) d := {| st_ref := st_ref s; st_epics := d;
    st_paused := st_paused s; st_stopped := st_stopped s; st_trades := st_trades s |}.
  Definition ep_set_last (e : epic) t b := {| ep_ref := ep_ref e; ep_tz := ep_tz e; ep_open := ep_open e;
    ep_close := ep_close e; ep_days := ep_days e; ep_holidays := ep_holidays e; ep_prov := ep_prov e;
    ep_last := t; ep_fsets := ep_fsets e; ep_strats := ep_strats e; ep_mopen := b |}.
  Definition ep_set_fsets (e : epic) d := {| ep_ref := ep_ref e; ep_tz := ep_tz e; ep_open := ep_open e;
    ep_close := ep_close e; ep_days := ep_days e; ep_holidays := ep_holidays e; ep_prov := ep_prov e;
    ep_last := ep_last e; ep_fsets := d; ep_strats := ep_strats e; ep_mopen := ep_mopen e |}.
  Definition ep_set_strats (e : epic) d := {| ep_ref := ep_ref e; ep_tz := ep_tz e; ep_open := ep_open e;
    ep_close := ep_close e; ep_days := ep_days e; ep_holidays := ep_holidays e; ep_prov := ep_prov e;
    ep_last := ep_last e; ep_fsets := ep_fsets e; ep_strats := d; ep_mopen := ep_mopen e |}.

  (** *** Trade providers *)

  (** trade_provider.py:132-141 [opened_trades]: newest first, not fully closed. *)
  Definition trade_open_b (w : world) (i : nat) : bool :=
    match w_trades w !! i with Some t => negb (closed t) | None => false end.
  Definition opened_trades (w : world) (p : provider) : list nat :=
    List.filter (trade_open_b w) (reverse (pv_trades p)).

  (** Creation and start of a request thread. *)
  Definition add_thread (w : world) (pid : nat) (j : job) : world :=
    upd_provs w (alter (fun p => pv_set_threads p (pv_threads p ++ [{| th_job := j; th_done := false |}]))
                       pid (w_provs w)).

  (** trade_provider.py:63-83 [BaseTradeProvider.open_trade] *)
  Definition base_open_trade (w : world) (pid tid : nat) : world :=
    match w_trades w !! tid with
    | None => w
    | Some t =>
        let w1 := upd_provs w (alter (fun p => pv_set_trades p (pv_trades p ++ [tid])) pid (w_provs w)) in
        let w2 := match tr_strat t with
                  | Some s => upd_strats w1 (alter (fun x => st_set_trades x (st_trades x ++ [tid])) s (w_strats w1))
                  | None => w1
                  end in
        add_thread w2 pid (JOpen tid)
    end.

  (** trade_provider.py:104-117 [close_trade] *)
  Definition provider_close_trade (w : world) (pid tid ci : nat) : world := add_thread w pid (JClose tid ci).

  (** trade.py:275-287 [close_from_epic]: close at the last tick of the trade's own epic.  Returns the
      index of the new close in the trade. *)
  Definition close_from_epic (w : world) (tid : nat) (q : option Z) (ref : string) : res (world * nat) :=
    match w_trades w !! tid with
    | None => Err Dangling
    | Some t =>
        match w_epics w !! tr_epic t with
        | None => Err Dangling
        | Some e =>
            let! tc := close_from_tick t (ep_last e) q ref in
            Ok (upd_trades w (<[tid := fst tc]> (w_trades w)), length (tr_closes t))
        end
    end.

  (** trade_provider.py:166-186: one iteration of the netting loop for the trade [tid] being
      opened, over the open trade [oid]. *)
  Definition net_step (pid tid : nat) (ref : string) (w : world) (oid : nat) : world * res unit :=
    match w_trades w !! tid, w_trades w !! oid with
    | Some t, Some o =>
        if dir_eqb (tr_dir o) (dir_opp (tr_dir t)) then
          if bool_decide (tr_strat o = tr_strat t) then
            let qc := Z.min (opened_quantities o) (tr_oq t) in
            match close_from_epic w oid (Some qc) ref with
            | Err e => (w, Err e)
            | Ok (w1, ci) =>
                let w2 := provider_close_trade w1 pid oid ci in
                (upd_trades w2 (alter (fun x => set_oq x (tr_oq x - qc)) tid (w_trades w2)), Ok ())
            end
          else (w, Ok ())
        else (w, Ok ())
    | _, _ => (w, Err Dangling)
    end.

  (** trade_provider.py:147-193 [TradeProviderBacktests.open_trade] *)
  Definition backtest_open_trade (w : world) (pid tid : nat) (ref : string) : world * res unit :=
    match w_provs w !! pid with
    | None => (w, Err Dangling)
    | Some p =>
        match forM (net_step pid tid ref) w (opened_trades w p) with
        | (w1, Err e) => (w1, Err e)
        | (w1, Ok _) =>
            match w_trades w1 !! tid with
            | None => (w1, Err Dangling)
            | Some t => if tr_oq t <=? 0 then (w1, Ok ()) else (base_open_trade w1 pid tid, Ok ())
            end
        end
    end.

  Definition provider_open_trade (w : world) (pid tid : nat) (ref : string) : world * res unit :=
    match w_provs w !! pid with
    | None => (w, Err Dangling)
    | Some p => match pv_kind p with
                | PBacktests => backtest_open_trade w pid tid ref
                | _ => (base_open_trade w pid tid, Ok ())
                end
    end.

  (** A thread body runs: the request hook of the provider (trade_provider.py:44-61, 85-102, 195-213). *)
  Definition job_effect (k : pkind) (j : job) (ts : list (trade F)) : list (trade F) :=
    match k with
    | PBase => ts
    | _ =>
        let so := match k with PCustom s _ => s | _ => CONFIRMED end in
        let sc := match k with PCustom _ s => s | _ => CONFIRMED end in
        match j with
        | JOpen t => alter (fun x => set_status x so) t ts
        | JClose t c => alter (fun x => set_closes x (alter (fun y => set_cstatus y sc) c (tr_closes x))) t ts
        end
    end.
  Definition run_thread (w : world) (pid k : nat) : world :=
    match w_provs w !! pid with
    | None => w
    | Some p =>
        match pv_threads p !! k with
        | Some th =>
            if th_done th then w else
            upd_provs (upd_trades w (job_effect (pv_kind p) (th_job th) (w_trades w)))
              (<[pid := pv_set_threads p (<[k := {| th_job := th_job th; th_done := true |}]> (pv_threads p))]>
                 (w_provs w))
        | None => w
        end
    end.
  (** trade_provider.py:119-130 [is_alive] *)
  Definition is_alive (p : provider) : bool := existsb (fun th => negb (th_done th)) (pv_threads p).

  (** *** Opening and closing through an epic or a strategy *)

  (** An optional object id denotes an existing object. *)
  Definition valid_id {A} (l : list A) (o : option nat) : bool :=
    match o with Some i => bool_decide (i < length l)%nat | None => true end.

  (** epic.py:261-271 [open_trade] (strategy.py:73-82 passes itself as strategy); returns the id of the trade. *)
  Definition epic_open_trade (w : world) (eid : nat) (d : dirarg) (q : Z) (strat : option nat) (ref : string)
      : world * res nat :=
    match w_epics w !! eid, valid_id (w_strats w) strat with
    | None, _ | _, false => (w, Err Dangling)
    | Some e, true =>
        match open_from_tick (ep_last e) eid d q strat ref with
        | Err x => (w, Err x)
        | Ok t =>
            let tid := length (w_trades w) in
            match provider_open_trade (upd_trades w (w_trades w ++ [t])) (ep_prov e) tid ref with
            | (w', Ok _) => (w', Ok tid)
            | (w', Err x) => (w', Err x)
            end
        end
    end.

  (** epic.py:273-285 [close_trade] *)
  Definition epic_close_trade (w : world) (eid tid : nat) (q : option Z) (ref : string) : world * res unit :=
    match w_epics w !! eid with
    | None => (w, Err Dangling)
    | Some e =>
        match close_from_epic w tid q ref with
        | Err x => (w, Err x)
        | Ok (w1, ci) => (provider_close_trade w1 (ep_prov e) tid ci, Ok ())
        end
    end.

  (** strategy.py:84-96 [close_trade]: through the trade's own epic. *)
  Definition strategy_close_trade (w : world) (tid : nat) (q : option Z) (ref : string) : world * res unit :=
    match w_trades w !! tid with
    | None => (w, Err Dangling)
    | Some t => epic_close_trade w (tr_epic t) tid q ref
    end.

  (** strategy.py:111-133 [get_trades] over trade ids; evaluated on one state. *)
  Fixpoint get_trades_loop (ts : list (trade F)) (epics : option (list nat)) (open_only : bool)
      (only_after : option arrow) (l : list nat) : list nat :=
    match l with
    | [] => []
    | i :: l' =>
        match ts !! i with
        | None => get_trades_loop ts epics open_only only_after l'
        | Some t =>
            if (match epics with None => true | Some es => bool_decide (tr_epic t ∈ es) end)
               && (negb open_only || negb (closed t))
            then match only_after with
                 | Some d => if arrow_ltb (tr_dt t) d then []
                             else i :: get_trades_loop ts epics open_only only_after l'
                 | None => i :: get_trades_loop ts epics open_only only_after l'
                 end
            else get_trades_loop ts epics open_only only_after l'
        end
    end.
  Definition get_trades (w : world) (s : strategy) epics open_only only_after : list nat :=
    get_trades_loop (w_trades w) epics open_only only_after (reverse (st_trades s)).

  (** strategy.py:98-106 [close_opened_trades].  The generator is consumed while trades are closed; a close
      only changes the trade just yielded, so the loop tests each trade when it reaches it. *)
  Definition close_opened_step (q : option Z) (ref : string) (w : world) (tid : nat) : world * res unit :=
    if trade_open_b w tid then strategy_close_trade w tid q ref else (w, Ok ()).
  Definition close_opened_trades (w : world) (sid : nat) (q : option Z) (ref : string) : world * res unit :=
    match w_strats w !! sid with
    | None => (w, Err Dangling)
    | Some s => forM (close_opened_step q ref) w (reverse (st_trades s))
    end.

  (** strategy.py:135-155 and 157-186; the [trades] argument: absent, a list, or a generator (always truthy). *)
  Inductive tradesarg := TNone | TList (l : list nat) | TGen (l : list nat).
  Definition sel_trades (s : strategy) (a : tradesarg) : list nat :=
    match a with TNone => st_trades s | TList [] => st_trades s | TList l => l | TGen l => l end.
  Definition results_of (w : world) (l : list nat) : list F :=
    map result (omap (fun i => w_trades w !! i) l).
  Definition strategy_result (w : world) (s : strategy) (a : tradesarg) : F :=
    round2 (fold_left fadd (results_of w (sel_trades s a)) f0).
  Definition profit_factor (w : world) (s : strategy) (a : tradesarg) : res F :=
    let '(ps, ns) := build_sums (results_of w (sel_trades s a)) in
    if feqb ns f0 then Ok ps
    else let ns' := if fltb (fabs ns) (fofZ 1) then fofZ 1 else ns in
         let! d := fdivr ps ns' in Ok (fabs (round2 d)).

  (** *** API calls a program (or a strategy callback) can make *)
  Inductive cmd :=
    | COpen (epic : nat) (d : dirarg) (q : Z) (strat : option nat) (ref : string)   (* Epic/BaseStrategy.open_trade *)
    | CClose (trade : nat) (q : option Z) (ref : string)                            (* BaseStrategy.close_trade *)
    | CEpicClose (epic trade : nat) (q : option Z) (ref : string)                   (* Epic.close_trade *)
    | CCloseAll (strat : nat) (q : option Z) (ref : string)                         (* BaseStrategy.close_opened_trades *)
    | CTradeUpdate (trade : nat) (v : F)                                            (* Trade.update *)
    | CTradeUpdateEpic (trade : nat)                                                (* Trade.update_from_epic *)
    | CTradeClose (trade : nat) (v : F) (d : dtarg) (q : option Z) (ref : string)   (* Trade.close *)
    | CTradeCloseEpic (trade : nat) (q : option Z) (ref : string)                   (* Trade.close_from_epic *)
    | CPause (strat : nat) (until : option arrow)                                   (* strategy.paused_until = ... *)
    | CStop (strat : nat) (b : bool)                                                (* strategy.stopped = ... *)
    | CRun (prov thread : nat).                                                     (* the scheduler runs a request thread *)

  Definition run_cmd (w : world) (c : cmd) : world * res unit :=
    match c with
    | COpen e d q s ref => let '(w', r) := epic_open_trade w e d q s ref in (w', rmap (fun _ => ()) r)
    | CClose t q ref => strategy_close_trade w t q ref
    | CEpicClose e t q ref => epic_close_trade w e t q ref
    | CCloseAll s q ref => close_opened_trades w s q ref
    | CTradeUpdate t v => (upd_trades w (alter (fun x => update x v) t (w_trades w)), Ok ())
    | CTradeUpdateEpic t =>
        match w_trades w !! t with
        | None => (w, Err Dangling)
        | Some x => match w_epics w !! tr_epic x with
                    | None => (w, Err Dangling)
                    | Some e => (upd_trades w (<[t := update_from_tick x (ep_last e)]> (w_trades w)), Ok ())
                    end
        end
    | CTradeClose t v d q ref =>
        match w_trades w !! t with
        | None => (w, Err Dangling)
        | Some x => match close x v d q ref with
                    | Ok (x', _) => (upd_trades w (<[t := x']> (w_trades w)), Ok ())
                    | Err e => (w, Err e)
                    end
        end
    | CTradeCloseEpic t q ref =>
        match close_from_epic w t q ref with Ok (w', _) => (w', Ok ()) | Err e => (w, Err e) end
    | CPause s p => (upd_strats w (alter (fun x => st_set_paused x p) s (w_strats w)), Ok ())
    | CStop s b => (upd_strats w (alter (fun x => st_set_stopped x b) s (w_strats w)), Ok ())
    | CRun p k => (run_thread w p k, Ok ())
    end.

  (** *** Ticks *)

  (** epic.py:152-177 [_in_market_hours] *)
  Definition in_market_hours (e : epic) (tod : Z) : bool :=
    if tod <? ep_open e then false else if ep_close e <? tod then false else true.
  (** epic.py:179-204 [is_market_open] *)
  Definition is_market_open (e : epic) (tk : tick F) : bool :=
    let w := ar_wall (tk_dt tk) in
    if negb (in_market_hours e (w_tod w)) then false
    else if negb (existsb (Z.eqb (w_weekday w)) (ep_days e)) then false
    else if existsb (Z.eqb (w_days w)) (ep_holidays e) then false
    else true.

  (** epic.py:206-208 [_update_frame_sets]; the frame set reads [self.epic] (frame_set.py:185-187, 252-253):
      its market flag and last tick are those of the epic it was last attached to. *)
  Definition fs_epic_state (w : world) (fs : fset F) : bool * option arrow :=
    match fs_epic fs with
    | None => (false, None)
    | Some i => match w_epics w !! i with
                | Some e => (ep_mopen e, Some (tk_dt (ep_last e)))
                | None => (false, None)
                end
    end.
  Definition update_frame_set (tk : tick F) (w : world) (x : string * nat) : world * res unit :=
    match w_fsets w !! x.2 with
    | None => (w, Err Dangling)
    | Some fs =>
        let '(mo, last) := fs_epic_state w fs in
        let '(fs', r) := fs_on_new_tick (gap_fuel fs tk) fs tk mo last in
        (upd_fsets w (<[x.2 := fs']> (w_fsets w)), r)
    end.

  (** epic.py:210-212 [_update_open_trades] *)
  Definition update_open_trades (w : world) (pid : nat) (tk : tick F) : world :=
    match w_provs w !! pid with
    | None => w
    | Some p =>
        upd_trades w (fold_left (fun ts i => alter (fun t => update_from_tick t tk) i ts)
                                (opened_trades w p) (w_trades w))
    end.

  (** strategy.py:46-68 [is_active] / [_is_paused] *)
  Definition is_active (s : strategy) (d : arrow) : strategy * bool :=
    if st_stopped s then (s, false)
    else match st_paused s with
         | None => (s, true)
         | Some u => if arrow_ltb d u then (s, false) else (st_set_paused s None, true)
         end.

  (** The body of a user's callback: API calls one after the other, each continuation sees the state and the
      outcome of the call (so exceptions can be caught), until it returns or raises.  A callback that
      never returns is not represented; calls to [Epic.on_new_tick] or object creation from inside a callback are not modelled. *)
  Inductive script := SDone | SRaise (e : exn) | SCall (c : cmd) (k : world -> res unit -> script).
  Fixpoint run_script (w : world) (s : script) : world * res unit :=
    match s with
    | SDone => (w, Ok ())
    | SRaise e => (w, Err e)
    | SCall c k => let '(w', r) := run_cmd w c in run_script w' (k w' r)
    end.
  (** The user's strategies: the body of each callback of each strategy for each epic and current state. *)
  Definition programs := nat -> callback -> nat -> world -> script.

  Definition run_callback (pr : programs) (sid : nat) (cb : callback) (eid : nat) (w : world) : world * res unit :=
    let w1 := upd_log w (w_log w ++ [{| ev_strat := sid; ev_cb := cb; ev_epic := eid |}]) in
    run_script w1 (pr sid cb eid w).

  (** Sequencing of two statements. *)
  Definition andthen (x : world * res unit) (k : world -> world * res unit) : world * res unit :=
    match x with (w, Ok _) => k w | (w, Err e) => (w, Err e) end.

  (** epic.py:214-225 [_execute_strategies]: one strategy.  The flags are read from the epic at each use
      (a callback cannot change them). *)
  Definition execute_strategy (pr : programs) (eid : nat) (mo_before : bool) (w : world) (x : string * nat)
      : world * res unit :=
    match w_strats w !! x.2, w_epics w !! eid with
    | Some s, Some e =>
        let '(s', act) := is_active s (tk_dt (ep_last e)) in
        let w1 := upd_strats w (<[x.2 := s']> (w_strats w)) in
        if act then
          andthen
            (if eqb mo_before (ep_mopen e) then (w1, Ok ())
             else if mo_before then run_callback pr x.2 OnMarketClose eid w1
             else run_callback pr x.2 OnMarketOpen eid w1)
            (fun w2 => andthen
               (if ep_mopen e then run_callback pr x.2 OnEveryTickMarketOpen eid w2 else (w2, Ok ()))
               (fun w3 => run_callback pr x.2 OnEveryTick eid w3))
        else (w1, Ok ())
    | _, _ => (w, Err Dangling)
    end.

  (** epic.py:227-259 [on_new_tick] *)
  Definition epic_on_new_tick (pr : programs) (w : world) (eid : nat) (tk0 : tick F) : world * res unit :=
    match w_epics w !! eid with
    | None => (w, Err Dangling)
    | Some e =>
        let tk := tick_to (ep_tz e) tk0 in
        if arrow_ltb (tk_dt tk) (tk_dt (ep_last e)) then (w, Err EpicException) else
        let mo_before := ep_mopen e in
        let e' := ep_set_last e tk (is_market_open e tk) in
        let w1 := upd_epics w (<[eid := e']> (w_epics w)) in
        andthen (forM (update_frame_set tk) w1 (ep_fsets e'))
          (fun w2 => let w3 := update_open_trades w2 (ep_prov e') tk in
                     forM (execute_strategy pr eid mo_before) w3 (ep_strats e'))
    end.

  (** *** Object creation and registration *)

  (** epic.py:87-91: the fake first tick, 1900-01-01T00:00:00 UTC at price 0. *)
  Definition fake_tick : tick F :=
    {| tk_dt := arrow_of_utc tz_UTC (-2208988800000000); tk_bid := fofZ 0; tk_ask := fofZ 0 |}.

  (** epic.py:45-95 [Epic.__init__]; [tz] is [None] for a name not in [pytz.all_timezones] (epic.py:106-132);
      an absent provider is a new backtest provider (line 84). *)
  Definition new_epic (w : world) (ref : string) (tz : option tzinfo) (op cl : Z) (days : option (list Z))
      (hol : option (list Z)) (prov : option nat) : world * res unit :=
    match tz, valid_id (w_provs w) prov with
    | None, _ => (w, Err EpicException)
    | _, false => (w, Err Dangling)
    | Some z, true =>
        let ds := match days with None | Some [] => [0; 1; 2; 3; 4] | Some l => l end in
        let hs := match hol with None => [] | Some l => l end in
        let '(provs, pid) := match prov with
                             | Some p => (w_provs w, p)
                             | None => (w_provs w ++ [{| pv_kind := PBacktests; pv_trades := []; pv_threads := [] |}],
                                        length (w_provs w))
                             end in
        (upd_epics (upd_provs w provs)
           (w_epics w ++ [{| ep_ref := ref; ep_tz := z; ep_open := op; ep_close := cl; ep_days := ds;
                             ep_holidays := hs; ep_prov := pid; ep_last := fake_tick; ep_fsets := [];
                             ep_strats := []; ep_mopen := false |}]), Ok ())
    end.

  (** epic.py:134-141 [add_frame_set] *)
  Definition add_frame_set (w : world) (eid fid : nat) : world * res unit :=
    match w_epics w !! eid, w_fsets w !! fid with
    | Some e, Some fs =>
        match dict_get (ep_fsets e) (fs_ref fs) with
        | Some _ => (w, Err EpicException)
        | None =>
            (upd_epics (upd_fsets w (<[fid := fs_set_epic fs (Some eid)]> (w_fsets w)))
               (<[eid := ep_set_fsets e (dict_set (ep_fsets e) (fs_ref fs) fid)]> (w_epics w)), Ok ())
        end
    | _, _ => (w, Err Dangling)
    end.

  (** epic.py:143-150 [add_strategy] *)
  Definition add_strategy (w : world) (eid sid : nat) : world * res unit :=
    match w_epics w !! eid, w_strats w !! sid with
    | Some e, Some s =>
        match dict_get (ep_strats e) (st_ref s) with
        | Some _ => (w, Err EpicException)
        | None =>
            (upd_strats (upd_epics w (<[eid := ep_set_strats e (dict_set (ep_strats e) (st_ref s) sid)]> (w_epics w)))
               (<[sid := st_set_epics s (dict_set (st_epics s) (ep_ref e) eid)]> (w_strats w)), Ok ())
        end
    | _, _ => (w, Err Dangling)
    end.

  (** epic.py:287-307 [get_frame]: the id of a frame of the frame set. *)
  Definition get_frame (w : world) (e : epic) (ref : string) (offset : Z) : res (option nat) :=
    match dict_get (ep_fsets e) ref with
    | None => Err KeyError
    | Some fid => match w_fsets w !! fid with
                  | None => Err Dangling
                  | Some fs => Ok (fs_getitem fs ((offset + 1) * -1))
                  end
    end.
  (** epic.py:309-330 [get_indicator_value] (with Frame.__getitem__, frame_set.py:71-73) *)
  Definition get_indicator_value (w : world) (e : epic) (ref iref : string) (offset : Z) : res (option (ivalue F)) :=
    let! fr := get_frame w e ref offset in
    match fr with
    | None => Ok None
    | Some i =>
        match dict_get (ep_fsets e) ref with
        | None => Err KeyError
        | Some fid =>
            match w_fsets w !! fid with
            | None => Err Dangling
            | Some fs => match fs_heap fs !! i with
                         | None => Err Dangling
                         | Some f => Ok (mjoin (dict_get (fr_inds f) iref))
                         end
            end
        end
    end.

  (** tick_provider.py:20-43 *)
  Definition tp_epics (w : world) (l : list nat) : dict nat :=
    fold_left (fun d i => match w_epics w !! i with Some e => dict_set d (ep_ref e) i | None => d end) l [].
  Definition get_epic_by_ref (d : dict nat) (ref : string) : option nat := dict_get d ref.

  (** *** Programs as histories of operations *)
  Inductive op :=
    | ONewProvider (k : pkind)
    | ONewStrategy (ref : string)
    | ONewFrameSet (u : unit_) (q : Z) (ref : string) (max_frames : Z)
    | ONewEpic (ref : string) (tz : option tzinfo) (op cl : Z) (days hol : option (list Z)) (prov : option nat)
    | OAddFrameSet (epic fs : nat)
    | OAddStrategy (epic strat : nat)
    | OAddIndicator (fs : nat) (i : indicator F)
    | OTick (epic : nat) (tk : tick F)
    | OCmd (c : cmd).

  Definition step (pr : programs) (w : world) (o : op) : world * res unit :=
    match o with
    | ONewProvider k =>
        (upd_provs w (w_provs w ++ [{| pv_kind := k; pv_trades := []; pv_threads := [] |}]), Ok ())
    | ONewStrategy ref =>
        (upd_strats w (w_strats w ++ [{| st_ref := ref; st_epics := []; st_paused := None; st_stopped := false;
                                         st_trades := [] |}]), Ok ())
    | ONewFrameSet u q ref m =>
        match fset_init u q ref m with
        | Ok fs => (upd_fsets w (w_fsets w ++ [fs]), Ok ())
        | Err e => (w, Err e)
        end
    | ONewEpic ref tz o c ds hs p => new_epic w ref tz o c ds hs p
    | OAddFrameSet e f => add_frame_set w e f
    | OAddStrategy e s => add_strategy w e s
    | OAddIndicator f i =>
        match w_fsets w !! f with
        | None => (w, Err Dangling)
        | Some fs => let '(fs', r) := add_indicator fs i in (upd_fsets w (<[f := fs']> (w_fsets w)), r)
        end
    | OTick e tk => epic_on_new_tick pr w e tk
    | OCmd c => run_cmd w c
    end.

  (** A whole run: exceptions are caught by the driver, the state is kept as they left it. *)
  Definition run (pr : programs) (w : world) (l : list op) : world := fold_left (fun w o => fst (step pr w o)) l w.
End world.
Arguments epic F : clear implicits.
Arguments world F : clear implicits.
Arguments cmd F : clear implicits.
Arguments op F : clear implicits.
Arguments script F : clear implicits.
Arguments programs F : clear implicits.
