(** Request threads that run between any two statements: in World.v they run between API calls only.  The functions of trade.py,
    trade_provider.py, strategy.py and epic.py once more, one statement at a time; after each the scheduler may run threads.  The threads of
    the providers of World.v assign one status (trade_provider.py:195-213). *)
From Verif Require Export World.
Open Scope Z_scope.

Section preempt.
  Context {F : Type} `{Num F}.
  Implicit Types (w : world F).

  (** What the scheduler does at the following points: the threads (provider, index) it runs, in order. *)
  Definition schedule := list (list (nat * nat)).
  Definition istate := (world F * schedule)%type.
  Definition batch w (b : list (nat * nat)) : world F := fold_left (fun w x => run_thread w x.1 x.2) b w.
  Definition pause (s : istate) : istate := match s.2 with [] => s | b :: l => (batch s.1 b, l) end.
  (** A statement. *)
  Definition stmt (f : world F -> world F) (s : istate) : istate := pause (f s.1, s.2).
  Definition on_trade (tid : nat) (f : trade F -> trade F) w : world F := upd_trades w (alter f tid (w_trades w)).

  (** trade.py:161-166 [_update_min_max]: two statements. *)
  Definition up_max (t : trade F) : trade F := if fltb (tr_max t) (result t) then set_maxmin t (result t) (tr_min t) else t.
  Definition up_min (t : trade F) : trade F := if fltb (result t) (tr_min t) then set_maxmin t (tr_max t) (result t) else t.
  (** trade.py:168-187 [update] *)
  Definition iupdate (s : istate) (tid : nat) (v : F) : istate :=
    match w_trades s.1 !! tid with
    | None => s
    | Some t => if closed t then s
                else stmt (on_trade tid up_min) (stmt (on_trade tid up_max) (stmt (on_trade tid (fun x => set_cv x v)) s))
    end.
  (** trade.py:189-201 [update_from_tick] *)
  Definition iupdate_tick (s : istate) (tid : nat) (tk : tick F) : istate :=
    match w_trades s.1 !! tid with
    | None => s
    | Some t => iupdate s tid (match tr_dir t with BUY => tk_bid tk | SELL => tk_ask tk end)
    end.
  (** trade.py:210-253 [close]: the quantity is computed, the close is built, then appended. *)
  Definition iclose (s : istate) (tid : nat) (v : F) (d : dtarg) (q : option Z) (ref : string) : istate * res nat :=
    match w_trades s.1 !! tid with
    | None => (s, Err Dangling)
    | Some t =>
        match timed_set d with
        | Err e => (s, Err e)
        | Ok dt =>
            let c := {| tc_value := v; tc_qty := close_quantity t q; tc_dt := dt; tc_status := CREATED; tc_ref := ref |} in
            let s1 := stmt (fun w => w) s in
            (stmt (on_trade tid (fun x => set_closes x (tr_closes x ++ [c]))) s1, Ok (length (tr_closes t)))
        end
    end.
  (** trade.py:255-287 [close_from_epic] *)
  Definition iclose_from_epic (s : istate) (tid : nat) (q : option Z) (ref : string) : istate * res nat :=
    match w_trades s.1 !! tid with
    | None => (s, Err Dangling)
    | Some t =>
        match w_epics s.1 !! tr_epic t with
        | None => (s, Err Dangling)
        | Some e =>
            let s1 := iupdate_tick s tid (ep_last e) in
            match w_trades s1.1 !! tid with
            | None => (s1, Err Dangling)
            | Some t1 => iclose s1 tid (tr_cv t1) (DtAware (tk_dt (ep_last e))) q ref
            end
        end
    end.

  (** trade_provider.py:63-83 [BaseTradeProvider.open_trade] *)
  Definition ibase_open_trade (s : istate) (pid tid : nat) : istate :=
    match w_trades s.1 !! tid with
    | None => s
    | Some t =>
        let s1 := stmt (fun w => upd_provs w (alter (fun p => pv_set_trades p (pv_trades p ++ [tid])) pid (w_provs w))) s in
        let s2 := match tr_strat t with
                  | Some x => stmt (fun w => upd_strats w (alter (fun y => st_set_trades y (st_trades y ++ [tid])) x (w_strats w))) s1
                  | None => s1
                  end in
        stmt (fun w => add_thread w pid (JOpen tid)) s2
    end.
  (** trade_provider.py:166-186 *)
  Definition inet_step (pid tid : nat) (ref : string) (s : istate) (oid : nat) : istate * res unit :=
    match w_trades s.1 !! tid, w_trades s.1 !! oid with
    | Some t, Some o =>
        if dir_eqb (tr_dir o) (dir_opp (tr_dir t)) then
          if bool_decide (tr_strat o = tr_strat t) then
            let qc := Z.min (opened_quantities o) (tr_oq t) in
            match iclose_from_epic s oid (Some qc) ref with
            | (s1, Err e) => (s1, Err e)
            | (s1, Ok ci) =>
                let s2 := stmt (fun w => provider_close_trade w pid oid ci) s1 in
                (stmt (on_trade tid (fun x => set_oq x (tr_oq x - qc))) s2, Ok ())
            end
          else (s, Ok ())
        else (s, Ok ())
    | _, _ => (s, Err Dangling)
    end.
  (** trade_provider.py:147-193 *)
  Definition ibacktest_open_trade (s : istate) (pid tid : nat) (ref : string) : istate * res unit :=
    match w_provs s.1 !! pid with
    | None => (s, Err Dangling)
    | Some p =>
        match forM (inet_step pid tid ref) s (opened_trades s.1 p) with
        | (s1, Err e) => (s1, Err e)
        | (s1, Ok _) =>
            match w_trades s1.1 !! tid with
            | None => (s1, Err Dangling)
            | Some t => if tr_oq t <=? 0 then (s1, Ok ()) else (ibase_open_trade s1 pid tid, Ok ())
            end
        end
    end.
  Definition iprovider_open_trade (s : istate) (pid tid : nat) (ref : string) : istate * res unit :=
    match w_provs s.1 !! pid with
    | None => (s, Err Dangling)
    | Some p => match pv_kind p with
                | PBacktests => ibacktest_open_trade s pid tid ref
                | _ => (ibase_open_trade s pid tid, Ok ())
                end
    end.
  (** epic.py:261-271 [open_trade] *)
  Definition iepic_open_trade (s : istate) (eid : nat) (d : dirarg) (q : Z) (strat : option nat) (ref : string) : istate * res unit :=
    match w_epics s.1 !! eid, valid_id (w_strats s.1) strat with
    | None, _ | _, false => (s, Err Dangling)
    | Some e, true =>
        match open_from_tick (ep_last e) eid d q strat ref with
        | Err x => (s, Err x)
        | Ok t => iprovider_open_trade (stmt (fun w => upd_trades w (w_trades w ++ [t])) s) (ep_prov e) (length (w_trades s.1)) ref
        end
    end.
  (** epic.py:273-285 [close_trade] *)
  Definition iepic_close_trade (s : istate) (eid tid : nat) (q : option Z) (ref : string) : istate * res unit :=
    match w_epics s.1 !! eid with
    | None => (s, Err Dangling)
    | Some e =>
        match iclose_from_epic s tid q ref with
        | (s1, Err x) => (s1, Err x)
        | (s1, Ok ci) => (stmt (fun w => provider_close_trade w (ep_prov e) tid ci) s1, Ok ())
        end
    end.
  (** strategy.py:84-96 [close_trade] *)
  Definition istrategy_close_trade (s : istate) (tid : nat) (q : option Z) (ref : string) : istate * res unit :=
    match w_trades s.1 !! tid with
    | None => (s, Err Dangling)
    | Some t => iepic_close_trade s (tr_epic t) tid q ref
    end.
  (** strategy.py:98-106 [close_opened_trades] *)
  Definition iclose_opened_step (q : option Z) (ref : string) (s : istate) (tid : nat) : istate * res unit :=
    if trade_open_b s.1 tid then istrategy_close_trade s tid q ref else (s, Ok ()).
  Definition iclose_opened_trades (s : istate) (sid : nat) (q : option Z) (ref : string) : istate * res unit :=
    match w_strats s.1 !! sid with
    | None => (s, Err Dangling)
    | Some x => forM (iclose_opened_step q ref) s (reverse (st_trades x))
    end.

  Definition irun_cmd (s : istate) (c : cmd F) : istate * res unit :=
    match c with
    | COpen e d q st ref => iepic_open_trade s e d q st ref
    | CClose t q ref => istrategy_close_trade s t q ref
    | CEpicClose e t q ref => iepic_close_trade s e t q ref
    | CCloseAll st q ref => iclose_opened_trades s st q ref
    | CTradeUpdate t v => (iupdate s t v, Ok ())
    | CTradeUpdateEpic t =>
        match w_trades s.1 !! t with
        | None => (s, Err Dangling)
        | Some x => match w_epics s.1 !! tr_epic x with
                    | None => (s, Err Dangling)
                    | Some e => (iupdate_tick s t (ep_last e), Ok ())
                    end
        end
    | CTradeClose t v d q ref => let '(s1, r) := iclose s t v d q ref in (s1, rmap (fun _ => ()) r)
    | CTradeCloseEpic t q ref => let '(s1, r) := iclose_from_epic s t q ref in (s1, rmap (fun _ => ()) r)
    | _ => (stmt (fun w => fst (run_cmd w c)) s, Ok ())
    end.

  (** epic.py:210-212 [_update_open_trades] *)
  Definition iupdate_open_trades (s : istate) (pid : nat) (tk : tick F) : istate :=
    match w_provs s.1 !! pid with
    | None => s
    | Some p => fold_left (fun s i => iupdate_tick s i tk) (opened_trades s.1 p) s
    end.
  (** Callbacks: a body sees the state at the time; the scheduler is everywhere between its calls too. *)
  Fixpoint irun_script (s : istate) (x : script F) : istate * res unit :=
    match x with
    | SDone => (s, Ok ())
    | SRaise e => (s, Err e)
    | SCall c k => let '(s1, r) := irun_cmd (stmt (fun w => w) s) c in irun_script s1 (k s1.1 r)
    end.
  Definition irun_callback (pr : programs F) (sid : nat) (cb : callback) (eid : nat) (s : istate) : istate * res unit :=
    let s1 := stmt (fun w => upd_log w (w_log w ++ [{| ev_strat := sid; ev_cb := cb; ev_epic := eid |}])) s in
    irun_script s1 (pr sid cb eid s.1).
  Definition iandthen (x : istate * res unit) (k : istate -> istate * res unit) : istate * res unit :=
    match x with (s, Ok _) => k s | (s, Err e) => (s, Err e) end.
  (** epic.py:214-225 *)
  Definition iexecute_strategy (pr : programs F) (eid : nat) (mo_before : bool) (s : istate) (x : string * nat) : istate * res unit :=
    match w_strats s.1 !! x.2, w_epics s.1 !! eid with
    | Some st, Some e =>
        let '(st', act) := is_active st (tk_dt (ep_last e)) in
        let s1 := stmt (fun w => upd_strats w (<[x.2 := st']> (w_strats w))) s in
        if act then
          iandthen
            (if eqb mo_before (ep_mopen e) then (s1, Ok ())
             else if mo_before then irun_callback pr x.2 OnMarketClose eid s1
             else irun_callback pr x.2 OnMarketOpen eid s1)
            (fun s2 => iandthen
               (if ep_mopen e then irun_callback pr x.2 OnEveryTickMarketOpen eid s2 else (s2, Ok ()))
               (fun s3 => irun_callback pr x.2 OnEveryTick eid s3))
        else (s1, Ok ())
    | _, _ => (s, Err Dangling)
    end.
  (** epic.py:206-208; inside a frame set no statement touches trades or threads: the scheduler is between frame sets. *)
  Definition iupdate_frame_set (tk : tick F) (s : istate) (x : string * nat) : istate * res unit :=
    (stmt (fun w => fst (update_frame_set tk w x)) s, snd (update_frame_set tk s.1 x)).
  (** epic.py:227-259 *)
  Definition iepic_on_new_tick (pr : programs F) (s : istate) (eid : nat) (tk0 : tick F) : istate * res unit :=
    match w_epics s.1 !! eid with
    | None => (s, Err Dangling)
    | Some e =>
        let tk := tick_to (ep_tz e) tk0 in
        if arrow_ltb (tk_dt tk) (tk_dt (ep_last e)) then (s, Err EpicException) else
        let mo_before := ep_mopen e in
        let e' := ep_set_last e tk (is_market_open e tk) in
        let s1 := stmt (fun w => upd_epics w (<[eid := e']> (w_epics w))) s in
        iandthen (forM (iupdate_frame_set tk) s1 (ep_fsets e'))
          (fun s2 => forM (iexecute_strategy pr eid mo_before) (iupdate_open_trades s2 (ep_prov e') tk) (ep_strats e'))
    end.

  Definition istep (pr : programs F) (s : istate) (o : op F) : istate * res unit :=
    match o with
    | OTick e tk => iepic_on_new_tick pr s e tk
    | OCmd c => irun_cmd s c
    | _ => (stmt (fun w => fst (step pr w o)) s, snd (step pr s.1 o))
    end.
  Definition irun (pr : programs F) (s : istate) (l : list (op F)) : istate := fold_left (fun s o => fst (istep pr s o)) l s.
End preempt.
Arguments istate F : clear implicits.
