(** Trades handled by hand: programs that build [Trade] objects themselves, hand them to a provider, or hand a provider a
    close they made with [Trade.close].  World.v is the restriction of this file to the calls of [cmd]. *)
From Verif Require Export World.
Open Scope Z_scope.

Section manual.
  Context {F : Type} `{Num F}.

  Inductive mcmd :=
    | MApi (c : cmd F)
    | MBuild (epic : nat) (d : dir) (q : Z) (ov : F) (dt : dtarg) (cv : option F) (st : status) (strat : option nat) (ref : string)
                                                                                          (* Trade(...) *)
    | MBuildTick (tk : tick F) (epic : nat) (d : dirarg) (q : Z) (strat : option nat) (ref : string)   (* Trade.open_from_tick *)
    | MBuildEpic (epic : nat) (d : dirarg) (q : Z) (strat : option nat) (ref : string)                 (* Trade.open_from_epic *)
    | MGive (prov trade : nat) (ref : string)       (* provider.open_trade(trade); [ref] as in World.v, for the closes made by netting *)
    | MHand (prov trade close : nat).               (* provider.close_trade(trade.closes[close]) *)

  (** The new object; nothing else refers to it. *)
  Definition build (w : world F) (t : trade F) : world F := upd_trades w (w_trades w ++ [t]).

  Definition run_mcmd (w : world F) (c : mcmd) : world F * res unit :=
    match c with
    | MApi c => run_cmd w c
    (* trade.py:44-91; mixins/timed.py raises on a naive datetime (line 84), before the status is set (line 86) *)
    | MBuild e d q ov dt cv st s ref =>
        match w_epics w !! e, valid_id (w_strats w) s with
        | Some _, true =>
            match timed_set dt with
            | Ok a => (build w (set_status (trade_init d q ov a e cv s ref) st), Ok ())
            | Err x => (w, Err x)
            end
        | _, _ => (w, Err Dangling)
        end
    (* trade.py:111-136 *)
    | MBuildTick tk e d q s ref =>
        match w_epics w !! e, valid_id (w_strats w) s with
        | Some _, true => match open_from_tick tk e d q s ref with Ok t => (build w t, Ok ()) | Err x => (w, Err x) end
        | _, _ => (w, Err Dangling)
        end
    (* trade.py:138-156 *)
    | MBuildEpic e d q s ref =>
        match w_epics w !! e, valid_id (w_strats w) s with
        | Some ep, true => match open_from_tick (ep_last ep) e d q s ref with Ok t => (build w t, Ok ()) | Err x => (w, Err x) end
        | _, _ => (w, Err Dangling)
        end
    (* trade_provider.py:63-83, 147-193 *)
    | MGive p t ref => match w_trades w !! t with Some _ => provider_open_trade w p t ref | None => (w, Err Dangling) end
    (* trade_provider.py:104-117 *)
    | MHand p t c =>
        match w_provs w !! p, w_trades w !! t ≫= (fun x => tr_closes x !! c) with
        | Some _, Some _ => (provider_close_trade w p t c, Ok ())
        | _, _ => (w, Err Dangling)
        end
    end.

  (** Callbacks making these calls; as [script], [run_callback], [execute_strategy], [epic_on_new_tick] of World.v. *)
  Inductive mscript := MDone | MRaise (e : exn) | MCall (c : mcmd) (k : world F -> res unit -> mscript).
  Fixpoint run_mscript (w : world F) (s : mscript) : world F * res unit :=
    match s with
    | MDone => (w, Ok ())
    | MRaise e => (w, Err e)
    | MCall c k => let '(w', r) := run_mcmd w c in run_mscript w' (k w' r)
    end.
  Definition mprograms := nat -> callback -> nat -> world F -> mscript.
  Definition run_mcallback (pr : mprograms) (sid : nat) (cb : callback) (eid : nat) (w : world F) : world F * res unit :=
    let w1 := upd_log w (w_log w ++ [{| ev_strat := sid; ev_cb := cb; ev_epic := eid |}]) in
    run_mscript w1 (pr sid cb eid w).
  (** epic.py:214-225 *)
  Definition mexecute (pr : mprograms) (eid : nat) (mo_before : bool) (w : world F) (x : string * nat) : world F * res unit :=
    match w_strats w !! x.2, w_epics w !! eid with
    | Some s, Some e =>
        let '(s', act) := is_active s (tk_dt (ep_last e)) in
        let w1 := upd_strats w (<[x.2 := s']> (w_strats w)) in
        if act then
          andthen
            (if eqb mo_before (ep_mopen e) then (w1, Ok ())
             else if mo_before then run_mcallback pr x.2 OnMarketClose eid w1
             else run_mcallback pr x.2 OnMarketOpen eid w1)
            (fun w2 => andthen
               (if ep_mopen e then run_mcallback pr x.2 OnEveryTickMarketOpen eid w2 else (w2, Ok ()))
               (fun w3 => run_mcallback pr x.2 OnEveryTick eid w3))
        else (w1, Ok ())
    | _, _ => (w, Err Dangling)
    end.
  (** epic.py:227-259 *)
  Definition mon_new_tick (pr : mprograms) (w : world F) (eid : nat) (tk0 : tick F) : world F * res unit :=
    match w_epics w !! eid with
    | None => (w, Err Dangling)
    | Some e =>
        let tk := tick_to (ep_tz e) tk0 in
        if arrow_ltb (tk_dt tk) (tk_dt (ep_last e)) then (w, Err EpicException) else
        let mo_before := ep_mopen e in
        let e' := ep_set_last e tk (is_market_open e tk) in
        let w1 := upd_epics w (<[eid := e']> (w_epics w)) in
        andthen (forM (update_frame_set tk) w1 (ep_fsets e'))
          (fun w2 => let w3 := update_open_trades w2 (ep_prov e') tk in
                     forM (mexecute pr eid mo_before) w3 (ep_strats e'))
    end.

  (** Operations: those of World.v, with the calls of [mcmd]. *)
  Inductive mop := MOp (o : op F) | MDo (c : mcmd).
  Definition mstep (pr : mprograms) (w : world F) (o : mop) : world F * res unit :=
    match o with
    | MOp (OTick eid tk) => mon_new_tick pr w eid tk
    | MOp o => step (fun _ _ _ _ => SDone) w o
    | MDo c => run_mcmd w c
    end.
  Definition mrun (pr : mprograms) (w : world F) (l : list mop) : world F := fold_left (fun w o => fst (mstep pr w o)) l w.
End manual.
Arguments mcmd F : clear implicits.
Arguments mscript F : clear implicits.
Arguments mprograms F : clear implicits.
Arguments mop F : clear implicits.
