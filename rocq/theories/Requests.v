(** Trade providers written by users: [open_trade_request] and [close_trade_request] (trade_provider.py:44-61, 85-102) are arbitrary code run in
    threads (trade_provider.py:77-83, 111-117).  World.v only has requests that assign one status. *)
From Verif Require Export World.
Open Scope Z_scope.

Section requests.
  Context {F : Type} `{Num F}.
  Implicit Types (w : world F).

  (** Assignments to the trade or close the request was made for: [status]; [open_value] or [close_value] (the price the market gave);
      [open_quantity] or [quantity] (what the market filled).  trade.py:73-91, 421-428. *)
  Inductive tweak := TwStatus (s : status) | TwPrice (v : F) | TwQuantity (q : Z).
  Definition set_ov (t : trade F) (v : F) : trade F :=
    {| tr_epic := tr_epic t; tr_strat := tr_strat t; tr_dir := tr_dir t; tr_oq := tr_oq t; tr_closes := tr_closes t; tr_ov := v; tr_cv := tr_cv t;
       tr_max := tr_max t; tr_min := tr_min t; tr_dt := tr_dt t; tr_status := tr_status t; tr_ref := tr_ref t |}.
  Definition tweak_trade (x : tweak) (t : trade F) : trade F :=
    match x with TwStatus s => set_status t s | TwPrice v => set_ov t v | TwQuantity q => set_oq t q end.
  Definition tweak_close (x : tweak) (c : tclose F) : tclose F :=
    match x with
    | TwStatus s => {| tc_value := tc_value c; tc_qty := tc_qty c; tc_dt := tc_dt c; tc_status := s; tc_ref := tc_ref c |}
    | TwPrice v => {| tc_value := v; tc_qty := tc_qty c; tc_dt := tc_dt c; tc_status := tc_status c; tc_ref := tc_ref c |}
    | TwQuantity q => {| tc_value := tc_value c; tc_qty := q; tc_dt := tc_dt c; tc_status := tc_status c; tc_ref := tc_ref c |}
    end.
  Definition tweak_job (j : job) (x : tweak) (l : list (trade F)) : list (trade F) :=
    match j with
    | JOpen t => alter (tweak_trade x) t l
    | JClose t c => alter (fun y => set_closes y (alter (tweak_close x) c (tr_closes y))) t l
    end.

  (** The code of a request: it may read everything, assign, call the API, return or raise.  An exception ends the thread and goes nowhere. *)
  Inductive request :=
    | RReturn
    | RRaise (e : exn)
    | RSet (x : tweak) (k : world F -> request)
    | RCall (c : cmd F) (k : world F -> res unit -> request).
  (** The two methods of the class of each provider. *)
  Definition requests := nat -> job -> world F -> request.

  (** A state and what is left to do of the requests that have begun (the first entry of a thread counts). *)
  Record lstate := { l_w : world F; l_code : list (nat * nat * request) }.
  Definition on_world (s : lstate) w : lstate := {| l_w := w; l_code := l_code s |}.
  Definition code (rq : requests) (s : lstate) (pid k : nat) (j : job) : request :=
    match List.find (fun x => Nat.eqb x.1.1 pid && Nat.eqb x.1.2 k) (l_code s) with
    | Some x => x.2
    | None => rq pid j (l_w s)
    end.
  Definition finish (w : world F) (pid k : nat) : world F :=
    upd_provs w (alter (fun p => pv_set_threads p (alter (fun th => {| th_job := th_job th; th_done := true |}) k (pv_threads p))) pid (w_provs w)).
  (** The scheduler lets thread [k] of provider [pid] do one thing. *)
  Definition act (rq : requests) (s : lstate) (pid k : nat) : lstate :=
    match w_provs (l_w s) !! pid ≫= (fun p => pv_threads p !! k) with
    | None => s
    | Some th =>
        if th_done th then s else
        match code rq s pid k (th_job th) with
        | RReturn | RRaise _ => on_world s (finish (l_w s) pid k)
        | RSet x r => let w' := upd_trades (l_w s) (tweak_job (th_job th) x (w_trades (l_w s))) in {| l_w := w'; l_code := (pid, k, r w') :: l_code s |}
        | RCall c r => let '(w', o) := run_cmd (l_w s) c in {| l_w := w'; l_code := (pid, k, r w' o) :: l_code s |}
        end
    end.

  (** Callbacks, ticks and operations of World.v, with requests going on at any time between two calls. *)
  Inductive lcmd := LApi (c : cmd F) | LAct (pid k : nat).
  Definition run_lcmd (rq : requests) (s : lstate) (c : lcmd) : lstate * res unit :=
    match c with
    | LApi c => let '(w', r) := run_cmd (l_w s) c in (on_world s w', r)
    | LAct pid k => (act rq s pid k, Ok ())
    end.
  Inductive lscript := LDone | LRaise (e : exn) | LCall (c : lcmd) (k : world F -> res unit -> lscript).
  Fixpoint run_lscript (rq : requests) (s : lstate) (x : lscript) : lstate * res unit :=
    match x with
    | LDone => (s, Ok ())
    | LRaise e => (s, Err e)
    | LCall c k => let '(s', r) := run_lcmd rq s c in run_lscript rq s' (k (l_w s') r)
    end.
  Definition lprograms := nat -> callback -> nat -> world F -> lscript.
  Definition landthen (x : lstate * res unit) (k : lstate -> lstate * res unit) : lstate * res unit :=
    match x with (s, Ok _) => k s | (s, Err e) => (s, Err e) end.
  Definition run_lcallback (rq : requests) (pr : lprograms) (sid : nat) (cb : callback) (eid : nat) (s : lstate) : lstate * res unit :=
    run_lscript rq (on_world s (upd_log (l_w s) (w_log (l_w s) ++ [{| ev_strat := sid; ev_cb := cb; ev_epic := eid |}]))) (pr sid cb eid (l_w s)).
  (** epic.py:214-225 *)
  Definition lexecute (rq : requests) (pr : lprograms) (eid : nat) (mo_before : bool) (s : lstate) (x : string * nat) : lstate * res unit :=
    match w_strats (l_w s) !! x.2, w_epics (l_w s) !! eid with
    | Some st, Some e =>
        let '(st', active) := is_active st (tk_dt (ep_last e)) in
        let s1 := on_world s (upd_strats (l_w s) (<[x.2 := st']> (w_strats (l_w s)))) in
        if active then
          landthen
            (if eqb mo_before (ep_mopen e) then (s1, Ok ())
             else if mo_before then run_lcallback rq pr x.2 OnMarketClose eid s1
             else run_lcallback rq pr x.2 OnMarketOpen eid s1)
            (fun s2 => landthen
               (if ep_mopen e then run_lcallback rq pr x.2 OnEveryTickMarketOpen eid s2 else (s2, Ok ()))
               (fun s3 => run_lcallback rq pr x.2 OnEveryTick eid s3))
        else (s1, Ok ())
    | _, _ => (s, Err Dangling)
    end.
  (** epic.py:227-259 *)
  Definition lon_new_tick (rq : requests) (pr : lprograms) (s : lstate) (eid : nat) (tk0 : tick F) : lstate * res unit :=
    match w_epics (l_w s) !! eid with
    | None => (s, Err Dangling)
    | Some e =>
        let tk := tick_to (ep_tz e) tk0 in
        if arrow_ltb (tk_dt tk) (tk_dt (ep_last e)) then (s, Err EpicException) else
        let mo_before := ep_mopen e in
        let e' := ep_set_last e tk (is_market_open e tk) in
        let '(w1, r) := forM (update_frame_set tk) (upd_epics (l_w s) (<[eid := e']> (w_epics (l_w s)))) (ep_fsets e') in
        landthen (on_world s w1, r)
          (fun s2 => forM (lexecute rq pr eid mo_before) (on_world s2 (update_open_trades (l_w s2) (ep_prov e') tk)) (ep_strats e'))
    end.

  Inductive lop := LOp (o : op F) | LDo (c : lcmd).
  Definition lstep (rq : requests) (pr : lprograms) (s : lstate) (o : lop) : lstate * res unit :=
    match o with
    | LOp (OTick eid tk) => lon_new_tick rq pr s eid tk
    | LOp o => let '(w', r) := step (fun _ _ _ _ => SDone) (l_w s) o in (on_world s w', r)
    | LDo c => run_lcmd rq s c
    end.
  Definition lrun (rq : requests) (pr : lprograms) (s : lstate) (l : list lop) : lstate := fold_left (fun s o => fst (lstep rq pr s o)) l s.
  Definition empty_live : lstate := {| l_w := empty_world; l_code := [] |}.
End requests.
Arguments tweak F : clear implicits.
Arguments request F : clear implicits.
Arguments requests F : clear implicits.
Arguments lstate F : clear implicits.
Arguments lcmd F : clear implicits.
Arguments lscript F : clear implicits.
Arguments lprograms F : clear implicits.
Arguments lop F : clear implicits.
