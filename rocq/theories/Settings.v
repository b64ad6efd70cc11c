(** Attributes of epics assigned after their creation (epic.py:75-84; the setter of [timezone], epic.py:116-132), by the main program
    or by callbacks.  World.v is the restriction to programs that leave them alone. *)
From Verif Require Export World.
Open Scope Z_scope.

Section settings.
  Context {F : Type} `{Num F}.

  (** [epic.timezone = ...] ([None]: a name not in [pytz.all_timezones]), [epic.open_time = ...], [epic.close_time = ...],
      [epic.trade_days = ...], [epic.holidays = ...], [epic.trade_provider = ...]. *)
  Inductive setting :=
    | SZone (z : option tzinfo) | SOpen (t : Z) | SClose (t : Z) | SDays (l : list Z) | SHolidays (l : list Z) | SProvider (p : nat).

  Definition ep_with (e : epic F) (z : tzinfo) (op cl : Z) (ds hs : list Z) (p : nat) : epic F :=
    {| ep_ref := ep_ref e; ep_tz := z; ep_open := op; ep_close := cl; ep_days := ds; ep_holidays := hs; ep_prov := p;
       ep_last := ep_last e; ep_fsets := ep_fsets e; ep_strats := ep_strats e; ep_mopen := ep_mopen e |}.

  (** epic.py:129-132 for the time zone, plain attributes (epic.py:78-84) for the others. *)
  Definition assign_epic (e : epic F) (s : setting) : res (epic F) :=
    match s with
    | SZone (Some z) => Ok (ep_with e z (ep_open e) (ep_close e) (ep_days e) (ep_holidays e) (ep_prov e))
    | SZone None => Err EpicException
    | SOpen t => Ok (ep_with e (ep_tz e) t (ep_close e) (ep_days e) (ep_holidays e) (ep_prov e))
    | SClose t => Ok (ep_with e (ep_tz e) (ep_open e) t (ep_days e) (ep_holidays e) (ep_prov e))
    | SDays l => Ok (ep_with e (ep_tz e) (ep_open e) (ep_close e) l (ep_holidays e) (ep_prov e))
    | SHolidays l => Ok (ep_with e (ep_tz e) (ep_open e) (ep_close e) (ep_days e) l (ep_prov e))
    | SProvider p => Ok (ep_with e (ep_tz e) (ep_open e) (ep_close e) (ep_days e) (ep_holidays e) p)
    end.
  Definition assign (w : world F) (eid : nat) (s : setting) : world F * res unit :=
    match w_epics w !! eid, s with
    | None, _ => (w, Err Dangling)
    | Some e, _ =>
        if match s with SProvider p => valid_id (w_provs w) (Some p) | _ => true end then
          match assign_epic e s with
          | Ok e' => (upd_epics w (<[eid := e']> (w_epics w)), Ok ())
          | Err x => (w, Err x)
          end
        else (w, Err Dangling)
    end.

  (** What a callback can do: the calls of World.v, and assignments. *)
  Inductive gcall := GCmd (c : cmd F) | GSet (epic : nat) (s : setting).
  Definition run_gcall (w : world F) (c : gcall) : world F * res unit :=
    match c with GCmd c => run_cmd w c | GSet e s => assign w e s end.
  Inductive gscript := GDone | GRaise (e : exn) | GCall (c : gcall) (k : world F -> res unit -> gscript).
  Fixpoint run_gscript (w : world F) (s : gscript) : world F * res unit :=
    match s with
    | GDone => (w, Ok ())
    | GRaise e => (w, Err e)
    | GCall c k => let '(w', r) := run_gcall w c in run_gscript w' (k w' r)
    end.
  Definition gprograms := nat -> callback -> nat -> world F -> gscript.
  Definition run_gcallback (pr : gprograms) (sid : nat) (cb : callback) (eid : nat) (w : world F) : world F * res unit :=
    run_gscript (upd_log w (w_log w ++ [{| ev_strat := sid; ev_cb := cb; ev_epic := eid |}])) (pr sid cb eid w).

  (** epic.py:214-225; [self.last_tick] and [self.market_open] are not changed by assignments to the attributes above. *)
  Definition gexecute (pr : gprograms) (eid : nat) (mo_before : bool) (w : world F) (x : string * nat) : world F * res unit :=
    match w_strats w !! x.2, w_epics w !! eid with
    | Some s, Some e =>
        let '(s', act) := is_active s (tk_dt (ep_last e)) in
        let w1 := upd_strats w (<[x.2 := s']> (w_strats w)) in
        if act then
          andthen
            (if eqb mo_before (ep_mopen e) then (w1, Ok ())
             else if mo_before then run_gcallback pr x.2 OnMarketClose eid w1
             else run_gcallback pr x.2 OnMarketOpen eid w1)
            (fun w2 => andthen
               (if ep_mopen e then run_gcallback pr x.2 OnEveryTickMarketOpen eid w2 else (w2, Ok ()))
               (fun w3 => run_gcallback pr x.2 OnEveryTick eid w3))
        else (w1, Ok ())
    | _, _ => (w, Err Dangling)
    end.
  (** epic.py:227-259 *)
  Definition gtick (pr : gprograms) (w : world F) (eid : nat) (tk0 : tick F) : world F * res unit :=
    match w_epics w !! eid with
    | None => (w, Err Dangling)
    | Some e =>
        let tk := tick_to (ep_tz e) tk0 in
        if arrow_ltb (tk_dt tk) (tk_dt (ep_last e)) then (w, Err EpicException) else
        let mo_before := ep_mopen e in
        let e' := ep_set_last e tk (is_market_open e tk) in
        let w1 := upd_epics w (<[eid := e']> (w_epics w)) in
        andthen (forM (update_frame_set tk) w1 (ep_fsets e'))
          (fun w2 => let w3 := update_open_trades w2 (ep_prov e') tk in
                     forM (gexecute pr eid mo_before) w3 (ep_strats e'))
    end.

  (** The operations of World.v, and assignments. *)
  Inductive gop := GOp (o : op F) | GAssign (epic : nat) (s : setting).
  Definition gstep (pr : gprograms) (w : world F) (o : gop) : world F * res unit :=
    match o with
    | GOp (OTick e tk) => gtick pr w e tk
    | GOp o => step (fun _ _ _ _ => SDone) w o
    | GAssign e s => assign w e s
    end.
  Definition grun (pr : gprograms) (w : world F) (l : list gop) : world F := fold_left (fun w o => fst (gstep pr w o)) l w.
End settings.
Arguments gcall F : clear implicits.
Arguments gscript F : clear implicits.
Arguments gprograms F : clear implicits.
Arguments gop F : clear implicits.
