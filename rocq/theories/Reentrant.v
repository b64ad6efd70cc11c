(** Re-entrant strategies: callbacks that may make any operation of the API, that is also send ticks to epics (the one
    calling them included), create objects and register them, in the middle of [Epic.on_new_tick].
    World.v is the restriction of this file to callbacks that only trade, pause and stop. *)
From Verif Require Export World.
Open Scope Z_scope.

Section reentrant.
  Context {F : Type} `{Num F}.

  (** The body of a callback: any operations, each continuation sees the state and the outcome. *)
  Inductive rscript := RDone | RRaise (e : exn) | RCall (o : op F) (k : world F -> res unit -> rscript).
  Definition rprograms := nat -> callback -> nat -> world F -> rscript.

  Definition silent : programs F := fun _ _ _ _ => SDone.

  Section one_level.
    (** What the calls to [Epic.on_new_tick] made by a callback do. *)
    Context (nested : world F -> nat -> tick F -> world F * res unit) (pr : rprograms).

    (** One operation; [step] calls no strategy outside of [OTick]. *)
    Definition rop (w : world F) (o : op F) : world F * res unit :=
      match o with OTick eid tk => nested w eid tk | _ => step silent w o end.
    Fixpoint run_rscript (w : world F) (s : rscript) : world F * res unit :=
      match s with
      | RDone => (w, Ok ())
      | RRaise e => (w, Err e)
      | RCall o k => let '(w', r) := rop w o in run_rscript w' (k w' r)
      end.
    Definition run_rcallback (sid : nat) (cb : callback) (eid : nat) (w : world F) : world F * res unit :=
      let w1 := upd_log w (w_log w ++ [{| ev_strat := sid; ev_cb := cb; ev_epic := eid |}]) in
      run_rscript w1 (pr sid cb eid w).

    (** epic.py:215-225: one strategy; [self.last_tick] and [self.market_open] are read where the code reads them. *)
    Definition rexecute (eid : nat) (mo_before : bool) (w : world F) (x : string * nat) : world F * res unit :=
      match w_strats w !! x.2, w_epics w !! eid with
      | Some s, Some e =>
          (* 216 *)
          let '(s', act) := is_active s (tk_dt (ep_last e)) in
          let w1 := upd_strats w (<[x.2 := s']> (w_strats w)) in
          if act then
            andthen
              (* 217-221 *)
              (if eqb mo_before (ep_mopen e) then (w1, Ok ())
               else if mo_before then run_rcallback x.2 OnMarketClose eid w1
               else run_rcallback x.2 OnMarketOpen eid w1)
              (* 222-223 *)
              (fun w2 => andthen
                 (match w_epics w2 !! eid with
                  | Some e2 => if ep_mopen e2 then run_rcallback x.2 OnEveryTickMarketOpen eid w2 else (w2, Ok ())
                  | None => (w2, Err Dangling)
                  end)
                 (* 225 *)
                 (fun w3 => run_rcallback x.2 OnEveryTick eid w3))
          else (w1, Ok ())
      | _, _ => (w, Err Dangling)
      end.

    (** epic.py:215 [for _, strategy in self.strategies.items()]: CPython compares the size of the dictionary with its
        size at the start of the loop before looking for the next item, also after the last one. *)
    Definition same_size (eid n : nat) (w : world F) : world F * res unit :=
      match w_epics w !! eid with
      | Some e => if (length (ep_strats e) =? n)%nat then (w, Ok ()) else (w, Err RuntimeError)
      | None => (w, Err Dangling)
      end.
    Definition rturn (eid n : nat) (mo_before : bool) (w : world F) (x : string * nat) : world F * res unit :=
      andthen (rexecute eid mo_before w x) (same_size eid n).

    (** epic.py:227-259.  The frame sets and the trades call no user code, so the lines 241-257 are those of
        [epic_on_new_tick]. *)
    Definition ron_tick (w : world F) (eid : nat) (tk0 : tick F) : world F * res unit :=
      match w_epics w !! eid with
      | None => (w, Err Dangling)
      | Some e =>
          let tk := tick_to (ep_tz e) tk0 in
          if arrow_ltb (tk_dt tk) (tk_dt (ep_last e)) then (w, Err EpicException) else
          let mo_before := ep_mopen e in
          let e' := ep_set_last e tk (is_market_open e tk) in
          let w1 := upd_epics w (<[eid := e']> (w_epics w)) in
          andthen (forM (update_frame_set tk) w1 (ep_fsets e'))
            (fun w2 => let w3 := update_open_trades w2 (ep_prov e') tk in
                       forM (rturn eid (length (ep_strats e')) mo_before) w3 (ep_strats e'))
      end.
  End one_level.

  (** [depth] is the number of nested ticks the interpreter's stack has room for.  (Python counts every call, so where
      exactly RecursionError is raised depends on the callbacks; theorems are for every [depth].) *)
  Fixpoint rtick (depth : nat) (pr : rprograms) (w : world F) (eid : nat) (tk : tick F) : world F * res unit :=
    match depth with
    | O => (w, Err RecursionError)
    | S d => ron_tick (rtick d pr) pr w eid tk
    end.
  Definition rstep (depth : nat) (pr : rprograms) : world F -> op F -> world F * res unit := rop (rtick depth pr).
  Definition rrun (depth : nat) (pr : rprograms) (w : world F) (l : list (op F)) : world F :=
    fold_left (fun w o => fst (rstep depth pr w o)) l w.
End reentrant.
Arguments rscript F : clear implicits.
Arguments rprograms F : clear implicits.
