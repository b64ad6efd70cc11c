(** Programs with private data: the callbacks of strategies and the main program (a tick provider's [run],
    estrade/tick_provider.py:45-52) keep any data [St] of their own between calls (attributes of the strategy objects,
    files, clocks, random generators...), and the main program decides from the state and its data what it does next.
    Apart from this data the functions are those of Reentrant.v. *)
From Verif Require Export Reentrant.
Open Scope Z_scope.

Section stateful.
  Context {F : Type} `{Num F} {St : Type}.
  Notation state := (St * world F)%type.

  (** Code of the user: [PCall s o k] stores [s] and makes the operation [o]; callbacks run by [o] may change the data; [k]
      sees the data, the objects and the outcome. *)
  Inductive pscript := PDone (s : St) | PRaise (s : St) (e : exn) | PCall (s : St) (o : op F) (k : St -> world F -> res unit -> pscript).
  Definition pprograms := nat -> callback -> nat -> St -> world F -> pscript.

  Definition pandthen (x : state * res unit) (k : state -> state * res unit) : state * res unit :=
    match x with (m, Ok _) => k m | (m, Err e) => (m, Err e) end.

  Section one_level.
    Context (nested : state -> nat -> tick F -> state * res unit) (pr : pprograms).

    Definition pop (m : state) (o : op F) : state * res unit :=
      match o with
      | OTick eid tk => nested m eid tk
      | _ => let '(w', r) := step silent m.2 o in ((m.1, w'), r)
      end.
    Fixpoint run_pscript (w : world F) (p : pscript) : state * res unit :=
      match p with
      | PDone s => ((s, w), Ok ())
      | PRaise s e => ((s, w), Err e)
      | PCall s o k => let '((s', w'), r) := pop (s, w) o in run_pscript w' (k s' w' r)
      end.
    Definition run_pcallback (sid : nat) (cb : callback) (eid : nat) (m : state) : state * res unit :=
      run_pscript (upd_log m.2 (w_log m.2 ++ [{| ev_strat := sid; ev_cb := cb; ev_epic := eid |}])) (pr sid cb eid m.1 m.2).

    (** epic.py:215-225 *)
    Definition pexecute (eid : nat) (mo_before : bool) (m : state) (x : string * nat) : state * res unit :=
      match w_strats m.2 !! x.2, w_epics m.2 !! eid with
      | Some s, Some e =>
          let '(s', act) := is_active s (tk_dt (ep_last e)) in
          let m1 := (m.1, upd_strats m.2 (<[x.2 := s']> (w_strats m.2))) in
          if act then
            pandthen
              (if eqb mo_before (ep_mopen e) then (m1, Ok ())
               else if mo_before then run_pcallback x.2 OnMarketClose eid m1
               else run_pcallback x.2 OnMarketOpen eid m1)
              (fun m2 => pandthen
                 (match w_epics m2.2 !! eid with
                  | Some e2 => if ep_mopen e2 then run_pcallback x.2 OnEveryTickMarketOpen eid m2 else (m2, Ok ())
                  | None => (m2, Err Dangling)
                  end)
                 (fun m3 => run_pcallback x.2 OnEveryTick eid m3))
          else (m1, Ok ())
      | _, _ => (m, Err Dangling)
      end.
    Definition pturn (eid n : nat) (mo_before : bool) (m : state) (x : string * nat) : state * res unit :=
      pandthen (pexecute eid mo_before m x) (fun m' => let '(w', r) := same_size eid n m'.2 in ((m'.1, w'), r)).
    (** epic.py:227-259 *)
    Definition pon_tick (m : state) (eid : nat) (tk0 : tick F) : state * res unit :=
      match w_epics m.2 !! eid with
      | None => (m, Err Dangling)
      | Some e =>
          let tk := tick_to (ep_tz e) tk0 in
          if arrow_ltb (tk_dt tk) (tk_dt (ep_last e)) then (m, Err EpicException) else
          let mo_before := ep_mopen e in
          let e' := ep_set_last e tk (is_market_open e tk) in
          let w1 := upd_epics m.2 (<[eid := e']> (w_epics m.2)) in
          pandthen (let '(w2, r) := forM (update_frame_set tk) w1 (ep_fsets e') in ((m.1, w2), r))
            (fun m2 => let m3 := (m2.1, update_open_trades m2.2 (ep_prov e') tk) in
                       forM (pturn eid (length (ep_strats e')) mo_before) m3 (ep_strats e'))
      end.
  End one_level.

  Fixpoint ptick (depth : nat) (pr : pprograms) (m : state) (eid : nat) (tk : tick F) : state * res unit :=
    match depth with
    | O => (m, Err RecursionError)
    | S d => pon_tick (ptick d pr) pr m eid tk
    end.
  (** The main program [p], run with strategies [pr] from the objects of [w]. *)
  Definition prun (depth : nat) (pr : pprograms) (w : world F) (p : pscript) : state * res unit :=
    run_pscript (ptick depth pr) w p.
End stateful.
Arguments pscript F St : clear implicits.
Arguments pprograms F St : clear implicits.
