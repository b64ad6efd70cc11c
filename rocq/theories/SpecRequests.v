(** Vocabulary of the properties of trade providers written by users. *)
From Verif Require Export NumQProofs Requests SpecManual.
Open Scope Z_scope.

Section spec.
  Context {F : Type} `{Num F}.
  Implicit Types (w : world F) (s : lstate F) (rq : requests F).

  (** The thread and what it does next. *)
  Definition thread_of w (pid k : nat) : option thread := w_provs w !! pid ≫= (fun p => pv_threads p !! k).
  Definition job_trade (j : job) : nat := match j with JOpen i | JClose i _ => i end.

  (** A filled quantity is sound: the quantity of a trade is lowered at most to what is closed already; that of a close is lowered, for a trade no
      backtest provider holds.  Calls made by requests have sound quantities. *)
  Definition fill_ok w (j : job) (q : Z) : Prop :=
    match j with
    | JOpen i => forall t, w_trades w !! i = Some t -> closed_quantities t <= q <= tr_oq t
    | JClose i n => (forall t c, w_trades w !! i = Some t -> tr_closes t !! n = Some c -> 0 <= q <= tc_qty c) /\
                    forall pid, registered w pid i -> ~ is_backtest w pid
    end.
  Definition careful_act rq s (pid k : nat) : Prop :=
    forall th, thread_of (l_w s) pid k = Some th -> th_done th = false ->
      match code rq s pid k (th_job th) with
      | RSet (TwQuantity q) _ => fill_ok (l_w s) (th_job th) q
      | RCall c _ => sane_call c
      | _ => True
      end.
  Definition careful_lcmd rq s (c : lcmd F) : Prop := match c with LApi c => sane_call c | LAct pid k => careful_act rq s pid k end.
  Fixpoint careful_lscript rq s (x : lscript F) : Prop :=
    match x with
    | LDone | LRaise _ => True
    | LCall c k => careful_lcmd rq s c /\ let '(s', r) := run_lcmd rq s c in careful_lscript rq s' (k (l_w s') r)
    end.

  (** One step of the program itself, from world to world. *)
  Inductive wstep : world F -> world F -> Prop :=
    | ws_call w c : sane_call c -> wstep w (fst (run_cmd w c))
    | ws_setup pr w o : setup o -> wstep w (fst (step pr w o))
    | ws_accept w eid e tk : w_epics w !! eid = Some e -> arrow_ltb (tk_dt (tick_to (ep_tz e) tk)) (tk_dt (ep_last e)) = false ->
        wstep w (upd_epics w (<[eid := ep_set_last e (tick_to (ep_tz e) tk) (is_market_open e (tick_to (ep_tz e) tk))]> (w_epics w)))
    | ws_fset w eid e x : w_epics w !! eid = Some e -> x ∈ ep_fsets e -> wstep w (fst (update_frame_set (ep_last e) w x))
    | ws_value w eid e : w_epics w !! eid = Some e -> wstep w (update_open_trades w (ep_prov e) (ep_last e))
    | ws_active w sid st d : w_strats w !! sid = Some st -> wstep w (upd_strats w (<[sid := fst (is_active st d)]> (w_strats w)))
    | ws_log w l : wstep w (upd_log w l).
  (** The states a careful program can be in, requests acting at any time, also between the parts of a tick. *)
  Inductive lreach rq : lstate F -> Prop :=
    | lr_empty : lreach rq empty_live
    | lr_world s w' : lreach rq s -> wstep (l_w s) w' -> lreach rq (on_world s w')
    | lr_act s pid k : lreach rq s -> careful_act rq s pid k -> lreach rq (act rq s pid k).

  Definition careful_lprograms rq (pr : lprograms F) : Prop := forall sid cb eid s, lreach rq s ->
    careful_lscript rq (on_world s (upd_log (l_w s) (w_log (l_w s) ++ [{| ev_strat := sid; ev_cb := cb; ev_epic := eid |}]))) (pr sid cb eid (l_w s)).
  Definition careful_lop rq s (o : lop F) : Prop :=
    match o with LDo c => careful_lcmd rq s c | LOp (OCmd c) => sane_call c | LOp _ => True end.
  Fixpoint careful_lops rq (pr : lprograms F) s (l : list (lop F)) : Prop :=
    match l with [] => True | o :: l => careful_lop rq s o /\ careful_lops rq pr (fst (lstep rq pr s o)) l end.

  (** Requests that never assign quantities, whatever they see; programs that only make sound calls, with any schedule. *)
  Fixpoint modest (r : request F) : Prop :=
    match r with
    | RReturn | RRaise _ => True
    | RSet x k => match x with TwQuantity _ => False | _ => True end /\ forall w, modest (k w)
    | RCall c k => sane_call c /\ forall w o, modest (k w o)
    end.
  Definition modest_requests rq : Prop := forall pid j w, modest (rq pid j w).
  Definition sane_lcmd (c : lcmd F) : Prop := match c with LApi c => sane_call c | LAct _ _ => True end.
  Fixpoint sane_lscript (x : lscript F) : Prop :=
    match x with LDone | LRaise _ => True | LCall c k => sane_lcmd c /\ forall w r, sane_lscript (k w r) end.
  Definition sane_lprograms (pr : lprograms F) : Prop := forall sid cb eid w, sane_lscript (pr sid cb eid w).
  Definition sane_lop (o : lop F) : Prop := match o with LDo c => sane_lcmd c | LOp (OCmd c) => sane_call c | LOp _ => True end.

  (** The trade after an assignment by the request about it, and by the request about its close [n]. *)
  Record trade_kept (t t' : trade F) : Prop := {
    q_epic : tr_epic t' = tr_epic t; q_strat : tr_strat t' = tr_strat t; q_dir : tr_dir t' = tr_dir t; q_dt : tr_dt t' = tr_dt t; q_ref : tr_ref t' = tr_ref t;
    q_cv : tr_cv t' = tr_cv t; q_max : tr_max t' = tr_max t; q_min : tr_min t' = tr_min t }.
  Definition opening_set (x : tweak F) (t t' : trade F) : Prop :=
    trade_kept t t' /\ tr_closes t' = tr_closes t /\
    tr_status t' = match x with TwStatus a => a | _ => tr_status t end /\
    tr_ov t' = match x with TwPrice v => v | _ => tr_ov t end /\
    tr_oq t' = match x with TwQuantity q => q | _ => tr_oq t end.
  Definition closing_set (x : tweak F) (n : nat) (t t' : trade F) : Prop :=
    trade_kept t t' /\ tr_status t' = tr_status t /\ tr_ov t' = tr_ov t /\ tr_oq t' = tr_oq t /\ length (tr_closes t') = length (tr_closes t) /\
    (forall m, m <> n -> tr_closes t' !! m = tr_closes t !! m) /\
    forall c, tr_closes t !! n = Some c -> exists c', tr_closes t' !! n = Some c' /\ tc_dt c' = tc_dt c /\ tc_ref c' = tc_ref c /\
      tc_status c' = match x with TwStatus a => a | _ => tc_status c end /\
      tc_value c' = match x with TwPrice v => v | _ => tc_value c end /\
      tc_qty c' = match x with TwQuantity q => q | _ => tc_qty c end.
  Definition job_set (x : tweak F) (j : job) (t t' : trade F) : Prop :=
    match j with JOpen _ => opening_set x t t' | JClose _ n => closing_set x n t t' end.

  (** Requests that assign the statuses of the providers of World.v. *)
  Definition reply (a : status) : request F := RSet (TwStatus a) (fun _ => RReturn).
  Definition replies (so sc : status) (j : job) : request F := match j with JOpen _ => reply so | JClose _ _ => reply sc end.

  (** A program of World.v among those with requests in threads: it never lets them go on. *)
  Fixpoint lift (x : script F) : lscript F :=
    match x with SDone => LDone | SRaise e => LRaise e | SCall c k => LCall (LApi c) (fun w r => lift (k w r)) end.
  Definition lifted (pr : programs F) : lprograms F := fun sid cb eid w => lift (pr sid cb eid w).
End spec.

(** All prices of the trade are whole cents. *)
Definition in_cents (t : trade Q) : Prop := cents (tr_ov t) /\ cents (tr_cv t) /\ forall c, c ∈ tr_closes t -> cents (tc_value c).
