(** estrade/trade.py *)
From Verif Require Export Tick.

(** estrade/enums/__init__.py:4-15 and 18-37 *)
Inductive dir := BUY | SELL.
Inductive status := CREATED | REQUIRED | PENDING | CONFIRMED | CLOSED | REFUSED.
Global Instance dir_eq_dec : EqDecision dir. Proof. solve_decision. Defined.
Global Instance status_eq_dec : EqDecision status. Proof. solve_decision. Defined.
Definition dir_eqb (a b : dir) : bool := bool_decide (a = b).

(** The [direction] argument of the opening functions; [BadDir] is any other value. *)
Inductive dirarg := Dir (d : dir) | BadDir.

Section trade.
  Context {F : Type} `{Num F}.

  (** trade.py:396-427 [TradeClose]; [meta] not modelled. *)
  Record tclose := {
    tc_value : F; tc_qty : Z; tc_dt : arrow; tc_status : status; tc_ref : string }.

  (** trade.py:44-91; [tr_epic] / [tr_strat] are object ids; [meta] not modelled. *)
  Record trade := {
    tr_epic : nat; tr_strat : option nat; tr_dir : dir; tr_oq : Z; tr_closes : list tclose;
    tr_ov : F; tr_cv : F; tr_max : F; tr_min : F;
    tr_dt : arrow; tr_status : status; tr_ref : string }.

  Definition set_cv (t : trade) (v : F) : trade :=
    {| tr_epic := tr_epic t; tr_strat := tr_strat t; tr_dir := tr_dir t; tr_oq := tr_oq t;
       tr_closes := tr_closes t; tr_ov := tr_ov t; tr_cv := v; tr_max := tr_max t;
       tr_min := tr_min t; tr_dt := tr_dt t; tr_status := tr_status t; tr_ref := tr_ref t |}.
  Definition set_maxmin (t : trade) (mx mn : F) : trade :=
    {| tr_epic := tr_epic t; tr_strat := tr_strat t; tr_dir := tr_dir t; tr_oq := tr_oq t;
       tr_closes := tr_closes t; tr_ov := tr_ov t; tr_cv := tr_cv t; tr_max := mx;
       tr_min := mn; tr_dt := tr_dt t; tr_status := tr_status t; tr_ref := tr_ref t |}.
  Definition set_closes (t : trade) (l : list tclose) : trade :=
    {| tr_epic := tr_epic t; tr_strat := tr_strat t; tr_dir := tr_dir t; tr_oq := tr_oq t;
       tr_closes := l; tr_ov := tr_ov t; tr_cv := tr_cv t; tr_max := tr_max t;
       tr_min := tr_min t; tr_dt := tr_dt t; tr_status := tr_status t; tr_ref := tr_ref t |}.
  Definition set_oq (t : trade) (q : Z) : trade :=
    {| tr_epic := tr_epic t; tr_strat := tr_strat t; tr_dir := tr_dir t; tr_oq := q;
       tr_closes := tr_closes t; tr_ov := tr_ov t; tr_cv := tr_cv t; tr_max := tr_max t;
       tr_min := tr_min t; tr_dt := tr_dt t; tr_status := tr_status t; tr_ref := tr_ref t |}.
  Definition set_status (t : trade) (s : status) : trade :=
    {| tr_epic := tr_epic t; tr_strat := tr_strat t; tr_dir := tr_dir t; tr_oq := tr_oq t;
       tr_closes := tr_closes t; tr_ov := tr_ov t; tr_cv := tr_cv t; tr_max := tr_max t;
       tr_min := tr_min t; tr_dt := tr_dt t; tr_status := s; tr_ref := tr_ref t |}.
  Definition set_cstatus (c : tclose) (s : status) : tclose :=
    {| tc_value := tc_value c; tc_qty := tc_qty c; tc_dt := tc_dt c; tc_status := s; tc_ref := tc_ref c |}.

  (** trade.py:292-300 *)
  Definition closed_quantities (t : trade) : Z := fold_left Z.add (map tc_qty (tr_closes t)) 0.
  (** trade.py:302-310 *)
  Definition opened_quantities (t : trade) : Z := tr_oq t - closed_quantities t.
  (** trade.py:312-320 *)
  Definition closed (t : trade) : bool := opened_quantities t =? 0.

  (** trade.py:322-337 *)
  Definition opened_result_avg (t : trade) : F :=
    if closed t then fofZ 0 else
    round2 (match tr_dir t with
            | BUY => fsub (tr_cv t) (tr_ov t)
            | SELL => fsub (tr_ov t) (tr_cv t)
            end).
  (** trade.py:339-347 *)
  Definition opened_result (t : trade) : F := fmul (opened_result_avg t) (fofZ (opened_quantities t)).
  (** trade.py:429-441 [TradeClose.result_avg] *)
  Definition close_result_avg (t : trade) (c : tclose) : F :=
    match tr_dir t with
    | BUY => round2 (fsub (tc_value c) (tr_ov t))
    | SELL => round2 (fsub (tr_ov t) (tc_value c))
    end.
  (** trade.py:443-451 [TradeClose.result] *)
  Definition close_result (t : trade) (c : tclose) : F :=
    round2 (fmul (close_result_avg t c) (fofZ (tc_qty c))).
  (** trade.py:365-373 *)
  Definition closed_result (t : trade) : F := fsum (map (close_result t) (tr_closes t)).
  (** trade.py:349-363 *)
  Definition closed_result_avg (t : trade) : res F :=
    match tr_closes t with
    | [] => Ok (round2 (fofZ 0))
    | _ :: _ => rmap round2 (fdivr (closed_result t) (fofZ (closed_quantities t)))
    end.
  (** trade.py:375-383 *)
  Definition result (t : trade) : F := fadd (opened_result t) (closed_result t).
  (** trade.py:385-393 *)
  Definition result_avg (t : trade) : res F := rmap round2 (fdivr (result t) (fofZ (tr_oq t))).

  (** trade.py:44-91 [Trade.__init__]; line 78: [current_close_value or open_value]. *)
  Definition trade_init (d : dir) (q : Z) (ov : F) (dt : arrow) (epic : nat) (cv : option F)
      (strat : option nat) (ref : string) : trade :=
    let cur := match cv with Some v => if ftruthy v then v else ov | None => ov end in
    let t := {| tr_epic := epic; tr_strat := strat; tr_dir := d; tr_oq := q; tr_closes := [];
                tr_ov := ov; tr_cv := cur; tr_max := f0; tr_min := f0; tr_dt := dt;
                tr_status := CREATED; tr_ref := ref |} in
    set_maxmin t (result t) (result t).

  (** trade.py:111-136 [open_from_tick]; trade.py:138-156 [open_from_epic] passes the epic's last tick. *)
  Definition open_from_tick (tk : tick F) (epic : nat) (d : dirarg) (q : Z) (strat : option nat)
      (ref : string) : res trade :=
    match d with
    | Dir BUY => Ok (trade_init BUY q (tk_ask tk) (tk_dt tk) epic (Some (tk_bid tk)) strat ref)
    | Dir SELL => Ok (trade_init SELL q (tk_bid tk) (tk_dt tk) epic (Some (tk_ask tk)) strat ref)
    | BadDir => Err TradeException
    end.

  (** trade.py:161-166 *)
  Definition update_min_max (t : trade) : trade :=
    let t1 := if fltb (tr_max t) (result t) then set_maxmin t (result t) (tr_min t) else t in
    if fltb (result t1) (tr_min t1) then set_maxmin t1 (tr_max t1) (result t1) else t1.

  (** trade.py:168-187 *)
  Definition update (t : trade) (v : F) : trade :=
    if closed t then t else update_min_max (set_cv t v).

  (** trade.py:189-201; trade.py:203-205 [update_from_epic] passes the epic's last tick. *)
  Definition update_from_tick (t : trade) (tk : tick F) : trade :=
    update t (match tr_dir t with BUY => tk_bid tk | SELL => tk_ask tk end).

  (** trade.py:233-240: the quantity actually closed. *)
  Definition close_quantity (t : trade) (q : option Z) : Z :=
    let q1 := match q with
              | Some z => if z =? 0 then opened_quantities t else z
              | None => opened_quantities t
              end in
    if opened_quantities t <? q1 then opened_quantities t else q1.

  (** trade.py:210-253 [close]; a naive datetime makes the TradeClose constructor raise before
      anything is appended. *)
  Definition close (t : trade) (v : F) (d : dtarg) (q : option Z) (ref : string) : res (trade * tclose) :=
    let! dt := timed_set d in
    let c := {| tc_value := v; tc_qty := close_quantity t q; tc_dt := dt; tc_status := CREATED;
                tc_ref := ref |} in
    Ok (set_closes t (tr_closes t ++ [c]), c).

  (** trade.py:255-273; trade.py:275-287 [close_from_epic] passes the epic's last tick. *)
  Definition close_from_tick (t : trade) (tk : tick F) (q : option Z) (ref : string) : res (trade * tclose) :=
    let t1 := update_from_tick t tk in
    close t1 (tr_cv t1) (DtAware (tk_dt tk)) q ref.

End trade.
Arguments trade F : clear implicits.
Arguments tclose F : clear implicits.
