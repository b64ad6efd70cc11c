(** Vocabulary of the strategy and epic properties. *)
From Verif Require Export SpecWorld SpecRound.
From Coq Require Import QArith Qminmax.
Open Scope Z_scope.

Section spec.
  Context {F : Type} `{Num F}.
  Implicit Types (w : world F).

  (** *** get_trades *)
  (** Trade [i] is on one of [epics] (any epic when not given) and, if [open_only], not fully closed. *)
  Definition wanted w (epics : option (list nat)) (open_only : bool) (i : nat) : Prop :=
    exists t, w_trades w !! i = Some t /\ (forall es, epics = Some es -> tr_epic t ∈ es) /\
      (open_only = true -> opened_quantities t <> 0).
  (** Trade [i] is dated at or after [d] (as Arrow objects compare). *)
  Definition dated_from w (d : arrow) (i : nat) : Prop := exists t, w_trades w !! i = Some t /\ arrow_ltb (tr_dt t) d = false.
  (** Date [b] is not before [a] on the clock used to compare them with [d]: the wall clock for dates in the zone of [d],
      UTC otherwise. *)
  Definition follows (d a b : arrow) : Prop :=
    tz_id (ar_tz a) = tz_id (ar_tz b) /\
    (if decide (tz_id (ar_tz a) = tz_id (ar_tz d)) then ar_wall a <= ar_wall b else ar_utc a <= ar_utc b).
  (** Among the trades [l], a trade opened later is never dated before one opened earlier. *)
  Definition chronological w (d : arrow) (l : list nat) : Prop :=
    forall i j t u, i ∈ l -> j ∈ l -> (i < j)%nat -> w_trades w !! i = Some t -> w_trades w !! j = Some u -> follows d (tr_dt t) (tr_dt u).

  (** *** close_opened_trades *)
  (** [t'] is [t] revalued with [tk] and then fully closed by one close at the exit price of [tk]. *)
  Definition closed_out (t t' : trade F) (tk : tick F) (ref : string) : Prop :=
    (exists c, tr_closes t' = tr_closes t ++ [c] /\ tc_value c = exit_price (tr_dir t) tk /\ tc_qty c = opened_quantities t /\
      tc_dt c = tk_dt tk /\ tc_ref c = ref) /\ opened_quantities t' = 0 /\
    tr_epic t' = tr_epic t /\ tr_strat t' = tr_strat t /\ tr_dir t' = tr_dir t /\ tr_oq t' = tr_oq t /\ tr_ov t' = tr_ov t /\
    tr_dt t' = tr_dt t /\ tr_status t' = tr_status t /\ tr_ref t' = tr_ref t.

  (** *** Activity of strategies and callbacks *)
  (** A strategy takes part in a tick dated [d]: not stopped, and not paused beyond [d]. *)
  Definition takes_part (s : strategy) (d : arrow) : bool :=
    negb (st_stopped s) && match st_paused s with Some u => negb (arrow_ltb d u) | None => true end.
  (** The callbacks of one strategy for one tick, when the market flag goes from [before] to [now]. *)
  Definition callbacks_of (before now : bool) : list callback :=
    match before, now with
    | false, false => [OnEveryTick]
    | false, true => [OnMarketOpen; OnEveryTickMarketOpen; OnEveryTick]
    | true, true => [OnEveryTickMarketOpen; OnEveryTick]
    | true, false => [OnMarketClose; OnEveryTick]
    end.
  Definition events_of (sid eid : nat) (l : list callback) : list event := map (fun c => {| ev_strat := sid; ev_cb := c; ev_epic := eid |}) l.
  (** Events of one strategy. *)
  Definition of_strat (sid : nat) (ev : event) : bool := Nat.eqb (ev_strat ev) sid.
  Definition only_of (sid : nat) (l : list event) : list event := List.filter (of_strat sid) l.
  (** The call does not pause, resume, stop or restart strategy [sid] (any strategy). *)
  Definition spares (sid : nat) (c : cmd F) : Prop := match c with CPause s _ | CStop s _ => s <> sid | _ => True end.
  Definition no_toggle (c : cmd F) : Prop := match c with CPause _ _ | CStop _ _ => False | _ => True end.
  Definition no_call (c : cmd F) : Prop := False.

  (** The market events (open, close) in [l] alternate, starting with an opening if the market was closed. *)
  Fixpoint alternate (is_open_ : bool) (l : list callback) : Prop :=
    match l with
    | [] => True
    | OnMarketOpen :: l' => is_open_ = false /\ alternate true l'
    | OnMarketClose :: l' => is_open_ = true /\ alternate false l'
    | _ :: l' => alternate is_open_ l'
    end.

  (** *** Epics *)
  (** The market hours of an epic, from the wall clock. *)
  Definition market_hours (e : epic F) (wall : Z) : Prop :=
    let day := wall / 86400000000 in
    ep_open e <= wall mod 86400000000 <= ep_close e /\ (day + 3) mod 7 ∈ ep_days e /\ ~ day ∈ ep_holidays e.
  (** The epic refuses the tick. *)
  Definition refused (e : epic F) (tk : tick F) : Prop :=
    arrow_ltb (arrow_to (ep_tz e) (tk_dt tk)) (tk_dt (ep_last e)) = true.
  Global Instance refused_decision e tk : Decision (refused e tk).
  Proof. unfold refused. apply _. Defined.
  (** The epic received at least one tick. *)
  Definition has_ticked (e : epic F) : Prop := ar_tz (tk_dt (ep_last e)) = ep_tz e.
  (** The UTC instants of the ticks sent to an epic, in order. *)
  Fixpoint utcs (eid : nat) (l : list (op F)) : list Z :=
    match l with
    | [] => []
    | OTick a tk :: l' => if decide (a = eid) then ar_utc (tk_dt tk) :: utcs eid l' else utcs eid l'
    | _ :: l' => utcs eid l'
    end.

  (** *** Whole runs *)
  (** No tick of the run raises, except those refused by the epic (or sent to no epic). *)
  Fixpoint clean (pr : programs F) w (l : list (op F)) : Prop :=
    match l with
    | [] => True
    | o :: l' => (match o with
                  | OTick a tk => snd (step pr w o) = Ok () \/ forall e, w_epics w !! a = Some e -> refused e tk
                  | _ => True
                  end) /\ clean pr (fst (step pr w o)) l'
    end.
  (** The ticks an epic accepts along a run, in its time zone. *)
  Definition accepts w (o : op F) (eid : nat) : list (tick F) :=
    match o with
    | OTick a tk => if decide (a = eid) then
                      match w_epics w !! eid with
                      | Some e => if decide (refused e tk) then [] else [tick_to (ep_tz e) tk]
                      | None => []
                      end
                    else []
    | _ => []
    end.
  Fixpoint accepted (pr : programs F) w (l : list (op F)) (eid : nat) : list (tick F) :=
    match l with [] => [] | o :: l' => accepts w o eid ++ accepted pr (fst (step pr w o)) l' eid end.
  (** The callbacks a strategy received for an epic, in order. *)
  Definition seen (sid eid : nat) (l : list event) : list callback :=
    map ev_cb (List.filter (fun ev => Nat.eqb (ev_strat ev) sid && Nat.eqb (ev_epic ev) eid) l).
  Definition is_tick_cb (c : callback) : bool := match c with OnEveryTick => true | _ => false end.
  (** The callbacks due for successive market flags. *)
  Fixpoint protocol (mo : bool) (flags : list bool) : list callback :=
    match flags with [] => [] | b :: l => callbacks_of mo b ++ protocol b l end.
  (** Frame set [fid] is attached to epic [eid] and to no other. *)
  Definition attached_only w (fid eid : nat) : Prop :=
    (exists e k, w_epics w !! eid = Some e /\ (k, fid) ∈ ep_fsets e) /\
    (exists fs, w_fsets w !! fid = Some fs /\ fs_epic fs = Some eid) /\
    forall a b k, w_epics w !! a = Some b -> (k, fid) ∈ ep_fsets b -> a = eid.
  Definition not_attaching (fid : nat) (o : op F) : Prop := match o with OAddFrameSet _ f => f <> fid | _ => True end.
End spec.

(** *** Figures of a strategy over exact prices *)
Open Scope Q_scope.
Fixpoint sum_of (l : list Q) : Q := match l with [] => 0 | x :: l' => x + sum_of l' end.
Definition gains (l : list Q) : Q := sum_of (map (fun x => Qmax x 0) l).
Definition losses (l : list Q) : Q := sum_of (map (fun x => Qmax (- x) 0) l).
(** [rs] are the results of the trades [l], in this order. *)
Definition results (w : world Q) (l : list nat) (rs : list Q) : Prop :=
  Forall2 (fun i r => exists t, w_trades w !! i = Some t /\ r = result t) l rs.

Section spec2.
  Context {F : Type} `{Num F}.
  (** Every tick of the run leaves strategy [s] out, by its date in the zone of the epic receiving it. *)
  Fixpoint left_out (s : strategy) (pr : programs F) (w : world F) (l : list (op F)) : Prop :=
    match l with
    | [] => True
    | o :: l' => (match o with
                  | OTick a tk => forall e, w_epics w !! a = Some e -> takes_part s (arrow_to (ep_tz e) (tk_dt tk)) = false
                  | _ => True
                  end) /\ left_out s pr (fst (step pr w o)) l'
    end.
  (** Every tick of the run is dated before [d] in the zone of the epic receiving it. *)
  Fixpoint ticks_before (d : arrow) (pr : programs F) (w : world F) (l : list (op F)) : Prop :=
    match l with
    | [] => True
    | o :: l' => (match o with
                  | OTick a tk => forall e, w_epics w !! a = Some e -> arrow_ltb (arrow_to (ep_tz e) (tk_dt tk)) d = true
                  | _ => True
                  end) /\ ticks_before d pr (fst (step pr w o)) l'
    end.
End spec2.
