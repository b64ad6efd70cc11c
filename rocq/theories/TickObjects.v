(** Tick objects: World.v passes ticks as values; here they are objects that [Epic.on_new_tick] modifies in place and that
    several epics can hold. *)
From Verif Require Export World.
Open Scope Z_scope.

Section objects.
  Context {F : Type} `{Num F}.

  (** estrade/mixins/timed.py:23-41, estrade/tick.py:85-89 and 101-105: the setters.  The order of the prices is checked by the
      constructor only (tick.py:56-57). *)
  Definition tick_set_dt (t : tick F) (d : dtarg) : res (tick F) :=
    let! dt := timed_set d in Ok {| tk_dt := dt; tk_bid := tk_bid t; tk_ask := tk_ask t |}.
  Definition tick_set_ask (t : tick F) (a : numarg F) : res (tick F) :=
    let! x := price_set a in Ok {| tk_dt := tk_dt t; tk_bid := tk_bid t; tk_ask := x |}.
  Definition tick_set_bid (t : tick F) (a : numarg F) : res (tick F) :=
    let! x := price_set a in Ok {| tk_dt := tk_dt t; tk_bid := x; tk_ask := tk_ask t |}.

  (** A program with tick objects: the other objects, the present content of every tick object, and for each epic the
      tick object it holds as [last_tick] (None: the fake tick of its constructor).  The ticks held by frames and indicator
      values keep in this model the datetime they came with (the code only reads their prices). *)
  Record oworld := { ow_world : world F; ow_ticks : list (tick F); ow_last : nat -> option nat }.

  (** What the epics see once tick objects were modified. *)
  Definition sync_epic (T : list (tick F)) (L : nat -> option nat) (i : nat) (e : epic F) : epic F :=
    match L i with
    | Some tid => match T !! tid with Some t => ep_set_last e t (ep_mopen e) | None => e end
    | None => e
    end.
  Definition sync (T : list (tick F)) (L : nat -> option nat) (w : world F) : world F :=
    upd_epics w (imap (sync_epic T L) (w_epics w)).

  (** epic.py:227-259 [Epic.on_new_tick] on the tick object [tid]. *)
  Definition o_tick (pr : programs F) (s : oworld) (eid tid : nat) : oworld * res unit :=
    match w_epics (ow_world s) !! eid, ow_ticks s !! tid with
    | Some e, Some t =>
        let tk := tick_to (ep_tz e) t in
        (* 244: the object is modified, also when the tick is then refused *)
        let T := <[tid := tk]> (ow_ticks s) in
        let w1 := sync T (ow_last s) (ow_world s) in
        (* 245-259 *)
        let '(w2, r) := epic_on_new_tick pr w1 eid tk in
        let acc := match w_epics w1 !! eid with Some e1 => negb (arrow_ltb (tk_dt tk) (tk_dt (ep_last e1))) | None => false end in
        (* 251 *)
        ({| ow_world := w2; ow_ticks := T;
            ow_last := fun i => if Nat.eqb i eid && acc then Some tid else ow_last s i |}, r)
    | _, _ => (s, Err Dangling)
    end.

  Inductive oop := OBTick (epic tick : nat) | OBOther (o : op F).
  Definition o_step (pr : programs F) (s : oworld) (o : oop) : oworld * res unit :=
    match o with
    | OBTick e t => o_tick pr s e t
    | OBOther o => let '(w, r) := step pr (ow_world s) o in
                   ({| ow_world := w; ow_ticks := ow_ticks s; ow_last := ow_last s |}, r)
    end.
  Definition o_run (pr : programs F) (s : oworld) (l : list oop) : oworld := fold_left (fun s o => fst (o_step pr s o)) l s.
  (** [w] is a state without shared ticks, [ts] the tick objects the program created. *)
  Definition o_init (w : world F) (ts : list (tick F)) : oworld := {| ow_world := w; ow_ticks := ts; ow_last := fun _ => None |}.
End objects.
Arguments oworld F : clear implicits.
Arguments oop F : clear implicits.
