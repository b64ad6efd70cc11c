(** estrade/tick.py and estrade/mixins/timed.py *)
From Verif Require Export Num Arrow.

(** A datetime argument: a value without tzinfo (naive, or not a datetime at all), or an aware
    one (python datetime or Arrow; [arrow.get] keeps instant and tzinfo). *)
Inductive dtarg := DtNaive | DtAware (a : arrow).

(** estrade/mixins/timed.py:10-21, 23-41: the datetime setter. *)
Definition timed_set (d : dtarg) : res arrow :=
  match d with DtNaive => Err TimeException | DtAware a => Ok a end.

Section tick.
  Context {F : Type} `{Num F}.

  (** A price argument: an int (or bool), a float, or something else. *)
  Inductive numarg := NInt (z : Z) | NFloat (x : F) | NOther.

  (** tick.py:63-73 [check_value] and the [float(...)] conversion of the setters
      (tick.py:85-89, 101-105). *)
  Definition price_set (a : numarg) : res F :=
    match a with NInt z => Ok (fofZ z) | NFloat x => Ok x | NOther => Err TickException end.

  (** [meta] is not modelled (a dict the code never reads). A tick is a value: the model does
      not represent a Tick object mutated after it was handed to an epic. *)
  Record tick := { tk_dt : arrow; tk_bid : F; tk_ask : F }.

  (** tick.py:30-61 [Tick.__init__]: datetime, then ask, then bid, then the order check. *)
  Definition tick_init (d : dtarg) (bid ask : numarg) : res tick :=
    let! dt := timed_set d in
    let! a := price_set ask in
    let! b := price_set bid in
    if fltb a b then Err TickException else Ok {| tk_dt := dt; tk_bid := b; tk_ask := a |}.

  (** tick.py:120 *)
  Definition tk_spread (t : tick) : F := round2 (fsub (tk_ask t) (tk_bid t)).
  (** tick.py:135 *)
  Definition tk_value (t : tick) : F := round2 (fadd (tk_bid t) (fdiv (tk_spread t) (fofZ 2))).

  (** [tick.datetime = tick.datetime.to(tz)], estrade/epic.py:244 *)
  Definition tick_to (z : tzinfo) (t : tick) : tick :=
    {| tk_dt := arrow_to z (tk_dt t); tk_bid := tk_bid t; tk_ask := tk_ask t |}.
End tick.
Arguments tick F : clear implicits.
Arguments numarg F : clear implicits.
