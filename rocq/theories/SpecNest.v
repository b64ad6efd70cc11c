(** Frames of two frame sets fed with the same ticks. *)
From Verif Require Import SpecTrade.
From Verif Require Export SpecFrames.
Open Scope Z_scope.

Section nest.
  Context {F : Type} `{Num F}.
  (** What a frame shows of the ticks: period, first, last, highest, lowest tick, number of ticks. *)
  Definition content (f : frame F) := (fr_start f, fr_end f, fr_first f, fr_last f, fr_high f, fr_low f, fr_nb f).

  (** Did the frame receive one of the ticks, or was it made to fill a gap? *)
  Definition received (ts : list (tick F)) (f : frame F) : bool :=
    existsb (fun t => (ar_wall (fr_start f) <=? tk_wall t) && match fr_end f with Some e => tk_wall t <? ar_wall e | None => false end) ts.
  (** Frames starting in the period [s, e) which received a tick. *)
  Definition parts (ts : list (tick F)) (s e : Z) (l : list (frame F)) : list (frame F) :=
    List.filter (fun f => (s <=? ar_wall (fr_start f)) && (ar_wall (fr_start f) <? e) && received ts f) l.
  (** [f] is what one gets by merging the frames [gs]. *)
  Record merges (gs : list (frame F)) (f : frame F) : Prop := {
    mg_first : option_map fr_first (head gs) = Some (fr_first f);
    mg_last : option_map fr_last (last gs) = Some (fr_last f);
    mg_high : earliest_max (map fr_high gs) (fr_high f);
    mg_low : earliest_min (map fr_low gs) (fr_low f);
    mg_nb : fr_nb f = SpecTrade.total (map fr_nb gs) }.
End nest.

(** Every boundary of [u', q'] is a boundary of [u, q]. *)
Definition refines (u : unit_) (q : Z) (u' : unit_) (q' : Z) : Prop := forall w, boundary u' q' w -> boundary u q w.
(** Which units nest. *)
Inductive finer : unit_ -> Z -> unit_ -> Z -> Prop :=
  | fi_multiple u q k : finer u q u (k * q)
  | fi_second u q q' : u = MINUTE \/ u = HOUR \/ u = DAY \/ u = WEEK \/ u = MONTH \/ u = YEAR -> finer SECOND q u q'
  | fi_minute u q q' : u = HOUR \/ u = DAY \/ u = WEEK \/ u = MONTH \/ u = YEAR -> finer MINUTE q u q'
  | fi_hour u q q' : u = DAY \/ u = WEEK \/ u = MONTH \/ u = YEAR -> finer HOUR q u q'
  | fi_day q q' : finer DAY q WEEK q'
  | fi_one_day u q' : u = MONTH \/ u = YEAR -> finer DAY 1 u q'
  | fi_month q q' : finer MONTH q YEAR q'.
