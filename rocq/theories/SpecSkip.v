(** Time zones whose clocks are put forward: which wall-clock times exist, and when the skipped times are whole frames. *)
From Verif Require Import SpecTimeframe SpecFrames.
Open Scope Z_scope.

(** The wall-clock time [w] exists in the zone: resolving it changes nothing. *)
Definition kept (z : tzinfo) (w : Z) : Prop := tz_resolve z w = w.
(** The next boundary after [s] that exists. *)
Definition next_kept (z : tzinfo) (u : unit_) (q s e : Z) : Prop :=
  boundary u q e /\ kept z e /\ s < e /\ forall b, boundary u q b -> kept z b -> s < b -> e <= b.

(** The clock changes of the zone fit the timeframe: the frame of every existing time starts at an existing time, and the end of a frame
    moved by dateutil's resolve_imaginary falls on the next existing boundary. *)
Definition aligned (z : tzinfo) (u : unit_) (q : Z) : Prop :=
  (forall w s, kept z w -> last_boundary u q w s -> kept z s) /\
  (forall s e, boundary u q s -> kept z s -> next_boundary u q s e -> next_kept z u q s (tz_resolve z e)).

(** [sk a n]: at the wall-clock time [a] the clock is put forward by [n].  The times that do not exist are exactly those of the changes
    listed by [sk], each is moved forward by the length of its change, and the first time after a change exists. *)
Definition changes (z : tzinfo) (sk : Z -> Z -> Prop) : Prop :=
  (forall w, kept z w \/ exists a n, sk a n /\ a <= w < a + n) /\
  (forall a n, sk a n -> 0 < n /\ kept z (a + n) /\ forall w, a <= w < a + n -> tz_resolve z w = w + n).

Section spec.
  Context {F : Type} `{Num F}.
  (** Ticks of the zone, in wall-clock order, at times that exist. *)
  Definition in_order_kept (z : tzinfo) (ts : list (tick F)) : Prop := in_order z ts /\ Forall (fun t => kept z (tk_wall t)) ts.
  (** [bl] lists once each the existing boundaries in ]a, b]. *)
  Definition elapsed_kept (z : tzinfo) (u : unit_) (q a b : Z) (bl : list Z) : Prop :=
    NoDup bl /\ forall x, x ∈ bl <-> boundary u q x /\ kept z x /\ a < x <= b.
End spec.
