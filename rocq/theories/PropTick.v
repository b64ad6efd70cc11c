(** Properties C01, C02 (estrade/tick.py). *)
From Verif Require Import TickProofs.
Open Scope Q_scope.

(** C01: a tick is created exactly from an aware datetime and two numbers, ask not below bid; it carries
    exactly that instant and those prices.  For every arithmetic. *)
Theorem C01_tick_accepts : forall {F} `{Num F} (d : dtarg) (b a : numarg F) (t : tick F),
  tick_init d b a = Ok t <->
  exists dt bp ap, d = DtAware dt /\ numeric b bp /\ numeric a ap /\ fltb ap bp = false /\
                   tk_dt t = dt /\ tk_bid t = bp /\ tk_ask t = ap.
Proof. exact @tick_accepts. Qed.
Print Assumptions C01_tick_accepts.

(** With exact prices the order test is [bid <= ask]. *)
Theorem C01_tick_accepts_Q : forall (d : dtarg) (b a : numarg Q) (t : tick Q),
  tick_init d b a = Ok t <->
  exists dt bp ap, d = DtAware dt /\ numeric b bp /\ numeric a ap /\ bp <= ap /\
                   tk_dt t = dt /\ tk_bid t = bp /\ tk_ask t = ap.
Proof. exact tick_accepts_Q. Qed.
Print Assumptions C01_tick_accepts_Q.

Example C01_accepts_ex : exists t, tick_init (DtAware (arrow_of_utc tz_UTC 5)) (NInt 3) (NFloat (7#2)) = Ok t.
Proof. eexists. vm_compute. reflexivity. Qed.

(** Any other construction raises: TimeException for a naive datetime, TickException else. *)
Theorem C01_tick_rejects : forall {F} `{Num F} (d : dtarg) (b a : numarg F) e,
  tick_init d b a = Err e ->
  (d = DtNaive /\ e = TimeException) \/
  (exists dt, d = DtAware dt /\ e = TickException /\
     forall bp ap, numeric b bp -> numeric a ap -> fltb ap bp = true).
Proof. exact @tick_rejects. Qed.
Print Assumptions C01_tick_rejects.

Example C01_rejects_ex :
  tick_init (F:=Q) DtNaive NOther (NInt 1) = Err TimeException /\
  tick_init (F:=Q) (DtAware (arrow_of_utc tz_UTC 5)) (NInt 3) (NInt 2) = Err TickException /\
  tick_init (F:=Q) (DtAware (arrow_of_utc tz_UTC 5)) (NInt 3) NOther = Err TickException.
Proof. vm_compute. auto. Qed.

(** C02: the spread is never negative. *)
Theorem C02_spread_nonneg : forall (d : dtarg) (b a : numarg Q) (t : tick Q),
  tick_init d b a = Ok t -> 0 <= tk_spread t.
Proof.
  intros d b a t H. apply tick_accepts_Q in H. destruct H as (? & ? & ? & _ & _ & _ & H & _ & <- & <-).
  exact (spread_nonneg t H).
Qed.
Print Assumptions C02_spread_nonneg.

(** C02: the value is within 0.0075 of the exact midpoint. *)
Theorem C02_value_near_midpoint : forall (t : tick Q),
  Qabs (tk_value t - (tk_bid t + tk_ask t) / 2) <= 75 # 10000.
Proof. exact value_near_mid. Qed.
Print Assumptions C02_value_near_midpoint.

(** C02: with quotes in whole cents the value lies between bid and ask. *)
Theorem C02_value_between_quotes : forall (t : tick Q),
  tk_bid t <= tk_ask t -> cents (tk_bid t) -> cents (tk_ask t) ->
  tk_bid t <= tk_value t <= tk_ask t.
Proof. exact value_inside. Qed.
Print Assumptions C02_value_between_quotes.

Definition tick_ex (b a : Q) : tick Q := {| tk_dt := arrow_of_utc tz_UTC 5; tk_bid := b; tk_ask := a |}.
Example C02_ex : cents (tk_bid (tick_ex (1000#100) (1003#100))) /\ tk_spread (tick_ex (1000#100) (1003#100)) == 3#100 /\
  tk_value (tick_ex (1000#100) (1003#100)) == 1002#100.
Proof. split; [exists 1000%Z; reflexivity|split; vm_compute; reflexivity]. Qed.

(** C02: without the whole-cent hypothesis the value can leave the quote interval. *)
Theorem C02_value_between_quotes_refuted :
  exists (d : dtarg) (b a : numarg Q) (t : tick Q),
    tick_init d b a = Ok t /\ ~ (tk_bid t <= tk_value t <= tk_ask t).
Proof.
  exists (DtAware (arrow_of_utc tz_UTC 5)), (NFloat (5#1000)), (NFloat (5#1000)). eexists. split; [reflexivity|].
  vm_compute. intros [H _]. apply H. reflexivity.
Qed.
Print Assumptions C02_value_between_quotes_refuted.
