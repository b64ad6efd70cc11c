(** Concrete programs over exact rationals, used as non-vacuity witnesses and counterexamples. *)
From Verif Require Import NumQProofs.
From Verif Require Export ProviderProofs.
From Coq Require Export QArith.
Open Scope Z_scope.

(** Strategies whose callbacks do nothing. *)
Definition quiet : programs Q := fun _ _ _ _ => SDone.
Lemma quiet_ok P : programs_ok P quiet.
Proof. intros sid cb eid w. exact I. Qed.

Definition dt_s (s : Z) : arrow := arrow_of_utc tz_UTC (s * 1000000).
Definition tk_s (s : Z) (b a : Q) : tick Q := {| tk_dt := dt_s s; tk_bid := b; tk_ask := a |}.

(** One backtest provider shared by two epics, two strategies. *)
Definition ops_base : list (op Q) :=
  [ONewProvider PBacktests; ONewStrategy "s0"; ONewStrategy "s1";
   ONewEpic "A" (Some tz_UTC) 0 86399999999 None None (Some 0%nat); ONewEpic "B" (Some tz_UTC) 0 86399999999 None None (Some 0%nat);
   OTick 0 (tk_s 1600000000 (100#1) (101#1)); OTick 1 (tk_s 1600000000 (200#1) (201#1))].
Definition buy (eid : nat) (q : Z) (s : nat) : op Q := OCmd (COpen eid (Dir BUY) q (Some s) "").
Definition sell (eid : nat) (q : Z) (s : nat) : op Q := OCmd (COpen eid (Dir SELL) q (Some s) "").
Definition world_of (l : list (op Q)) : world Q := run quiet empty_world (ops_base ++ l).

Lemma world_of_reach P l : Forall (op_ok P) l -> reach P (world_of l).
Proof. intros Hl. unfold world_of. apply (run_reach P quiet (ops_base ++ l) empty_world); [apply quiet_ok| |constructor]. apply Forall_app. split; [|auto]. repeat constructor. Qed.
Ltac ops_ok := repeat (first [apply Forall_nil; exact I | apply Forall_cons; split; [simpl; first [lia|exact I|auto]|]]).

(** Open quantities and statuses, as plain data. *)
Definition qtys (w : world Q) : list Z := map opened_quantities (w_trades w).
Definition stats (w : world Q) : list status := map tr_status (w_trades w).
