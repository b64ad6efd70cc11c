(** Properties C50-C52: what the results of a trade depend on (estrade/trade.py). *)
From Coq Require Import Reals.
From Flocq Require Import Core BinarySingleNaN.
From Verif Require Import FloatMirrorProofs MirrorProofs SpecTrade.
From Verif Require Import FloatExamples.
From Coq Require Import QArith.
Open Scope Q_scope.

(** C50: two trades opened alike and valued alike have the same quantities and results as soon as the same quantity
    was closed at each price, whatever the order and the splitting of the closes. *)
Theorem C50_results_by_price : forall t t' : trade Q, tr_dir t = tr_dir t' -> tr_ov t == tr_ov t' -> tr_cv t == tr_cv t' -> tr_oq t = tr_oq t' ->
  (forall p, booked_at p (tr_closes t) = booked_at p (tr_closes t')) ->
  closed_quantities t = closed_quantities t' /\ opened_quantities t = opened_quantities t' /\ closed_result t == closed_result t' /\ result t == result t'.
Proof. exact result_by_price. Qed.
Print Assumptions C50_results_by_price.

Definition dt0 : Arrow.arrow := arrow_of_utc tz_UTC 1600000000000000.
Definition opened (d : dir) : trade Q := trade_init d 9 (10010#100) dt0 0 (Some (100#1)) None "t".
Definition cl (p : Q) (q : Z) : tcall Q := TClose p (DtAware dt0) (Some q) "c".
(** Closing 2 at 101, 3 at 99, 1 at 101 or 3 at 99, 3 at 101. *)
Example C50_ex : let t := do_calls (opened BUY) [cl 101 2; cl 99 3; cl 101 1] in let t' := do_calls (opened BUY) [cl 99 3; cl 101 3] in
  (forall p, booked_at p (tr_closes t) = booked_at p (tr_closes t')) /\ tr_closes t <> tr_closes t' /\ result t == -9#10 /\ result t' == -9#10.
Proof.
  cbv zeta. split; [|split; [vm_compute; discriminate|split; vm_compute; reflexivity]].
  intros p. unfold booked_at. cbn [tr_closes do_calls fold_left opened trade_init do_call cl close timed_set rbind set_closes set_maxmin app tc_value List.filter].
  destruct (Qeq_bool 101 p), (Qeq_bool 99 p); vm_compute; reflexivity.
Qed.
(** On floats the order of the closes shows in the last digits of the result. *)
Theorem C50_order_b64_refuted : exists (t : trade b64) (l l' : list (tcall b64)), Permutation l l' /\
  (forall c, c ∈ l -> exists v q, c = TClose v (DtAware dt0) (Some q) "c" /\ 0 < q)%Z /\ feqb (result (do_calls t l)) (result (do_calls t l')) = false.
Proof.
  exists (trade_init BUY 9 (dec 0) dt0 0 None None "t"), [TClose (dec 10) (DtAware dt0) (Some 1%Z) "c"; TClose (dec 20) (DtAware dt0) (Some 1%Z) "c"; TClose (dec 30) (DtAware dt0) (Some 1%Z) "c"],
    [TClose (dec 30) (DtAware dt0) (Some 1%Z) "c"; TClose (dec 20) (DtAware dt0) (Some 1%Z) "c"; TClose (dec 10) (DtAware dt0) (Some 1%Z) "c"].
  split; [apply (Permutation_rev [_; _; _])|]. split; [|vm_compute; reflexivity].
  intros c Hc. repeat (apply elem_of_cons in Hc as [->|Hc]; [do 2 eexists; split; [reflexivity|reflexivity]|]). now apply elem_of_nil in Hc.
Qed.
Print Assumptions C50_order_b64_refuted.

(** C51: a SELL going through the same prices and calls as a BUY closes the same quantities and has the opposite results. *)
Theorem C51_mirror : forall q (ov : Q) dt e cv st ref l,
  let b := do_calls (trade_init BUY q ov dt e cv st ref) l in let s := do_calls (trade_init SELL q ov dt e cv st ref) l in
  tr_closes s = tr_closes b /\ opened_quantities s = opened_quantities b /\ closed_quantities s = closed_quantities b /\ closed s = closed b /\
  result s == - result b /\ opened_result s == - opened_result b /\ closed_result s == - closed_result b /\ tr_min s == - tr_max b /\ tr_max s == - tr_min b.
Proof. exact (mirror_run _ sym_Q). Qed.
Print Assumptions C51_mirror.
(** The same on floats, overflows and NaN included. *)
Theorem C51_mirror_b64 : forall q (ov : b64) dt e cv st ref l,
  let b := do_calls (trade_init BUY q ov dt e cv st ref) l in let s := do_calls (trade_init SELL q ov dt e cv st ref) l in
  tr_closes s = tr_closes b /\ opened_quantities s = opened_quantities b /\ closed_quantities s = closed_quantities b /\ closed s = closed b /\
  opposite (result b) (result s) /\ opposite (opened_result b) (opened_result s) /\ opposite (closed_result b) (closed_result s) /\
  opposite (tr_max b) (tr_min s) /\ opposite (tr_min b) (tr_max s).
Proof. exact (mirror_run _ sym_b64). Qed.
Print Assumptions C51_mirror_b64.
Example C51_ex : let l := [TUpdate 102; cl 103 4; TUpdate 98; cl 97 9; TUpdate 200] in
  let b := do_calls (opened BUY) l in let s := do_calls (opened SELL) l in
  closed b = true /\ result b == -39#10 /\ result s == 39#10 /\ tr_max b == 171#10 /\ tr_min s == -171#10.
Proof. cbv zeta. split_and!; vm_compute; reflexivity. Qed.

(** C52: adding a constant to every price of a trade changes none of its quantities and results. *)
Theorem C52_translation : forall d dir q (ov cv ov' cv' : Q) dt e st ref l l', ov' == ov + d -> cv' == cv + d -> ~ cv == 0 -> ~ cv' == 0 -> Forall2 (moved_call d) l l' ->
  let t := do_calls (trade_init dir q ov dt e (Some cv) st ref) l in let t' := do_calls (trade_init dir q ov' dt e (Some cv') st ref) l' in
  opened_quantities t' = opened_quantities t /\ closed_quantities t' = closed_quantities t /\ closed t' = closed t /\
  result t' == result t /\ opened_result t' == opened_result t /\ closed_result t' == closed_result t /\ tr_max t' == tr_max t /\ tr_min t' == tr_min t.
Proof. exact moved_run. Qed.
Print Assumptions C52_translation.
Example C52_ex : let l := [TUpdate 102; cl 103 4] in let l' := [TUpdate 7; cl 8 4] in let t := do_calls (opened BUY) l in
  let t' := do_calls (trade_init BUY 9 (510#100) dt0 0 (Some 5) None "t") l' in
  Forall2 (moved_call (-95)) l l' /\ result t == 211#10 /\ result t' == 211#10.
Proof. cbv zeta. split; [|split; vm_compute; reflexivity]. repeat constructor. Qed.
(** With an initial price of exactly 0 (valued at the open price instead) the translation shows. *)
Theorem C52_price_zero_refuted : exists d q (ov cv : Q) dt, let t := trade_init BUY q ov dt 0 (Some cv) None "t" in
  let t' := trade_init BUY q (ov + d) dt 0 (Some (cv + d)) None "t" in ~ result t' == result t.
Proof. exists 1, 5%Z, 2, 0, dt0. vm_compute. discriminate. Qed.
Print Assumptions C52_price_zero_refuted.
