(** Concrete programs for the strategy and epic properties. *)
From Coq Require Export QArith Qminmax.
From Verif Require Export WorldExamples EpicApiProofs.
Open Scope Z_scope.

(** *** C19 *)
Lemma results_exist P (w : world Q) sid s : reach P w -> w_strats w !! sid = Some s -> exists rs, results w (st_trades s) rs.
Proof.
  intros Hr Hs. assert (forall i, i ∈ st_trades s -> exists t, w_trades w !! i = Some t) as Ht.
  { intros i Hi. apply (strategy_trades P w sid s i Hr Hs) in Hi as [(t & Ht & _) _]. eauto. }
  clear Hr Hs. induction (st_trades s) as [|i l IH]; [exists []; constructor|]. destruct IH as [rs Hrs]; [intros j Hj; apply Ht; now right|].
  destruct (Ht i) as [t Hti]; [left|]. exists (result t :: rs). constructor; eauto.
Qed.
Lemma strategy_result_all P (w : world Q) sid s : reach P w -> w_strats w !! sid = Some s ->
  exists rs, results w (st_trades s) rs /\ round_cent (sum_of rs) (strategy_result w s TNone).
Proof. intros Hr Hs. destruct (results_exist P w sid s Hr Hs) as [rs Hrs]. exists rs. split; [auto|]. eapply strategy_result_spec; eauto. Qed.
Lemma strategy_result_given (w : world Q) s l rs : results w l rs ->
  (l <> [] -> round_cent (sum_of rs) (strategy_result w s (TList l))) /\ round_cent (sum_of rs) (strategy_result w s (TGen l)).
Proof. intros Hr. split; [intros Hl|]; (eapply strategy_result_spec; [|exact Hr]); [|reflexivity]. now destruct l. Qed.
Lemma profit_factor_all P (w : world Q) sid s : reach P w -> w_strats w !! sid = Some s ->
  exists rs v, results w (st_trades s) rs /\ profit_factor w s TNone = Ok v /\ (0 <= v)%Q /\ ((losses rs == 0)%Q -> (v == gains rs)%Q) /\
    ((0 < losses rs)%Q -> round_cent (gains rs / Qmax 1 (losses rs))%Q v).
Proof. intros Hr Hs. destruct (results_exist P w sid s Hr Hs) as [rs Hrs]. destruct (profit_factor_spec w s TNone (st_trades s) rs eq_refl Hrs) as (v & V). exists rs, v. auto. Qed.

(** Strategy [k] of a state. *)
Definition strat_of (w : world Q) (k : nat) : strategy := nth k (w_strats w) {| st_ref := ""; st_epics := []; st_paused := None; st_stopped := false; st_trades := [] |}.
Lemma strat_of_lookup w k : (k < length (w_strats w))%nat -> w_strats w !! k = Some (strat_of w k).
Proof. intros Hk. destruct (lookup_lt_is_Some_2 _ _ Hk) as [s Hs]. rewrite Hs. unfold strat_of. f_equal. symmetry. now apply nth_lookup_Some. Qed.

(** *** Programs with callbacks *)
Definition ev (sid eid : nat) (c : callback) : event := {| ev_strat := sid; ev_cb := c; ev_epic := eid |}.
(** One strategy on one epic open from 08:00 to 16:00 UTC. *)
Definition ops_hours : list (op Q) :=
  [ONewStrategy "s0"; ONewStrategy "s1"; ONewEpic "A" (Some tz_UTC) 28800000000 57600000000 None None None; OAddStrategy 0 0; OAddStrategy 0 1].
(** Tuesday 2020-09-15, hour [h]. *)
Definition at_h (h : Z) : op Q := OTick 0 (tk_s (1600128000 + 3600 * h) (100#1) (101#1)).
