(** Programs of C67: a strategy that only buys, and one that closes everything before it opens in either direction. *)
From Verif Require Export LiveProofs WorldExamples.
Open Scope Z_scope.

(** Buys on every tick, closes its oldest trade every time it has three of them. *)
Definition buyer : programs Q := fun sid cb eid w =>
  match cb with
  | OnEveryTick => SCall (COpen eid (Dir BUY) 3 (Some sid) "") (fun v _ =>
      if (3 <=? length (w_trades v))%nat then SCall (CClose (length (w_trades v) - 3) None "") (fun _ _ => SDone) else SDone)
  | _ => SDone
  end.
Lemma buyer_directed : programs_ok (directed (fun _ => BUY)) buyer.
Proof. intros sid cb eid w. destruct cb; try exact I. split; [split; [lia|reflexivity]|]. intros v _. destruct (3 <=? length (w_trades v))%nat; simpl; auto. Qed.
Lemma plain_length (w w' : world Q) : plain w = plain w' -> length (w_trades w) = length (w_trades w').
Proof. intros E. apply (f_equal (fun w => length (w_trades w))) in E. simpl in E. now rewrite !fmap_length in E. Qed.
Lemma buyer_blind : kind_blind buyer.
Proof.
  intros sid cb eid w w' E. destruct cb; try apply sc_done. apply sc_call. intros v v' r Ev. rewrite (plain_length _ _ Ev). destruct (Nat.leb _ _); [|apply sc_done].
  apply sc_call. intros ? ? ? _. apply sc_done.
Qed.

(** Closes everything, then follows the market: BUY below 103, SELL from 103 on. *)
Definition low (eid : nat) (w : world Q) : bool := match w_epics w !! eid with Some e => negb (Qle_bool (103#1) (tk_bid (ep_last e))) | None => true end.
Definition follower : programs Q := fun sid cb eid w =>
  match cb with
  | OnEveryTick => SCall (CCloseAll sid None "") (fun v _ => SCall (COpen eid (Dir (if low eid v then BUY else SELL)) 2 (Some sid) "") (fun _ _ => SDone))
  | _ => SDone
  end.
Lemma follower_one_way : one_way_programs any_call follower follower.
Proof.
  intros sid cb eid w w' Hr E. destruct cb; try apply so_done. simpl.
  assert (reach any_call (called w sid OnEveryTick eid)) as Hc by now apply reach_log.
  destruct (run_cmd (called w sid OnEveryTick eid) (CCloseAll sid None "")) as [v r] eqn:Ev.
  eapply so_call; [exact I|exact Ev|reflexivity|]. intros E1.
  assert (low eid (fst (run_cmd (called w' sid OnEveryTick eid) (CCloseAll sid None ""))) = low eid v) as ->.
  { unfold low. destruct (plain_parts _ _ E1) as (_ & -> & _). reflexivity. }
  destruct (run_cmd v (COpen eid (Dir (if low eid v then BUY else SELL)) 2 (Some sid) "")) as [u r'] eqn:Eu.
  eapply so_call; [|exact Eu|reflexivity|intros _; apply so_done].
  destruct (w_strats w !! sid) as [s|] eqn:Es.
  - apply (after_closing any_call (called w sid OnEveryTick eid) sid s "" v r); [auto|exact Es|exact Ev|lia].
  - split; [lia|]. intros e p i t _ _ _ Ht Hs _ _. assert (v = called w sid OnEveryTick eid) as Evv.
    { cbn [run_cmd] in Ev. unfold close_opened_trades in Ev. change (w_strats (called w sid OnEveryTick eid)) with (w_strats w) in Ev. rewrite Es in Ev. congruence. }
    rewrite Evv in Ht. destruct (wf_trade _ (reach_wf any_call w Hr) i t Ht) as [_ Hx]. destruct (Hx sid Hs) as [s Hs']. congruence.
Qed.
Lemma follower_any : programs_ok any_call follower.
Proof. intros sid cb eid w. destruct cb; try exact I. simpl. split; [exact I|]. intros ? ?. split; [exact I|]. intros ? ?. exact I. Qed.

(** One provider of kind [k], one epic, one strategy, ticks up and down. *)
Definition ops_kind (k : pkind) : list (op Q) :=
  [ONewProvider k; ONewStrategy "s0"; ONewEpic "A" (Some tz_UTC) 0 86399999999 None None (Some 0%nat); OAddStrategy 0 0;
   OTick 0 (tk_s 1600000000 (100#1) (101#1)); OTick 0 (tk_s 1600000001 (104#1) (105#1)); OTick 0 (tk_s 1600000002 (107#1) (108#1)); OTick 0 (tk_s 1600000003 (99#1) (100#1))].
Lemma ops_kind_same k k' : same_but_kinds (ops_kind k) (ops_kind k').
Proof. unfold ops_kind. repeat constructor. Qed.
Lemma ops_kind_any P k : Forall (op_ok P) (ops_kind k).
Proof. unfold ops_kind. repeat constructor. Qed.
Lemma ops_kind_other pr k k' : other_kinds pr empty_world (ops_kind k) (ops_kind k').
Proof. unfold ops_kind. apply ok_prov. repeat (apply ok_op; [exact I|]). apply ok_nil. Qed.
Definition res_of (w : world Q) : Q := match w_strats w !! 0%nat with Some s => Qred (strategy_result w s TNone) | None => 0%Q end.
Definition dirs_of (w : world Q) : list (dir * Z * status) := map (fun t => (tr_dir t, opened_quantities t, tr_status t)) (w_trades w).
