(** Programs of C68. *)
From Verif Require Export ManualProofs LiveExamples.
Open Scope Z_scope.

(** Checks of [waiting] and [givable] on concrete states. *)
Lemma waiting_check (w : world Q) tid : forallb (fun p => negb (existsb (Nat.eqb tid) (pv_trades p))) (w_provs w) = true -> waiting w tid.
Proof.
  intros E pid (p & Hp & Hi). rewrite forallb_forall in E. specialize (E p (proj1 (elem_of_list_In _ _) (elem_of_list_lookup_2 _ _ _ Hp))).
  apply negb_true_iff in E. rewrite <- not_true_iff_false in E. apply E. apply existsb_exists. exists tid. split; [now apply elem_of_list_In|]. apply Nat.eqb_refl.
Qed.
Definition givable_b (w : world Q) (pid tid : nat) : bool :=
  forallb (fun p => negb (existsb (Nat.eqb tid) (pv_trades p))) (w_provs w) &&
  match w_trades w !! tid with
  | Some t => match tr_closes t, w_epics w !! tr_epic t with [], Some e => Nat.eqb (ep_prov e) pid | _, _ => false end
  | None => false
  end.
Lemma givable_check w pid tid : givable_b w pid tid = true -> givable w pid tid.
Proof.
  unfold givable_b. intros E. apply andb_true_iff in E as [E1 E2]. split; [now apply waiting_check|].
  destruct (w_trades w !! tid) as [t|]; [|discriminate]. destruct (tr_closes t) eqn:Ec; [|discriminate]. destruct (w_epics w !! tr_epic t) as [e|] eqn:Ee; [|discriminate].
  exists t, e. repeat (split; [assumption || reflexivity|]). now apply Nat.eqb_eq.
Qed.

(** On every tick: builds a BUY of 2 from the epic and hands it to the epic's provider. *)
Definition handy : mprograms Q := fun sid cb eid w =>
  match cb with
  | OnEveryTick => MCall (MBuildEpic eid (Dir BUY) 2 (Some sid) "") (fun v r =>
      match r, w_epics v !! eid with
      | Ok _, Some e => MCall (MGive (ep_prov e) (length (w_trades v) - 1) "") (fun _ _ => MDone)
      | _, _ => MDone
      end)
  | _ => MDone
  end.
Lemma handy_careful : careful_programs handy.
Proof.
  intros sid cb eid w R. destruct cb; try exact I. cbn [careful_script handy]. split; [cbn; lia|].
  set (w1 := upd_log w _). assert (mreach w1) as R1 by now apply mreach_log. clearbody w1. cbn [run_mcmd].
  destruct (w_epics w1 !! eid) as [e|] eqn:He; [|exact I]. destruct (valid_id _ _); [|exact I].
  destruct (open_from_tick (ep_last e) eid (Dir BUY) 2 (Some sid) "") as [t|x] eqn:Ho; [|exact I].
  change (w_epics (build w1 t) !! eid) with (w_epics w1 !! eid). rewrite He. cbn [careful_script]. split; [|now destruct (run_mcmd _ _)].
  destruct (open_fields _ _ _ _ _ _ _ Ho) as (d' & _ & E1 & _ & _ & _ & E5 & _).
  assert (length (w_trades (build w1 t)) - 1 = length (w_trades w1))%nat as -> by (unfold build; simpl; rewrite app_length; simpl; lia).
  split; [apply waiting_new; apply (mreach_minv _ R1)|]. exists t, e. split; [simpl; now apply list_lookup_middle|]. split; [auto|]. rewrite E1. split; [exact He|reflexivity].
Qed.

Definition aware (s : Z) : dtarg := DtAware (tk_dt (tk_s s (0#1) (0#1))).
Definition hand_setup : list (mop Q) :=
  [MOp (ONewProvider PBacktests); MOp (ONewStrategy "s0"); MOp (ONewEpic "A" (Some tz_UTC) 0 86399999999 None None (Some 0%nat)); MOp (OAddStrategy 0 0)].
(** A SELL of 3 at a price of the user's choosing is built first, waits during two ticks, and is handed over. *)
Definition hand_ops : list (mop Q) := hand_setup ++
  [MDo (MBuild 0 SELL 3 (120#1) (aware 1500000000) None CREATED (Some 0%nat) "mine");
   MOp (OTick 0 (tk_s 1600000000 (100#1) (101#1))); MOp (OTick 0 (tk_s 1600000001 (104#1) (105#1)))].
Definition hand_give : list (mop Q) := [MDo (MGive 0 0 "net"); MOp (OTick 0 (tk_s 1600000002 (107#1) (108#1)))].
Lemma hand_ops_careful : careful_ops handy empty_world (hand_ops ++ hand_give).
Proof.
  cbn [careful_ops hand_ops hand_setup hand_give app].
  repeat first [exact I | split; [exact I|] | split; [cbn; lia|] | split; [apply givable_check; vm_compute; reflexivity|]].
Qed.
Definition ids (w : world Q) : list nat := match w_provs w !! 0%nat with Some p => pv_trades p | None => [] end.
Definition sids (w : world Q) : list nat := match w_strats w !! 0%nat with Some s => st_trades s | None => [] end.
Definition lines (w : world Q) : list (dir * Z * Z) := map (fun t => (tr_dir t, tr_oq t, closed_quantities t)) (w_trades w).

(** Programs that are not careful. *)
Definition still : mprograms Q := fun _ _ _ _ => MDone.
Definition twice : list (mop Q) := hand_setup ++
  [MOp (OTick 0 (tk_s 1600000000 (100#1) (101#1))); MDo (MBuildEpic 0 (Dir BUY) 1 (Some 0%nat) ""); MDo (MGive 0 0 ""); MDo (MGive 0 0 "");
   MOp (OTick 0 (tk_s 1600000001 (104#1) (105#1)))].
Definition late : list (mop Q) := hand_setup ++
  [MOp (OTick 0 (tk_s 1600000000 (100#1) (101#1))); MDo (MApi (COpen 0 (Dir SELL) 2 (Some 0%nat) "")); MDo (MBuildEpic 0 (Dir BUY) 4 (Some 0%nat) "");
   MDo (MApi (CTradeCloseEpic 1 (Some 3) "")); MDo (MGive 0 1 "")].
Definition astray : list (mop Q) := hand_setup ++
  [MOp (ONewProvider PBacktests); MOp (OTick 0 (tk_s 1600000000 (100#1) (101#1))); MDo (MBuildEpic 0 (Dir BUY) 1 (Some 0%nat) ""); MDo (MGive 1 0 "");
   MOp (OTick 0 (tk_s 1600000001 (104#1) (105#1)))].
