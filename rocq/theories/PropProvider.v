(** Properties C11-C17 (estrade/trade_provider.py, epic.py, strategy.py), and C03/C04 for whole programs. *)
From Verif Require Import WorldExamples TightenProofs.
Open Scope Z_scope.

(** C11: an opening changes the net exposure of its strategy in the provider by the signed quantity exactly when
    the quantity is not used up before the oldest opposite open trade is reached.  Every arithmetic. *)
Theorem C11_exposure_conserved_iff : forall {F} `{Num F} (w : world F) eid e p d q s ref w' r,
  reach sane_call w -> w_epics w !! eid = Some e -> w_provs w !! ep_prov e = Some p -> pv_kind p = PBacktests ->
  valid_id (w_strats w) s = true -> 0 < q -> epic_open_trade w eid (Dir d) q s ref = (w', r) ->
  (exposure w' s (ep_prov e) = exposure w s (ep_prov e) + dsign d * q <->
   total (removelast (map (open_qty w) (open_trades_of w p s (other d)))) < q).
Proof. exact @exposure_conserved_iff. Qed.
Print Assumptions C11_exposure_conserved_iff.

Example C11_ex : let w := world_of [buy 0 5 0; sell 0 2 1] in
  reach sane_call w /\ exposure w (Some 0%nat) 0 = 5 /\
  exposure (fst (epic_open_trade w 1 (Dir SELL) 8 (Some 0%nat) "x")) (Some 0%nat) 0 = -3.
Proof. split; [apply world_of_reach; ops_ok|]. split; vm_compute; reflexivity. Qed.

(** BUY 5, BUY 5, then SELL 5: both trades are closed, the exposure drops by 10. *)
Theorem C11_exposure_conserved_refuted : exists (w w' : world Q) eid e p,
  reach sane_call w /\ w_epics w !! eid = Some e /\ w_provs w !! ep_prov e = Some p /\ pv_kind p = PBacktests /\
  epic_open_trade w eid (Dir SELL) 5 (Some 0%nat) "" = (w', Ok 2%nat) /\
  exposure w (Some 0%nat) (ep_prov e) = 10 /\ exposure w' (Some 0%nat) (ep_prov e) = 0 /\
  qtys w' = [0; 0; 0].
Proof.
  pose (w := world_of [buy 0 5 0; buy 0 5 0]). exists w, (fst (epic_open_trade w 0 (Dir SELL) 5 (Some 0%nat) "")).
  destruct (w_epics w !! 0%nat) as [e|] eqn:He; [|vm_compute in He; discriminate].
  destruct (w_provs w !! 0%nat) as [p|] eqn:Hp; [|vm_compute in Hp; discriminate].
  assert (ep_prov e = 0%nat) as E. { assert (ep_prov <$> w_epics w !! 0%nat = Some 0%nat) as E by (vm_compute; reflexivity). rewrite He in E. now injection E. }
  exists 0%nat, e, p. rewrite E. split; [apply world_of_reach; ops_ok|]. split; [auto|]. split; [auto|].
  split; [vm_compute in Hp; now injection Hp as <-|]. split; [|split; [vm_compute; reflexivity|split; vm_compute; reflexivity]].
  rewrite (surjective_pairing (epic_open_trade _ _ _ _ _ _)) at 1. assert (snd (epic_open_trade w 0 (Dir SELL) 5 (Some 0%nat) "") = Ok 2%nat) as -> by (vm_compute; reflexivity). reflexivity.
Qed.
Print Assumptions C11_exposure_conserved_refuted.

(** C12: the outcome of an opening through the backtest provider. *)
Theorem C12_netting_outcome : forall {F} `{Num F} (w : world F) eid e p d q s ref,
  reach sane_call w -> w_epics w !! eid = Some e -> w_provs w !! ep_prov e = Some p -> pv_kind p = PBacktests ->
  valid_id (w_strats w) s = true -> 0 < q ->
  let l := open_trades_of w p s (other d) in let a := map (open_qty w) l in let tid := length (w_trades w) in
  exists t w', epic_open_trade w eid (Dir d) q s ref = (w', Ok tid) /\
    open_from_tick (ep_last e) eid (Dir d) q s ref = Ok t /\
    (* the new trade keeps what the opposite trades did not absorb and is registered iff something is left *)
    w_trades w' !! tid = Some (set_oq t (Z.max 0 (q - total a))) /\ length (w_trades w') = S tid /\
    (registered w' (ep_prov e) tid <-> total a < q) /\
    (* the opposite open trades, newest first, are closed at the last tick of their own epic *)
    (forall k i o, l !! k = Some i -> w_trades w !! i = Some o -> exists eo o' c, w_epics w !! tr_epic o = Some eo /\
       close_from_tick o (ep_last eo) (Some (netted q (total (take k a)) (opened_quantities o))) ref = Ok (o', c) /\
       tc_qty c = netted q (total (take k a)) (opened_quantities o) /\
       opened_quantities o' = opened_quantities o - netted q (total (take k a)) (opened_quantities o) /\
       w_trades w' !! i = Some o') /\
    (* nothing else changes *)
    (forall i, (i < tid)%nat -> i ∉ l -> w_trades w' !! i = w_trades w !! i) /\
    (forall a0 i, i <> tid -> (registered w' a0 i <-> registered w a0 i)) /\
    w_epics w' = w_epics w /\ w_fsets w' = w_fsets w /\ w_log w' = w_log w.
Proof. exact @netting_outcome. Qed.
Print Assumptions C12_netting_outcome.

Example C12_ex : let w := world_of [buy 0 5 0; buy 1 4 0; buy 0 3 1] in
  reach sane_call w /\ (exists p, w_provs w !! 0%nat = Some p /\ open_trades_of w p (Some 0%nat) BUY = [1%nat; 0%nat]) /\
  qtys (fst (epic_open_trade w 0 (Dir SELL) 6 (Some 0%nat) "")) = [3; 0; 3; 0] /\
  qtys (fst (epic_open_trade w 0 (Dir SELL) 11 (Some 0%nat) "")) = [0; 0; 3; 2].
Proof.
  split; [apply world_of_reach; ops_ok|]. split; [eexists; split; [vm_compute; reflexivity|vm_compute; reflexivity]|]. split; vm_compute; reflexivity.
Qed.

(** C13: a strategy never holds both directions in a backtest provider. *)
Theorem C13_one_direction : forall {F} `{Num F} (w : world F), reach sane_call w ->
  forall pid p i j t u, w_provs w !! pid = Some p -> pv_kind p = PBacktests -> i ∈ pv_trades p -> j ∈ pv_trades p ->
  w_trades w !! i = Some t -> w_trades w !! j = Some u -> tr_strat t = tr_strat u ->
  opened_quantities t <> 0 -> opened_quantities u <> 0 -> tr_dir t = tr_dir u.
Proof. exact @reach_one_dir. Qed.
Print Assumptions C13_one_direction.

Example C13_ex : let w := world_of [buy 0 5 0; buy 1 4 0; sell 0 3 1; sell 0 6 0] in
  reach sane_call w /\ qtys w = [3; 0; 3; 0] /\ (pv_trades <$> w_provs w !! 0%nat) = Some [0; 1; 2]%nat.
Proof. split; [apply world_of_reach; ops_ok|]. split; vm_compute; reflexivity. Qed.

(** With a negative close the trade is open beyond its quantity but keeps its direction; with a negative opening
    quantity both directions can be held. *)
Theorem C13_negative_quantity_refuted : exists (w : world Q) p t u, reach any_call w /\ w_provs w !! 0%nat = Some p /\ pv_kind p = PBacktests /\
  0%nat ∈ pv_trades p /\ 1%nat ∈ pv_trades p /\ w_trades w !! 0%nat = Some t /\ w_trades w !! 1%nat = Some u /\ tr_strat t = tr_strat u /\
  opened_quantities t > 0 /\ opened_quantities u > 0 /\ tr_dir t <> tr_dir u.
Proof.
  pose (w := world_of [buy 0 5 0; OCmd (CClose 0 (Some 5) ""); sell 0 3 0; OCmd (CClose 0 (Some (-2)) "")]).
  destruct (w_provs w !! 0%nat) as [p|] eqn:Hp; [|vm_compute in Hp; discriminate].
  destruct (w_trades w !! 0%nat) as [t|] eqn:Ht; [|vm_compute in Ht; discriminate].
  destruct (w_trades w !! 1%nat) as [u|] eqn:Hu; [|vm_compute in Hu; discriminate].
  assert (opened_quantities t = 2 /\ tr_dir t = BUY /\ tr_strat t = Some 0%nat) as (E1 & E2 & E3).
  { assert ((fun t => (opened_quantities t, tr_dir t, tr_strat t)) <$> w_trades w !! 0%nat = Some (2, BUY, Some 0%nat)) as E by (vm_compute; reflexivity). rewrite Ht in E. injection E as E1 E2 E3. split; [exact E1|split; [exact E2|exact E3]]. }
  assert (opened_quantities u = 3 /\ tr_dir u = SELL /\ tr_strat u = Some 0%nat) as (E4 & E5 & E6).
  { assert ((fun t => (opened_quantities t, tr_dir t, tr_strat t)) <$> w_trades w !! 1%nat = Some (3, SELL, Some 0%nat)) as E by (vm_compute; reflexivity). rewrite Hu in E. injection E as E4 E5 E6. split; [exact E4|split; [exact E5|exact E6]]. }
  assert (pv_kind p = PBacktests /\ pv_trades p = [0; 1]%nat) as (E7 & E8) by (clear -Hp; vm_compute in Hp; injection Hp as <-; split; reflexivity).
  exists w, p, t, u. split; [apply world_of_reach; ops_ok|]. rewrite E8, E3, E6, E1, E4, E2, E5. split; [auto|]. split; [auto|]. split; [left|]. split; [right; left|]. split; [auto|]. split; [auto|]. split; [auto|]. split; [lia|]. split; [lia|]. discriminate.
Qed.
Print Assumptions C13_negative_quantity_refuted.

(** C14: an opening leaves every trade and list of other strategies alone.  Any state, any quantity, any provider, every arithmetic. *)
Theorem C14_other_strategies_untouched : forall {F} `{Num F} (w : world F) eid d q s ref w' r,
  epic_open_trade w eid d q s ref = (w', r) ->
  (forall i t, w_trades w !! i = Some t -> tr_strat t <> s -> w_trades w' !! i = Some t) /\
  (forall sid, s <> Some sid -> w_strats w' !! sid = w_strats w !! sid) /\
  w_epics w' = w_epics w /\ w_fsets w' = w_fsets w /\ w_log w' = w_log w.
Proof. exact @open_others. Qed.
Print Assumptions C14_other_strategies_untouched.

Example C14_ex : let w := world_of [buy 0 5 0; buy 0 7 1] in
  qtys (fst (epic_open_trade w 0 (Dir SELL) 12 (Some 0%nat) "")) = [0; 7; 7] /\ (st_trades <$> w_strats w !! 1%nat) = Some [1%nat].
Proof. split; vm_compute; reflexivity. Qed.

(** C15: trades are registered once, in one provider, in opening order; a strategy lists exactly its registered
    trades; opened_trades are the registered trades not fully closed, newest first.  All programs. *)
Theorem C15_registered_in_order : forall {F} `{Num F} P (w : world F), reach P w ->
  (forall a p, w_provs w !! a = Some p -> increasing (pv_trades p)) /\ (forall sid s, w_strats w !! sid = Some s -> increasing (st_trades s)).
Proof. exact @reach_increasing. Qed.
Print Assumptions C15_registered_in_order.
Theorem C15_registered_once : forall {F} `{Num F} P (w : world F) a b i, reach P w -> registered w a i -> registered w b i -> a = b.
Proof. exact @registered_once. Qed.
Print Assumptions C15_registered_once.
Theorem C15_registered_with_own_epic : forall {F} `{Num F} P (w : world F) a i, reach P w -> registered w a i ->
  exists t e, w_trades w !! i = Some t /\ w_epics w !! tr_epic t = Some e /\ ep_prov e = a.
Proof. exact @registered_exists. Qed.
Print Assumptions C15_registered_with_own_epic.
Theorem C15_strategy_trades : forall {F} `{Num F} P (w : world F) sid s i, reach P w -> w_strats w !! sid = Some s ->
  (i ∈ st_trades s <-> (exists t, w_trades w !! i = Some t /\ tr_strat t = Some sid) /\ exists a, registered w a i).
Proof. exact @strategy_trades. Qed.
Print Assumptions C15_strategy_trades.
Theorem C15_opened_trades : forall {F} (w : world F) p i, i ∈ opened_trades w p <-> i ∈ pv_trades p /\ is_open w i.
Proof. exact @opened_trades_elem. Qed.
Print Assumptions C15_opened_trades.
Theorem C15_opened_trades_newest_first : forall {F} `{Num F} P (w : world F) a p, reach P w -> w_provs w !! a = Some p ->
  StronglySorted gt (opened_trades w p).
Proof. exact @opened_trades_sorted. Qed.
Print Assumptions C15_opened_trades_newest_first.

Example C15_ex : let w := world_of [buy 0 5 0; buy 1 4 0; sell 0 3 1; sell 0 9 0; buy 0 1 0] in
  reach any_call w /\ (pv_trades <$> w_provs w !! 0%nat) = Some [0; 1; 2; 4]%nat /\ (st_trades <$> w_strats w !! 0%nat) = Some [0; 1; 4]%nat /\
  (opened_trades w <$> w_provs w !! 0%nat) = Some [4; 2]%nat.
Proof. split; [apply world_of_reach; ops_ok|]. repeat split; vm_compute; reflexivity. Qed.

(** The reachable states contain the states of every run, callbacks included (all programs whose calls satisfy P). *)
Theorem C15_runs_are_reachable : forall {F} `{Num F} (P : cmd F -> Prop) pr l w,
  programs_ok P pr -> Forall (op_ok P) l -> reach P w -> reach P (run pr w l).
Proof. exact @run_reach. Qed.
Print Assumptions C15_runs_are_reachable.

(** C16: running a thread changes only the status of its own trade or close, and its own progress. *)
Theorem C16_thread_touches_own_status : forall {F} (w : world F) pid k p th,
  w_provs w !! pid = Some p -> pv_threads p !! k = Some th ->
  let w' := run_thread w pid k in
  (forall i t, w_trades w !! i = Some t -> exists t', w_trades w' !! i = Some t' /\
     (t' = t \/ (th_job th = JOpen i /\ exists s, t' = set_status t s) \/
      (exists c s, th_job th = JClose i c /\ t' = set_closes t (alter (fun x => set_cstatus x s) c (tr_closes t))))) /\
  length (w_trades w') = length (w_trades w) /\
  w_provs w' = <[pid := pv_set_threads p (<[k := {| th_job := th_job th; th_done := true |}]> (pv_threads p))]> (w_provs w) /\
  w_strats w' = w_strats w /\ w_epics w' = w_epics w /\ w_fsets w' = w_fsets w /\ w_log w' = w_log w.
Proof. exact @run_thread_only. Qed.
Print Assumptions C16_thread_touches_own_status.

(** It gives its trade or close the status the provider answers: CONFIRMED for backtests, that of the request hook for a custom
    provider (openings and closings have one hook each), none without hook. *)
Theorem C16_thread_status : forall {F} (w : world F) pid k p th,
  w_provs w !! pid = Some p -> pv_threads p !! k = Some th -> th_done th = false ->
  let w' := run_thread w pid k in
  match answer (pv_kind p) (th_job th) with
  | Some s => has_target w (th_job th) -> has_status w' (th_job th) s
  | None => w_trades w' = w_trades w
  end.
Proof. exact @thread_status. Qed.
Print Assumptions C16_thread_status.
Example C16_ex_status : let w := run quiet empty_world [ONewProvider (PCustom REFUSED CONFIRMED); ONewStrategy "s"; ONewEpic "A" (Some tz_UTC) 0 86399999999 None None (Some 0%nat);
    OTick 0 (tk_s 1600000000 (100#1) (101#1)); buy 0 5 0; OCmd (CClose 0 (Some 2) ""); OCmd (CRun 0 0); OCmd (CRun 0 1)] in
  map (fun t => (tr_status t, map tc_status (tr_closes t))) (w_trades w) = [(REFUSED, [CONFIRMED])].
Proof. vm_compute. reflexivity. Qed.

(** C16: when no thread of a backtest provider is alive, every trade it registered and every trade or close handed to it is CONFIRMED. *)
Theorem C16_all_confirmed : forall {F} `{Num F} P (w : world F) a p, reach P w -> w_provs w !! a = Some p -> pv_kind p = PBacktests -> is_alive p = false ->
  (forall i, i ∈ pv_trades p -> confirmed w (JOpen i)) /\ (forall j, handed w a j -> confirmed w j).
Proof. exact @all_confirmed. Qed.
Print Assumptions C16_all_confirmed.

(** C16: if closes are only made through epics and strategies, then every close of every trade is CONFIRMED. *)
Theorem C16_every_close_confirmed : forall {F} `{Num F} (w : world F), reach via_provider w ->
  (forall a p, w_provs w !! a = Some p -> pv_kind p = PBacktests /\ is_alive p = false) ->
  (forall a i, registered w a i -> exists t, w_trades w !! i = Some t /\ tr_status t = CONFIRMED) /\
  (forall i t c, w_trades w !! i = Some t -> c ∈ tr_closes t -> tc_status c = CONFIRMED).
Proof. exact @every_close_confirmed. Qed.
Print Assumptions C16_every_close_confirmed.

Definition ops_threads : list (op Q) := [buy 0 5 0; OCmd (CClose 0 (Some 2) ""); sell 0 4 0; OCmd (CRun 0 2); OCmd (CRun 0 0); OCmd (CRun 0 3); OCmd (CRun 0 1)].
Example C16_ex : let w := world_of ops_threads in
  reach via_provider w /\ (is_alive <$> w_provs w !! 0%nat) = Some false /\ stats w = [CONFIRMED; CONFIRMED] /\ qtys w = [0; 1] /\
  map (fun t => map tc_status (tr_closes t)) (w_trades w) = [[CONFIRMED; CONFIRMED]; []].
Proof. split; [apply world_of_reach; ops_ok|]. repeat split; vm_compute; reflexivity. Qed.

(** C16: whatever the schedule, inside callbacks or between operations, the final states differ in statuses and thread
    progress only. *)
Theorem C16_schedule_independent : forall {F} `{Num F} pr pr' l l' (w w' : world F),
  woven_programs pr pr' -> woven_ops l l' -> erase w = erase w' -> erase (run pr w l) = erase (run pr' w' l').
Proof. exact @rel_run. Qed.
Print Assumptions C16_schedule_independent.
Theorem C16_same_figures : forall {F} `{Num F} (w w' : world F) i t, erase w = erase w' -> w_trades w !! i = Some t ->
  exists t', w_trades w' !! i = Some t' /\
    opened_quantities t' = opened_quantities t /\ closed_quantities t' = closed_quantities t /\ result t' = result t /\
    tr_cv t' = tr_cv t /\ tr_max t' = tr_max t /\ tr_min t' = tr_min t /\ tr_oq t' = tr_oq t /\
    map tc_value (tr_closes t') = map tc_value (tr_closes t) /\ map tc_qty (tr_closes t') = map tc_qty (tr_closes t).
Proof. exact @erase_same_trade. Qed.
Print Assumptions C16_same_figures.

(** A strategy that trades in its callbacks, and the same strategy with threads running in the middle of its callbacks. *)
Definition trader : programs Q := fun sid cb eid w =>
  match cb with OnEveryTick => SCall (COpen eid (Dir BUY) 3 (Some sid) "") (fun _ _ => SCall (CClose (length (w_trades w)) (Some 1) "") (fun _ _ => SDone)) | _ => SDone end.
Definition trader_scheduled : programs Q := fun sid cb eid w =>
  match cb with OnEveryTick => SCall (COpen eid (Dir BUY) 3 (Some sid) "") (fun _ _ => SCall (CRun 0 0) (fun _ _ => SCall (CClose (length (w_trades w)) (Some 1) "") (fun _ _ => SDone))) | _ => SDone end.
Definition ops_live : list (op Q) := ops_base ++ [OAddStrategy 0 0; OTick 0 (tk_s 1600000001 (102#1) (103#1)); OTick 0 (tk_s 1600000002 (104#1) (105#1))].
Definition ops_live' : list (op Q) := ops_live ++ [OCmd (CRun 0 3)].
Lemma erase_length (w w' : world Q) : erase w = erase w' -> length (w_trades w) = length (w_trades w').
Proof. intros E. apply (f_equal (fun w => length (w_trades w))) in E. simpl in E. now rewrite !fmap_length in E. Qed.
Example C16_schedule_ex : woven_programs trader trader_scheduled /\ woven_ops ops_live ops_live' /\
  stats (run trader empty_world ops_live) = [CREATED; CREATED] /\ stats (run trader_scheduled empty_world ops_live') = [CONFIRMED; CREATED] /\
  qtys (run trader empty_world ops_live) = [2; 2].
Proof.
  split; [|split].
  - intros sid cb eid w w' E. destruct cb; [|constructor|constructor|constructor]. simpl. rewrite (erase_length _ _ E). constructor. intros _ _ r _. constructor. intros _ r2.
    constructor. intros _ _ r3 _. constructor.
  - unfold ops_live', ops_live. generalize ops_base. intros l. induction l as [|o l IH]; [simpl; repeat constructor|]. simpl. constructor. exact IH.
  - repeat split; vm_compute; reflexivity.
Qed.

(** C17: when an epic accepts a tick and its frame sets do not raise, then, when the strategies start, every open trade of its
    provider is valued at the tick and every other trade is unchanged. *)
Theorem C17_revaluation : forall {F} `{Num F} P pr (w : world F) eid e tk0,
  reach P w -> w_epics w !! eid = Some e -> let tk := tick_to (ep_tz e) tk0 in
  arrow_ltb (tk_dt tk) (tk_dt (ep_last e)) = false ->
  (exists x, snd (epic_on_new_tick pr w eid tk0) = Err x /\ w_trades (fst (epic_on_new_tick pr w eid tk0)) = w_trades w) \/
  exists w3, epic_on_new_tick pr w eid tk0 = forM (execute_strategy pr eid (ep_mopen e)) w3 (ep_strats e) /\
    w_provs w3 = w_provs w /\ w_strats w3 = w_strats w /\ w_log w3 = w_log w /\
    forall i t, w_trades w !! i = Some t -> exists t', w_trades w3 !! i = Some t' /\
      (registered w (ep_prov e) i -> opened_quantities t <> 0 -> only_revalued t t' /\ tr_cv t' = exit_price (tr_dir t) tk) /\
      (~ registered w (ep_prov e) i \/ opened_quantities t = 0 -> t' = t).
Proof. exact @revaluation. Qed.
Print Assumptions C17_revaluation.

Example C17_ex : let w := world_of [buy 0 5 0] in reach any_call w /\ map tr_cv (w_trades w) = [(100#1)%Q] /\
  map tr_cv (w_trades (fst (epic_on_new_tick quiet w 0 (tk_s 1600000001 (102#1) (103#1))))) = [(102#1)%Q].
Proof. split; [apply world_of_reach; ops_ok|]. split; vm_compute; reflexivity. Qed.

(** A provider shared by two epics: a tick of the second epic values the first epic's trade at the second epic's price. *)
Theorem C17_own_epic_only_refuted : exists (w : world Q) t t', reach sane_call w /\ w_trades w !! 0%nat = Some t /\ tr_epic t = 0%nat /\
  w_trades (fst (epic_on_new_tick quiet w 1 (tk_s 1600000001 (202#1) (203#1)))) !! 0%nat = Some t' /\
  (tr_cv t == 100)%Q /\ (tr_cv t' == 202)%Q.
Proof.
  pose (w := world_of [buy 0 5 0]). pose (w' := fst (epic_on_new_tick quiet w 1 (tk_s 1600000001 (202#1) (203#1)))).
  destruct (w_trades w !! 0%nat) as [t|] eqn:Ht; [|vm_compute in Ht; discriminate]. destruct (w_trades w' !! 0%nat) as [t'|] eqn:Ht'; [|vm_compute in Ht'; discriminate].
  assert ((fun t => (tr_epic t, tr_cv t)) <$> w_trades w !! 0%nat = Some (0%nat, (100#1)%Q)) as E by (vm_compute; reflexivity). rewrite Ht in E. injection E as E1 E2.
  assert (tr_cv <$> w_trades w' !! 0%nat = Some (202#1)%Q) as E by (vm_compute; reflexivity). rewrite Ht' in E. injection E as E3.
  exists w, t, t'. split; [apply world_of_reach; ops_ok|]. split; [auto|]. split; [auto|]. split; [auto|]. rewrite E2, E3. split; reflexivity.
Qed.
Print Assumptions C17_own_epic_only_refuted.

(** C03 in every reachable state: quantities of all trades are accounted for. *)
Theorem C03_quantities_in_every_state : forall {F} `{Num F} (w : world F) i t, reach sane_call w -> w_trades w !! i = Some t ->
  opened_quantities t + closed_quantities t = tr_oq t /\ 0 <= opened_quantities t <= tr_oq t /\
  (forall k c, tr_closes t !! k = Some c -> 0 <= tc_qty c <= tr_oq t - booked (take k (tr_closes t))).
Proof. exact @quantities_in_every_state. Qed.
Print Assumptions C03_quantities_in_every_state.

(** C04 for whole programs: trades existing at some point only go through updates, closes and status writes afterwards, so a closed
    trade stays closed. *)
Theorem C04_trades_only_evolve : forall {F} `{Num F} (P : cmd F -> Prop) pr l (w : world F),
  (forall c, P c -> sane_call c) -> programs_ok P pr -> Forall (op_ok P) l -> reach P w ->
  forall i t, w_trades w !! i = Some t -> exists t', w_trades (run pr w l) !! i = Some t' /\ rtc trade_call t t'.
Proof. exact @evo_run. Qed.
Print Assumptions C04_trades_only_evolve.
Example C04_program_ex : let w := world_of [buy 0 5 0; OCmd (CClose 0 None "")] in
  reach sane_call w /\ qtys w = [0] /\ qtys (run quiet w [OCmd (CClose 0 (Some 3) ""); OTick 0 (tk_s 1600000009 (1#1) (2#1))]) = [0].
Proof. split; [apply world_of_reach; ops_ok|]. split; vm_compute; reflexivity. Qed.

(** C07, finding: netting reduces the quantity of a new trade after its envelope was initialised. *)
Theorem C07_netting_refuted : exists (w : world Q) t, reach sane_call w /\ w_trades w !! 1%nat = Some t /\ (tr_max t < result t)%Q.
Proof.
  pose (w := world_of [buy 0 2 0; sell 0 5 0]). destruct (w_trades w !! 1%nat) as [t|] eqn:Ht; [|vm_compute in Ht; discriminate].
  exists w, t. split; [apply world_of_reach; ops_ok|]. split; [auto|].
  assert (tr_max <$> w_trades w !! 1%nat = Some (-5#1)%Q) as E1 by (vm_compute; reflexivity).
  assert (result <$> w_trades w !! 1%nat = Some (-3#1)%Q) as E2 by (vm_compute; reflexivity). rewrite Ht in E1, E2.
  apply (inj Some) in E1, E2. rewrite E1, E2. reflexivity.
Qed.
Print Assumptions C07_netting_refuted.
(** C10, finding: a trade used up by netting has no average result. *)
Theorem C10_zero_quantity_refuted : exists (w : world Q) t, reach sane_call w /\ w_trades w !! 1%nat = Some t /\ result_avg t = Err ZeroDivisionError.
Proof.
  pose (w := world_of [buy 0 5 0; sell 0 5 0]). destruct (w_trades w !! 1%nat) as [t|] eqn:Ht; [|vm_compute in Ht; discriminate].
  exists w, t. split; [apply world_of_reach; ops_ok|]. split; [auto|].
  assert (result_avg <$> w_trades w !! 1%nat = Some (Err ZeroDivisionError)) as E by (vm_compute; reflexivity). rewrite Ht in E. now injection E.
Qed.
Print Assumptions C10_zero_quantity_refuted.
(** C12, finding: a SELL on one epic closes the BUY the strategy holds on another epic. *)
Theorem C12_other_epic_refuted : exists (w : world Q) t, reach sane_call w /\ w_trades w !! 0%nat = Some t /\ tr_epic t = 0%nat /\ closed t = false /\
  qtys (fst (epic_open_trade w 1 (Dir SELL) 5 (Some 0%nat) "")) = [0; 0].
Proof.
  pose (w := world_of [buy 0 5 0]). destruct (w_trades w !! 0%nat) as [t|] eqn:Ht; [|vm_compute in Ht; discriminate].
  exists w, t. split; [apply world_of_reach; ops_ok|]. split; [auto|].
  assert ((fun t => (tr_epic t, closed t)) <$> w_trades w !! 0%nat = Some (0%nat, false)) as E by (vm_compute; reflexivity). rewrite Ht in E. injection E as E1 E2.
  split; [auto|]. split; [auto|]. vm_compute. reflexivity.
Qed.
Print Assumptions C12_other_epic_refuted.
