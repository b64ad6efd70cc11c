(** Properties C18-C21 (estrade/strategy.py). *)
From Verif Require Import StrategyExamples.
Open Scope Z_scope.

(** C18: without [only_after], exactly the matching trades of the strategy, newest first. *)
Theorem C18_get_trades_exact : forall {F} `{Num F} (w : world F) s epics open_only i,
  i ∈ get_trades w s epics open_only None <-> i ∈ st_trades s /\ wanted w epics open_only i.
Proof. intros F H w s epics oo i. exact (get_trades_elem w s epics oo i). Qed.
Print Assumptions C18_get_trades_exact.
Theorem C18_get_trades_newest_first : forall {F} `{Num F} P (w : world F) sid s epics open_only, reach P w -> w_strats w !! sid = Some s ->
  StronglySorted gt (get_trades w s epics open_only None).
Proof. exact @get_trades_sorted. Qed.
Print Assumptions C18_get_trades_newest_first.
Theorem C18_get_trades_all : forall {F} `{Num F} P (w : world F) sid s, reach P w -> w_strats w !! sid = Some s ->
  get_trades w s None false None = reverse (st_trades s).
Proof. exact @get_trades_all. Qed.
Print Assumptions C18_get_trades_all.
(** With [only_after], always the newest ones of these, and exactly those dated from it on when dates are in opening order. *)
Theorem C18_only_after_prefix : forall {F} `{Num F} (w : world F) s epics open_only d,
  get_trades w s epics open_only (Some d) `prefix_of` get_trades w s epics open_only None.
Proof. intros F H w s epics oo d. exact (get_trades_after_prefix w s epics oo d). Qed.
Print Assumptions C18_only_after_prefix.
Theorem C18_only_after_exact : forall {F} `{Num F} P (w : world F) sid s epics open_only d i, reach P w -> w_strats w !! sid = Some s ->
  chronological w d (get_trades w s epics open_only None) ->
  (i ∈ get_trades w s epics open_only (Some d) <-> i ∈ st_trades s /\ wanted w epics open_only i /\ dated_from w d i).
Proof. exact @get_trades_after. Qed.
Print Assumptions C18_only_after_exact.
(** In every program dates are in opening order for the trades of one epic made after its first tick. *)
Theorem C18_only_after_one_epic : forall {F} `{Num F} P (w : world F) sid s eid e open_only d i,
  reach P w -> w_strats w !! sid = Some s -> w_epics w !! eid = Some e -> ar_tz d = ep_tz e ->
  (forall j t, j ∈ st_trades s -> w_trades w !! j = Some t -> tr_epic t = eid -> ar_tz (tr_dt t) = ep_tz e) ->
  (i ∈ get_trades w s (Some [eid]) open_only (Some d) <-> i ∈ st_trades s /\ wanted w (Some [eid]) open_only i /\ dated_from w d i).
Proof. exact @trades_of_epic_after. Qed.
Print Assumptions C18_only_after_one_epic.

Definition w18 : world Q :=
  world_of [buy 0 5 0; buy 1 4 0; OCmd (CClose 0 None ""); OTick 0 (tk_s 1600000060 (102#1) (103#1)); buy 0 2 0; buy 0 1 1].
Example C18_ex : reach any_call w18 /\ w_strats w18 !! 0%nat = Some (strat_of w18 0) /\ st_trades (strat_of w18 0) = [0; 1; 2]%nat /\
  get_trades w18 (strat_of w18 0) None false None = [2; 1; 0]%nat /\ get_trades w18 (strat_of w18 0) None true None = [2; 1]%nat /\
  get_trades w18 (strat_of w18 0) (Some [0%nat]) false None = [2; 0]%nat /\
  get_trades w18 (strat_of w18 0) (Some [0%nat]) false (Some (dt_s 1600000060)) = [2]%nat /\
  get_trades w18 (strat_of w18 0) None false (Some (dt_s 1600000000)) = [2; 1; 0]%nat.
Proof. split; [apply world_of_reach; ops_ok|]. split; [apply strat_of_lookup; vm_compute; lia|]. repeat split; vm_compute; reflexivity. Qed.

(** A trade on an epic whose clock is behind hides the earlier, later dated trades: trade 0 is dated from [d] on but is not returned. *)
Theorem C18_two_epics_refuted : exists (w : world Q) s d, reach any_call w /\ w_strats w !! 0%nat = Some s /\
  get_trades w s None false (Some d) = [] /\ 0%nat ∈ st_trades s /\ wanted w None false 0 /\ dated_from w d 0.
Proof.
  set (w := world_of [OTick 0 (tk_s 1600000060 (102#1) (103#1)); buy 0 5 0; buy 1 4 0]). exists w, (strat_of w 0), (dt_s 1600000030).
  split; [apply world_of_reach; ops_ok|]. split; [apply strat_of_lookup; vm_compute; lia|]. split; [vm_compute; reflexivity|].
  split; [assert (st_trades (strat_of w 0) = [0; 1]%nat) as -> by (vm_compute; reflexivity); left|].
  split; [apply wanted_b_spec; vm_compute; reflexivity|apply after_b_spec; vm_compute; reflexivity].
Qed.
Print Assumptions C18_two_epics_refuted.

(** C19: the result of a strategy, exact rationals.  [results w l rs]: [rs] are the results of the trades [l]. *)
Theorem C19_result : forall P (w : world Q) sid s, reach P w -> w_strats w !! sid = Some s ->
  exists rs, results w (st_trades s) rs /\ round_cent (sum_of rs) (strategy_result w s TNone).
Proof. exact strategy_result_all. Qed.
Print Assumptions C19_result.
Theorem C19_result_given : forall (w : world Q) s l rs, results w l rs ->
  (l <> [] -> round_cent (sum_of rs) (strategy_result w s (TList l))) /\ round_cent (sum_of rs) (strategy_result w s (TGen l)).
Proof. exact strategy_result_given. Qed.
Print Assumptions C19_result_given.
Theorem C19_profit_factor : forall P (w : world Q) sid s, reach P w -> w_strats w !! sid = Some s ->
  exists rs v, results w (st_trades s) rs /\ profit_factor w s TNone = Ok v /\ (0 <= v)%Q /\ ((losses rs == 0)%Q -> (v == gains rs)%Q) /\
    ((0 < losses rs)%Q -> round_cent (gains rs / Qmax 1 (losses rs))%Q v).
Proof. exact profit_factor_all. Qed.
Print Assumptions C19_profit_factor.

(** A gain of 15, a loss of 6 and a still open loss. *)
Definition w19 : world Q :=
  world_of [buy 0 5 0; OTick 0 (tk_s 1600000060 (104#1) (105#1)); OCmd (CClose 0 None "");
            buy 0 2 0; OTick 0 (tk_s 1600000120 (102#1) (103#1)); OCmd (CClose 1 None ""); buy 0 1 0; OTick 0 (tk_s 1600000180 (102#1) (103#1))].
(** The profit factor of given trades (an empty list stands for all trades of the strategy). *)
Theorem C19_profit_factor_given : forall (w : world Q) s l rs a, a = TGen l \/ (a = TList l /\ l <> []) -> results w l rs ->
  exists v, profit_factor w s a = Ok v /\ (0 <= v)%Q /\ ((losses rs == 0)%Q -> (v == gains rs)%Q) /\
    ((0 < losses rs)%Q -> round_cent (gains rs / Qmax 1 (losses rs))%Q v).
Proof. exact profit_factor_given. Qed.
Print Assumptions C19_profit_factor_given.
Example C19_ex : reach sane_call w19 /\ w_strats w19 !! 0%nat = Some (strat_of w19 0) /\
  map Qred (map result (w_trades w19)) = [15#1; -6#1; -1#1]%Q /\
  Qred (strategy_result w19 (strat_of w19 0) TNone) = (8#1)%Q /\ Qred (strategy_result w19 (strat_of w19 0) (TList [1%nat])) = (-6#1)%Q /\
  (exists v, profit_factor w19 (strat_of w19 0) TNone = Ok v /\ (v == 214#100)%Q).
Proof.
  split; [apply world_of_reach; ops_ok|]. split; [apply strat_of_lookup; vm_compute; lia|]. split; [vm_compute; reflexivity|]. split; [vm_compute; reflexivity|].
  split; [vm_compute; reflexivity|]. eexists. split; [vm_compute; reflexivity|vm_compute; reflexivity].
Qed.

(** result([]) is the result of all trades, not 0. *)
Theorem C19_empty_list_refuted : exists (w : world Q) s, reach sane_call w /\ w_strats w !! 0%nat = Some s /\ results w [] [] /\
  ~ round_cent (sum_of []) (strategy_result w s (TList [])).
Proof.
  exists w19, (strat_of w19 0). split; [apply world_of_reach; ops_ok|]. split; [apply strat_of_lookup; vm_compute; lia|]. split; [constructor|].
  intros (z & E1 & E2 & _). assert (strategy_result w19 (strat_of w19 0) (TList []) == 8)%Q as E by (vm_compute; reflexivity). rewrite E in E2. vm_compute in E2. now elim E2.
Qed.
Print Assumptions C19_empty_list_refuted.

(** C20: close_opened_trades().  Every reachable state, every arithmetic. *)
Theorem C20_close_opened_trades : forall {F} `{Num F} P (w : world F) sid s ref, reach P w -> w_strats w !! sid = Some s ->
  exists w', run_cmd w (CCloseAll sid None ref) = (w', Ok ()) /\
    w_epics w' = w_epics w /\ w_fsets w' = w_fsets w /\ w_log w' = w_log w /\ w_strats w' = w_strats w /\
    length (w_trades w') = length (w_trades w) /\
    (forall i t, w_trades w !! i = Some t -> exists t', w_trades w' !! i = Some t' /\
      (i ∈ st_trades s -> opened_quantities t <> 0 -> exists e, w_epics w !! tr_epic t = Some e /\ closed_out t t' (ep_last e) ref) /\
      (~ i ∈ st_trades s \/ opened_quantities t = 0 -> t' = t)) /\
    (forall i, i ∈ st_trades s -> ~ is_open w' i).
Proof. exact @close_opened_trades_spec. Qed.
Print Assumptions C20_close_opened_trades.

Example C20_ex : let w := world_of [buy 0 5 0; buy 1 4 0; OCmd (CClose 1 (Some 1) ""); sell 0 2 1] in
  reach sane_call w /\ qtys w = [5; 3; 2] /\ st_trades (strat_of w 0) = [0; 1]%nat /\
  qtys (fst (run_cmd w (CCloseAll 0 None ""))) = [0; 0; 2] /\
  map (fun t => map (fun c => (tc_qty c, Qred (tc_value c))) (tr_closes t)) (w_trades (fst (run_cmd w (CCloseAll 0 None "")))) =
    [[(5, (100#1)%Q)]; [(1, (200#1)%Q); (3, (200#1)%Q)]; []].
Proof. split; [apply world_of_reach; ops_ok|]. repeat split; vm_compute; reflexivity. Qed.

(** With an explicit quantity, close_opened_trades leaves trades open (quantity capped per trade). *)
Theorem C20_explicit_quantity_refuted : exists (w : world Q) i, reach sane_call w /\ i ∈ st_trades (strat_of w 0) /\
  is_open (fst (run_cmd w (CCloseAll 0 (Some 2) ""))) i.
Proof.
  set (w := world_of [buy 0 5 0; buy 1 4 0]). exists w, 0%nat. split; [apply world_of_reach; ops_ok|].
  split; [assert (st_trades (strat_of w 0) = [0; 1]%nat) as -> by (vm_compute; reflexivity); left|].
  set (w' := fst (run_cmd w (CCloseAll 0 (Some 2) ""))). unfold is_open. assert (opened_quantities <$> w_trades w' !! 0%nat = Some 3) as E by (vm_compute; reflexivity).
  destruct (w_trades w' !! 0%nat) as [t|]; [|discriminate]. exists t. split; [auto|]. injection E as E. lia.
Qed.
Print Assumptions C20_explicit_quantity_refuted.

(** C21: a stopped strategy, or one paused beyond the dates of all ticks, receives no callback during a run.
    The other calls of the program must not stop, restart, pause or resume it ([spares]). *)
Theorem C21_no_callback : forall {F} `{Num F} (P : cmd F -> Prop) pr (w : world F) sid s l,
  (forall c, P c -> spares sid c) -> programs_ok P pr -> Forall (op_ok P) l -> w_strats w !! sid = Some s ->
  (st_stopped s = true \/ exists d, st_paused s = Some d /\ ticks_before d pr w l) ->
  (exists evs, w_log (run pr w l) = w_log w ++ evs /\ only_of sid evs = []) /\
  exists s', w_strats (run pr w l) !! sid = Some s' /\ st_stopped s' = st_stopped s /\ st_paused s' = st_paused s.
Proof. exact @no_callback_run. Qed.
Print Assumptions C21_no_callback.
(** From the date of the pause on, the strategy receives all callbacks of a tick again and the pause is cleared. *)
Theorem C21_resumes : forall {F} `{Num F} P pr (w : world F) eid e tk sid k s, reach P w -> programs_ok (spares sid) pr ->
  w_epics w !! eid = Some e -> ~ refused e tk -> (k, sid) ∈ ep_strats e -> w_strats w !! sid = Some s ->
  takes_part s (arrow_to (ep_tz e) (tk_dt tk)) = true ->
  let '(w', r) := epic_on_new_tick pr w eid tk in
  exists e' evs, w_epics w' !! eid = Some e' /\ w_log w' = w_log w ++ evs /\
    only_of sid evs `prefix_of` events_of sid eid (callbacks_of (ep_mopen e) (ep_mopen e')) /\
    (r = Ok () -> only_of sid evs = events_of sid eid (callbacks_of (ep_mopen e) (ep_mopen e')) /\
       exists s', w_strats w' !! sid = Some s' /\ st_paused s' = None /\ st_stopped s' = false).
Proof. exact @tick_callbacks. Qed.
Print Assumptions C21_resumes.

(** Paused until 11:00: nothing at 9:00 and 10:00, callbacks from 11:00 on. *)
Definition w21 : world Q := run quiet empty_world (ops_hours ++ [OCmd (CPause 0 (Some (dt_s 1600167600)))]).
Example C21_ex : reach any_call w21 /\ st_paused (strat_of w21 0) = Some (dt_s 1600167600) /\
  ticks_before (dt_s 1600167600) quiet w21 [at_h 9; at_h 10] /\
  only_of 0 (w_log (run quiet w21 [at_h 9; at_h 10])) = [] /\
  only_of 0 (w_log (run quiet w21 [at_h 9; at_h 10; at_h 11])) = [ev 0 0 OnEveryTickMarketOpen; ev 0 0 OnEveryTick] /\
  st_paused (strat_of (run quiet w21 [at_h 9; at_h 10; at_h 11]) 0) = None.
Proof.
  split; [apply run_reach; [apply quiet_ok|repeat constructor|constructor]|]. split; [vm_compute; reflexivity|].
  split; [|repeat split; vm_compute; reflexivity].
  assert (forall (w : world Q) h, length (w_epics w) = 1%nat -> (forall e, w_epics w !! 0%nat = Some e -> ep_tz e = tz_UTC) -> h < 11 ->
    match at_h h with OTick a tk => forall e, w_epics w !! a = Some e -> arrow_ltb (arrow_to (ep_tz e) (tk_dt tk)) (dt_s 1600167600) = true | _ => True end) as Hh.
  { intros w h _ Hz Hh. unfold at_h. intros e He. rewrite (Hz e He). unfold arrow_ltb, dt_s, tk_s. cbn. apply Z.ltb_lt. unfold dt_s, arrow_of_utc. cbn. lia. }
  split; [|split; [|exact I]]; (apply Hh; [vm_compute; reflexivity| |lia]); intros e He; assert (ep_tz <$> w_epics w21 !! 0%nat = Some tz_UTC) as E by (vm_compute; reflexivity).
  - rewrite He in E. now injection E.
  - destruct (w_epics w21 !! 0%nat) as [e0|] eqn:E0; [|discriminate]. destruct (step_epic quiet w21 (at_h 9) 0 e0 E0) as (e1 & E1 & K & _). assert (e1 = e) as -> by congruence.
    assert (ep_tz e = ep_tz e0) as -> by apply K. now injection E.
Qed.

(** A strategy that stops itself in a callback still receives the remaining callbacks of the same tick. *)
Definition self_stop : programs Q := fun sid cb _ _ => match cb with OnMarketOpen => SCall (CStop sid true) (fun _ _ => SDone) | _ => SDone end.
Theorem C21_stop_during_tick_refuted : exists (w : world Q) pr, reach any_call w /\
  pr = self_stop /\ only_of 0 (w_log (run pr w [at_h 9])) = [ev 0 0 OnMarketOpen; ev 0 0 OnEveryTickMarketOpen; ev 0 0 OnEveryTick] /\
  (pr 0%nat OnMarketOpen 0%nat w = SCall (CStop 0 true) (fun _ _ => SDone)) /\ st_stopped (strat_of (run pr w [at_h 9]) 0) = true.
Proof.
  exists (run quiet empty_world ops_hours), self_stop. split; [apply run_reach; [apply quiet_ok|repeat constructor|constructor]|].
  split; [reflexivity|]. split; [vm_compute; reflexivity|]. split; [reflexivity|vm_compute; reflexivity].
Qed.
Print Assumptions C21_stop_during_tick_refuted.
