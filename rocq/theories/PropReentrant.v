(** Property C55 (estrade/epic.py:206-259): strategies whose callbacks send ticks, create and register objects. *)
From Verif Require Import ReentrantExamples.
Open Scope Z_scope.

(** C55: callbacks that only trade, pause and stop behave as in the other properties. *)
Theorem C55_conservative : forall {F} `{Num F} d (pr : programs F) l (w : world F), rrun (S d) (embed_programs pr) w l = run pr w l.
Proof. exact @embed_run. Qed.
Print Assumptions C55_conservative.
(** Whatever callbacks do, and however deep, every state is one of the states the properties of programs are about. *)
Theorem C55_states : forall {F} `{Num F} (P : cmd F -> Prop) pr d l (w : world F),
  rprograms_ok P pr -> Forall (op_ok P) l -> reach P w -> reach P (rrun d pr w l).
Proof. exact @rrun_reach. Qed.
Print Assumptions C55_states.
(** For instance C03, C13, C23 and C26. *)
Theorem C55_quantities : forall {F} `{Num F} pr d l (w : world F) i t, rprograms_ok sane_call pr -> Forall (op_ok sane_call) l -> reach sane_call w ->
  w_trades (rrun d pr w l) !! i = Some t ->
  opened_quantities t + closed_quantities t = tr_oq t /\ 0 <= opened_quantities t <= tr_oq t.
Proof. exact @rrun_quantities. Qed.
Print Assumptions C55_quantities.
Theorem C55_one_direction : forall {F} `{Num F} pr d l (w : world F), rprograms_ok sane_call pr -> Forall (op_ok sane_call) l -> reach sane_call w ->
  forall pid p i j t u, w_provs (rrun d pr w l) !! pid = Some p -> pv_kind p = PBacktests -> i ∈ pv_trades p -> j ∈ pv_trades p ->
  w_trades (rrun d pr w l) !! i = Some t -> w_trades (rrun d pr w l) !! j = Some u -> tr_strat t = tr_strat u ->
  opened_quantities t <> 0 -> opened_quantities u <> 0 -> tr_dir t = tr_dir u.
Proof. exact @rrun_direction. Qed.
Print Assumptions C55_one_direction.
Theorem C55_market_flag : forall {F} `{Num F} P pr d l (w : world F) eid e, rprograms_ok P pr -> Forall (op_ok P) l -> reach P w ->
  w_epics (rrun d pr w l) !! eid = Some e ->
  (ep_last e = fake_tick /\ ep_mopen e = false) \/ (ep_mopen e = true <-> market_hours e (ar_wall (tk_dt (ep_last e)))).
Proof. exact @rrun_flag. Qed.
Print Assumptions C55_market_flag.
Theorem C55_references : forall {F} `{Num F} P pr d l (w : world F) eid e, rprograms_ok P pr -> Forall (op_ok P) l -> reach P w ->
  w_epics (rrun d pr w l) !! eid = Some e ->
  (forall k i, (k, i) ∈ ep_strats e -> exists s, w_strats (rrun d pr w l) !! i = Some s /\ st_ref s = k) /\ NoDup (map fst (ep_strats e)) /\
  (forall k i, (k, i) ∈ ep_fsets e -> exists fs, w_fsets (rrun d pr w l) !! i = Some fs /\ fs_ref fs = k) /\ NoDup (map fst (ep_fsets e)).
Proof. exact @rrun_refs. Qed.
Print Assumptions C55_references.
(** Time: refused ticks change nothing, the clock of the last tick never goes back, and after an accepted tick it is that
    tick or a later one. *)
Theorem C55_refused : forall {F} `{Num F} (pr : rprograms F) d w eid e tk, w_epics w !! eid = Some e -> refused e tk ->
  rtick (S d) pr w eid tk = (w, Err EpicException).
Proof. exact @rtick_refused. Qed.
Print Assumptions C55_refused.
Theorem C55_never_back : forall {F} `{Num F} (pr : rprograms F) d l (w : world F) eid e, w_epics w !! eid = Some e -> has_ticked e ->
  exists e', w_epics (rrun d pr w l) !! eid = Some e' /\ has_ticked e' /\ ep_tz e' = ep_tz e /\ ar_wall (tk_dt (ep_last e)) <= ar_wall (tk_dt (ep_last e')).
Proof. exact @rrun_forward. Qed.
Print Assumptions C55_never_back.
Theorem C55_accepted : forall {F} `{Num F} (pr : rprograms F) d (w : world F) eid e tk, w_epics w !! eid = Some e -> ~ refused e tk ->
  exists e', w_epics (fst (rtick (S d) pr w eid tk)) !! eid = Some e' /\ has_ticked e' /\ ep_tz e' = ep_tz e /\
    tz_wall (ep_tz e) (ar_utc (tk_dt tk)) <= ar_wall (tk_dt (ep_last e')).
Proof. exact @rtick_accepted. Qed.
Print Assumptions C55_accepted.

(** The tick of 09:00 contains that of 10:00 (all callbacks of the latter come first for strategy 1), which filled the trade list;
    strategy 0 is long 2 afterwards. *)
Definition w55' : world Q := rrun 3 feeder w55 [at_h 9].
Example C55_ex : rprograms_ok sane_call feeder /\ reach sane_call w55 /\ snd (rstep 3 feeder w55 (at_h 9)) = Ok () /\ hour_of w55' = 10 /\
  qtys w55' = [2; 0] /\ map fst (ep_fsets (epic_of w55' 0)) = ["H1"] /\
  w_log w55' = [ev 0 0 OnMarketOpen; ev 0 0 OnEveryTickMarketOpen; ev 0 0 OnEveryTick; ev 1 0 OnEveryTickMarketOpen; ev 1 0 OnEveryTick;
                ev 0 0 OnEveryTickMarketOpen; ev 0 0 OnEveryTick; ev 1 0 OnMarketOpen; ev 1 0 OnEveryTickMarketOpen; ev 1 0 OnEveryTick].
Proof. split; [exact feeder_ok|]. split; [apply w55_reach|]. repeat split; vm_compute; reflexivity. Qed.

(** C24 does not extend to re-entrant strategies: strategy 1 is told that the market closed and never that it opened. *)
Theorem C55_protocol_refuted : exists (w : world Q) pr, reach no_toggle w /\ rprograms_ok no_toggle pr /\ snd (rstep 2 pr w (at_h 9)) = Ok () /\
  ("s1", 1%nat) ∈ ep_strats (epic_of w 0) /\ st_paused (strat_of w 1) = None /\ st_stopped (strat_of w 1) = false /\ ep_mopen (epic_of w 0) = false /\
  seen 1 0 (w_log (rrun 2 pr w [at_h 9])) = [OnMarketClose; OnEveryTick; OnEveryTick].
Proof.
  exists w55, skipper. split; [apply w55_reach|]. split; [apply skipper_ok|]. split; [vm_compute; reflexivity|].
  split; [assert (ep_strats (epic_of w55 0) = [("s0", 0%nat); ("s1", 1%nat)]) as -> by (vm_compute; reflexivity); right; left|].
  repeat split; vm_compute; reflexivity.
Qed.
Print Assumptions C55_protocol_refuted.
(** Even without that, openings of the outer tick come after the callbacks of the inner one: in [C55_ex] strategy 1 is called
    for a tick of the open market before being told that it opened. *)
Theorem C55_late_opening_refuted : exists (w : world Q) pr, reach sane_call w /\ rprograms_ok sane_call pr /\ snd (rstep 3 pr w (at_h 9)) = Ok () /\
  ep_mopen (epic_of w 0) = false /\
  seen 1 0 (w_log (rrun 3 pr w [at_h 9])) = [OnEveryTickMarketOpen; OnEveryTick; OnMarketOpen; OnEveryTickMarketOpen; OnEveryTick].
Proof. exists w55, feeder. split; [apply w55_reach|]. split; [exact feeder_ok|]. repeat split; vm_compute; reflexivity. Qed.
Print Assumptions C55_late_opening_refuted.
(** Registering a strategy with the epic that is calling raises RuntimeError out of [on_new_tick]; the strategy is registered and
    the strategies after the caller are not called. *)
Theorem C55_registration_refuted : exists (w : world Q) pr, reach no_toggle w /\ rprograms_ok no_toggle pr /\
  ("s1", 1%nat) ∈ ep_strats (epic_of w 0) /\ snd (rstep 2 pr w (at_h 9)) = Err RuntimeError /\
  seen 1 0 (w_log (rrun 2 pr w [at_h 9])) = [] /\ map fst (ep_strats (epic_of (rrun 2 pr w [at_h 9]) 0)) = ["s0"; "s1"; "s2"].
Proof.
  exists w55, recruiter. split; [apply w55_reach|]. split; [apply recruiter_ok|].
  split; [assert (ep_strats (epic_of w55 0) = [("s0", 0%nat); ("s1", 1%nat)]) as -> by (vm_compute; reflexivity); right; left|].
  repeat split; vm_compute; reflexivity.
Qed.
Print Assumptions C55_registration_refuted.
