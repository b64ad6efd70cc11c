(** Property C73 (estrade/epic.py): the settings of an epic may be reassigned at any time, by callbacks too. *)
From Coq Require Import QArith.
From Verif Require Import SettingsProofs WorldExamples EpicExamples.
From Verif Require Import SpecSettings.
Open Scope Z_scope.

(** Programs that assign nothing behave as in World.v. *)
Theorem C73_extends : forall {F} `{Num F} (pr : programs F) w o, gstep (gembed_programs pr) w (GOp o) = step pr w o.
Proof. exact @gembed_step. Qed.
Print Assumptions C73_extends.

(** Opening hours, trading days and holidays reassigned at will: trades, ledgers and strategies are those of a run that assigns nothing.
    Every theorem on the books of reachable states holds for these programs. *)
Theorem C73_books : forall {F} `{Num F} (P : cmd F -> Prop) pr l, gprograms_ok P pr -> Forall (gop_ok P) l ->
  exists v, reach P v /\ same_books (grun pr empty_world l) v.
Proof. exact @settings_books. Qed.
Print Assumptions C73_books.
(** For instance: a strategy's open trades in a backtest provider all have one direction. *)
Theorem C73_one_direction : forall {F} `{Num F} (pr : gprograms F) l, gprograms_ok sane_call pr -> Forall (gop_ok sane_call) l ->
  let w := grun pr empty_world l in
  forall pid p i j ti tj, w_provs w !! pid = Some p -> pv_kind p = PBacktests -> i ∈ pv_trades p -> j ∈ pv_trades p ->
  w_trades w !! i = Some ti -> w_trades w !! j = Some tj -> tr_strat ti = tr_strat tj ->
  opened_quantities ti <> 0 -> opened_quantities tj <> 0 -> tr_dir ti = tr_dir tj.
Proof. exact @settings_one_dir. Qed.
Print Assumptions C73_one_direction.

(** The market state is decided by each accepted tick, with the settings in force when the tick arrives, whatever callbacks then assign. *)
Theorem C73_market_state : forall {F} `{Num F} (pr : gprograms F) w eid e tk, w_epics w !! eid = Some e -> ~ refused e tk ->
  exists e', w_epics (fst (gtick pr w eid tk)) !! eid = Some e' /\ ep_last e' = tick_to (ep_tz e) tk /\
    (ep_mopen e' = true <-> market_hours e (tz_wall (ep_tz e) (ar_utc (tk_dt tk)))).
Proof. exact @settings_flag. Qed.
Print Assumptions C73_market_state.

(** What an assignment of hours, days or holidays does: the market hours from then on; the market state itself waits for the next tick. *)
Theorem C73_assigned : forall {F} (w : world F) eid e s, w_epics w !! eid = Some e -> calendar s ->
  exists e', assign w eid s = (upd_epics w (<[eid := e']> (w_epics w)), Ok ()) /\
    alike e e' /\ ep_mopen e' = ep_mopen e /\ forall wall, market_hours e' wall <-> let day := wall / 86400000000 in
      match s with SOpen t => t | _ => ep_open e end <= wall mod 86400000000 <= match s with SClose t => t | _ => ep_close e end /\
      (day + 3) mod 7 ∈ match s with SDays l => l | _ => ep_days e end /\ ~ day ∈ match s with SHolidays l => l | _ => ep_holidays e end.
Proof. exact @calendar_assigned. Qed.
Print Assumptions C73_assigned.
(** What an assignment of the trade provider does. *)
Theorem C73_provider_change : forall {F} (w : world F) eid e p, w_epics w !! eid = Some e -> (p < length (w_provs w))%nat ->
  exists e', assign w eid (SProvider p) = (upd_epics w (<[eid := e']> (w_epics w)), Ok ()) /\ ep_prov e' = p /\
    ep_ref e' = ep_ref e /\ ep_tz e' = ep_tz e /\ ep_last e' = ep_last e /\ ep_fsets e' = ep_fsets e /\ ep_strats e' = ep_strats e /\ ep_mopen e' = ep_mopen e /\
    forall wall, market_hours e' wall <-> market_hours e wall.
Proof. exact @provider_assigned. Qed.
Print Assumptions C73_provider_change.

(** Another zone: the last tick and the market state stay; the next tick is compared with the last one as instants. *)
Theorem C73_zone_change : forall {F} (w : world F) eid e z, w_epics w !! eid = Some e ->
  exists e', assign w eid (SZone (Some z)) = (upd_epics w (<[eid := e']> (w_epics w)), Ok ()) /\
    ep_tz e' = z /\ ep_last e' = ep_last e /\ ep_mopen e' = ep_mopen e /\
    (tz_id z <> tz_id (ar_tz (tk_dt (ep_last e))) -> forall tk, refused e' tk <-> ar_utc (tk_dt tk) < ar_utc (tk_dt (ep_last e))).
Proof. exact @zone_assigned. Qed.
Print Assumptions C73_zone_change.
(** An unknown zone name raises and changes nothing. *)
Theorem C73_zone_refused : forall {F} (w : world F) eid e, w_epics w !! eid = Some e -> assign w eid (SZone None) = (w, Err EpicException).
Proof. exact @zone_refused. Qed.
Print Assumptions C73_zone_refused.

(** The record of trades, ledgers and strategies is only ever added to, whatever is assigned: zone and trade provider included. *)
Theorem C73_history : forall {F} `{Num F} (pr : gprograms F) l w, books_remembered w (grun pr w l).
Proof. exact @grun_books. Qed.
Print Assumptions C73_history.

(** Strategy 0 buys when the market opens and brings closing time forward to 13:00; it closes everything when the market closes. *)
Definition early : gprograms Q := fun sid cb eid _ =>
  match cb with
  | OnMarketOpen => GCall (GCmd (COpen eid (Dir BUY) 2 (Some sid) "")) (fun _ _ => GCall (GSet eid (SClose 46800000000)) (fun _ _ => GDone))
  | OnMarketClose => GCall (GCmd (CCloseAll sid None "")) (fun _ _ => GDone)
  | _ => GDone
  end.
Lemma early_ok : gprograms_ok sane_call early.
Proof. intros sid [] eid w; cbn; auto; split; try lia; intros; split; auto; intros; auto. Qed.
(** 14 September 2020, a Monday: 10:00, 14:00; then Monday becomes a holiday at 15:00. *)
Definition at_hour (h : Z) (b : Q) : tick Q := tk_s (1600041600 + h * 3600) b (b + 1)%Q.
Definition one_day : list (gop Q) :=
  [GOp (ONewStrategy "s"); GOp (ONewEpic "A" (Some tz_UTC) 32400000000 61200000000 None None None); GOp (OAddStrategy 0 0);
   GOp (OTick 0 (at_hour 10 (100#1))); GOp (OTick 0 (at_hour 12 (104#1))); GOp (OTick 0 (at_hour 14 (107#1)));
   GAssign 0 (SClose 61200000000); GAssign 0 (SHolidays [18519]); GOp (OTick 0 (at_hour 15 (109#1)))].
Example C73_ex : Forall (gop_ok sane_call) one_day /\ let w := grun early empty_world in
  map (fun k => map ep_mopen (w_epics (w (take k one_day)))) [4; 5; 6; 8; 9]%nat = [[true]; [true]; [false]; [false]; [false]] /\
  map (fun t => (tr_oq t, opened_quantities t, map tc_value (tr_closes t))) (w_trades (w one_day)) = [(2, 0, [107#1])] /\
  map ep_mopen (w_epics (grun (gembed_programs quiet) empty_world (map GOp [ONewEpic "A" (Some tz_UTC) 32400000000 61200000000 None None None; OTick 0 (at_hour 14 (107#1))]))) = [true].
Proof.
  split; [repeat (first [apply Forall_nil; exact I | apply Forall_cons; split; [exact I|]])|]. split; [vm_compute; reflexivity|]. split; [vm_compute; reflexivity|].
  vm_compute. reflexivity.
Qed.

(** The market state is not revised when the settings change: it is the state at the last tick. *)
Theorem C73_market_state_stale_refuted : exists (l : list (gop Q)) e, Forall (gop_ok any_call) l /\
  w_epics (grun (gembed_programs quiet) empty_world l) !! 0%nat = Some e /\ has_ticked e /\
  ep_mopen e = true /\ ~ market_hours e (ar_wall (tk_dt (ep_last e))).
Proof.
  exists [GOp (ONewEpic "A" (Some tz_UTC) 0 86399999999 None None None); GOp (OTick 0 (at_hour 10 (100#1))); GAssign 0 (SHolidays [18519])].
  eexists. split; [repeat constructor|]. split; [vm_compute; reflexivity|]. split; [reflexivity|]. split; [reflexivity|].
  unfold market_hours. cbn. intros (_ & _ & Hd). apply Hd. vm_compute. left.
Qed.
(** After [epic.trade_provider] is assigned, ticks no longer revalue the epic's trades that are open in the former provider. *)
Theorem C73_provider_refuted : exists (l : list (gop Q)) t tk, let w := grun (gembed_programs quiet) empty_world l in
  w_trades w !! 0%nat = Some t /\ closed t = false /\ (exists e, w_epics w !! tr_epic t = Some e /\ ~ refused e tk) /\
  snd (gtick (gembed_programs quiet) w (tr_epic t) tk) = Ok () /\
  w_trades (fst (gtick (gembed_programs quiet) w (tr_epic t) tk)) !! 0%nat = Some t /\ ~ Qeq (tr_cv t) (tk_bid tk).
Proof.
  exists (map GOp (ops_base ++ [buy 0 3 0; ONewProvider PBacktests]) ++ [GAssign 0 (SProvider 1)]). eexists _, (tk_s 1600000009 (120#1) (121#1)).
  cbv zeta. split; [vm_compute; reflexivity|]. split; [reflexivity|]. split; [|split; [vm_compute; reflexivity|split; [vm_compute; reflexivity|vm_compute; discriminate]]].
  eexists. split; [vm_compute; reflexivity|]. unfold refused. vm_compute. discriminate.
Qed.
(** After a zone change the daily frames of a frame set overlap: the frame of the new zone's day begins inside the previous one. *)
Theorem C73_zone_frames_refuted : exists (l : list (gop Q)) s1 e1 s2 e2, let fs := fset_of (grun (gembed_programs quiet) empty_world l) 0 in
  fs_unit fs = DAY /\ fs_frames fs = [0; 1]%nat /\
  map (fun f => (ar_utc (fr_start f), option_map ar_utc (fr_end f))) (fs_heap fs) = [(s1, Some e1); (s2, Some e2)] /\ s1 < s2 < e1.
Proof.
  exists [GOp (ONewEpic "A" (Some tz_UTC) 0 86399999999 None None None); GOp (ONewFrameSet DAY 1 "D" 5); GOp (OAddFrameSet 0 0);
          GOp (OTick 0 (tk_s 1600126200 (100#1) (101#1))); GAssign 0 (SZone (Some (tz_fixed 9 (-12 * 3600000000)))); GOp (OTick 0 (tk_s 1600129800 (102#1) (103#1)))].
  eexists 1600041600000000, 1600128000000000, 1600084800000000, 1600171200000000. cbv zeta.
  split; [vm_compute; reflexivity|]. split; [vm_compute; reflexivity|]. split; [vm_compute; reflexivity|]. lia.
Qed.
