(** Properties C22-C27, C47-C49 (estrade/epic.py, tick_provider.py), and the link between epics and the histories of
    frame sets used by C32-C37. *)
From Verif Require Import EpicExamples TightenProofs.
Open Scope Z_scope.

(** C22: a refused tick raises and changes nothing at all. *)
Theorem C22_refused : forall {F} `{Num F} pr (w : world F) eid e tk, w_epics w !! eid = Some e -> refused e tk ->
  epic_on_new_tick pr w eid tk = (w, Err EpicException).
Proof. exact @tick_refused. Qed.
Print Assumptions C22_refused.
(** After a first tick, the refused ticks are those before the last tick on the clock of the epic. *)
Theorem C22_refused_iff : forall {F} (e : epic F) tk, has_ticked e ->
  (refused e tk <-> tz_wall (ep_tz e) (ar_utc (tk_dt tk)) < ar_wall (tk_dt (ep_last e))).
Proof. exact @refused_wall. Qed.
Print Assumptions C22_refused_iff.
(** Before any tick is accepted, ticks before 1900-01-01 UTC (25567 days before 1970) are refused, the others accepted. *)
Theorem C22_first_tick : forall {F} `{Num F} pr l eid (e : epic F) tk, (tz_id (ep_tz e) = 0%nat -> ep_tz e = tz_UTC) ->
  w_epics (run pr empty_world l) !! eid = Some e -> accepted pr empty_world l eid = [] ->
  (refused e tk <-> ar_utc (tk_dt tk) < -25567 * 86400000000).
Proof. exact @first_tick. Qed.
Print Assumptions C22_first_tick.
Example C22_ex_first : let l := [ONewEpic "A" (Some tz_UTC) 0 0 None None None; OTick 0 (tk_s (-2208988801) 1 1)] in
  accepted quiet empty_world l 0 = [] /\ w_epics (run quiet empty_world l) !! 0%nat = Some (epic_of (run quiet empty_world l) 0) /\
  snd (step quiet (run quiet empty_world l) (OTick 0 (tk_s (-2208988800) 1 1))) = Ok ().
Proof. split; [vm_compute; reflexivity|]. split; [apply epic_of_lookup; vm_compute; lia|vm_compute; reflexivity]. Qed.
Theorem C22_accepted : forall {F} `{Num F} pr (w : world F) eid e tk, w_epics w !! eid = Some e -> ~ refused e tk ->
  exists e', w_epics (fst (epic_on_new_tick pr w eid tk)) !! eid = Some e' /\ ep_last e' = tick_to (ep_tz e) tk.
Proof. exact @accepted_tick. Qed.
Print Assumptions C22_accepted.
(** The clock of the last tick never goes back, whatever operations a program makes. *)
Theorem C22_never_back : forall {F} `{Num F} pr l (w : world F) eid e, w_epics w !! eid = Some e -> has_ticked e ->
  exists e', w_epics (run pr w l) !! eid = Some e' /\ has_ticked e' /\ ep_tz e' = ep_tz e /\ ar_wall (tk_dt (ep_last e)) <= ar_wall (tk_dt (ep_last e')).
Proof. exact @run_forward. Qed.
Print Assumptions C22_never_back.
(** The ticks an epic accepts along any run are in order. *)
Theorem C22_accepted_in_order : forall {F} `{Num F} pr l (w : world F) eid e, w_epics w !! eid = Some e -> in_order (ep_tz e) (accepted pr w l eid).
Proof. exact @accepted_order'. Qed.
Print Assumptions C22_accepted_in_order.

Definition w22 : world Q := run quiet empty_world (ops_hours ++ [at_h 9]).
Example C22_ex : reach any_call w22 /\ w_epics w22 !! 0%nat = Some (epic_of w22 0) /\ has_ticked (epic_of w22 0) /\
  refused (epic_of w22 0) (tk_s (1600128000 + 3600 * 8) (1#1) (1#1)) /\ ~ refused (epic_of w22 0) (tk_s (1600128000 + 3600 * 9) (1#1) (1#1)) /\
  length (accepted quiet w22 [at_h 8; at_h 9; at_h 10; at_h 9] 0) = 2%nat.
Proof.
  split; [apply run_quiet_reach; repeat constructor|]. split; [apply epic_of_lookup; vm_compute; lia|]. split; [vm_compute; reflexivity|].
  split; [vm_compute; reflexivity|]. split; [vm_compute; discriminate|vm_compute; reflexivity].
Qed.

(** When the clock goes back, a tick earlier than the last one (in UTC) is accepted. *)
Theorem C22_earlier_utc_refuted : exists (w : world Q) e tk, reach any_call w /\ w_epics w !! 0%nat = Some e /\ has_ticked e /\
  ar_utc (tk_dt tk) < ar_utc (tk_dt (ep_last e)) /\ ~ refused e tk.
Proof.
  destruct (w_zone_tick tz_fall (tk_s 1603587610 (1#1) (1#1))) as (e & E1 & E2 & E3 & E4); [vm_compute; reflexivity|].
  exists (run quiet (w_zone tz_fall) [OTick 0 (tk_s 1603587610 (1#1) (1#1))]), e, (tk_s 1603587540 (1#1) (1#1)).
  split; [apply (run_quiet_reach any_call [_; _]); repeat constructor|]. split; [auto|]. split; [auto|]. unfold refused. rewrite E2, E3.
  split; [vm_compute; reflexivity|vm_compute; discriminate].
Qed.
Print Assumptions C22_earlier_utc_refuted.

(** C23: the market flag after an accepted tick. *)
Theorem C23_flag_after_tick : forall {F} `{Num F} pr (w : world F) eid e tk, w_epics w !! eid = Some e -> ~ refused e tk ->
  exists e', w_epics (fst (epic_on_new_tick pr w eid tk)) !! eid = Some e' /\
    (ep_mopen e' = true <-> market_hours e (tz_wall (ep_tz e) (ar_utc (tk_dt tk)))).
Proof. exact @market_flag_tick. Qed.
Print Assumptions C23_flag_after_tick.
(** The hours are those given to the constructor; without trade days, or with an empty list, Monday to Friday. *)
Theorem C23_created : forall {F} `{Num F} pr (w : world F) ref tz op cl days hol prov w', step pr w (ONewEpic ref tz op cl days hol prov) = (w', Ok ()) ->
  exists e, w_epics w' = w_epics w ++ [e] /\ ep_ref e = ref /\ tz = Some (ep_tz e) /\ ep_mopen e = false /\
    forall wall, market_hours e wall <-> op <= wall mod 86400000000 <= cl /\
      (match days with
       | Some (d :: l) => (wall / 86400000000 + 3) mod 7 ∈ d :: l
       | _ => 0 <= (wall / 86400000000 + 3) mod 7 < 5
       end) /\ (forall l, hol = Some l -> ~ wall / 86400000000 ∈ l).
Proof. exact @new_epic_hours. Qed.
Print Assumptions C23_created.
(** In every state of every program, callbacks included: closed before the first tick, then decided by the last tick. *)
Theorem C23_flag_always : forall {F} `{Num F} P (w : world F) eid e, reach P w -> w_epics w !! eid = Some e ->
  (ep_last e = fake_tick /\ ep_mopen e = false) \/ (ep_mopen e = true <-> market_hours e (ar_wall (tk_dt (ep_last e)))).
Proof. exact @market_flag_always. Qed.
Print Assumptions C23_flag_always.

(** Open on Saturdays and Sundays, except 1970-01-03. *)
Example C23_created_ex : snd (step quiet (empty_world (F:=Q)) (ONewEpic "e" (Some tz_UTC) 0 86399999999 (Some [5; 6]) (Some [2]) None)) = Ok () /\
  (3 + 3) mod 7 ∈ [5; 6] /\ snd (step quiet (empty_world (F:=Q)) (ONewEpic "e" (Some tz_UTC) 0 86399999999 (Some []) None None)) = Ok ().
Proof. split; [vm_compute; reflexivity|]. split; [right; left|vm_compute; reflexivity]. Qed.
Definition flag_at (o : op Q) : option bool := ep_mopen <$> w_epics (run quiet (run quiet empty_world ops_hours) [o]) !! 0%nat.
(** 07:59:59.999999, 08:00, 16:00, 16:00:00.000001 on a Tuesday; 12:00 on a Saturday. *)
Example C23_ex : market_hours (epic_of (run quiet empty_world ops_hours) 0) (1600128000000000 + 9 * 3600000000) /\
  flag_at (OTick 0 {| tk_dt := arrow_of_utc tz_UTC (1600128000000000 + 28799999999); tk_bid := 1%Q; tk_ask := 1%Q |}) = Some false /\
  flag_at (at_h 8) = Some true /\ flag_at (at_h 16) = Some true /\
  flag_at (OTick 0 {| tk_dt := arrow_of_utc tz_UTC (1600128000000000 + 57600000001); tk_bid := 1%Q; tk_ask := 1%Q |}) = Some false /\
  flag_at (at_h (4 * 24 + 12)) = Some false.
Proof.
  split; [|repeat split; vm_compute; reflexivity]. unfold market_hours. cbn zeta.
  assert (ep_open (epic_of (run quiet empty_world ops_hours) 0) = 28800000000) as -> by (vm_compute; reflexivity).
  assert (ep_close (epic_of (run quiet empty_world ops_hours) 0) = 57600000000) as -> by (vm_compute; reflexivity).
  assert (ep_days (epic_of (run quiet empty_world ops_hours) 0) = [0; 1; 2; 3; 4]) as -> by (vm_compute; reflexivity).
  assert (ep_holidays (epic_of (run quiet empty_world ops_hours) 0) = []) as -> by (vm_compute; reflexivity).
  split; [vm_compute; split; discriminate|]. split; [|apply not_elem_of_nil].
  assert (((1600128000000000 + 9 * 3600000000) / 86400000000 + 3) mod 7 = 1) as -> by (vm_compute; reflexivity). right. left.
Qed.

(** C24: the callbacks of one accepted tick, for a strategy taking part in it; all of them unless something raises. *)
Theorem C24_one_tick : forall {F} `{Num F} P pr (w : world F) eid e tk sid k s, reach P w -> programs_ok (spares sid) pr ->
  w_epics w !! eid = Some e -> ~ refused e tk -> (k, sid) ∈ ep_strats e -> w_strats w !! sid = Some s ->
  takes_part s (arrow_to (ep_tz e) (tk_dt tk)) = true ->
  let '(w', r) := epic_on_new_tick pr w eid tk in
  exists e' evs, w_epics w' !! eid = Some e' /\ w_log w' = w_log w ++ evs /\
    only_of sid evs `prefix_of` events_of sid eid (callbacks_of (ep_mopen e) (ep_mopen e')) /\
    (r = Ok () -> only_of sid evs = events_of sid eid (callbacks_of (ep_mopen e) (ep_mopen e')) /\
       exists s', w_strats w' !! sid = Some s' /\ st_paused s' = None /\ st_stopped s' = false).
Proof. exact @tick_callbacks. Qed.
Print Assumptions C24_one_tick.
(** A whole run in which no tick raises: openings and closings alternate, one on_every_tick per accepted tick, and
    exactly the callbacks due for the market flag of each accepted tick. *)
Theorem C24_whole_run : forall {F} `{Num F} (P : cmd F -> Prop) pr l (w : world F) eid e sid k s,
  (forall c, P c -> spares sid c) -> reach P w -> programs_ok P pr -> Forall (op_ok P) l ->
  clean pr w l -> w_epics w !! eid = Some e -> (k, sid) ∈ ep_strats e -> w_strats w !! sid = Some s -> st_paused s = None -> st_stopped s = false ->
  exists evs, w_log (run pr w l) = w_log w ++ evs /\ alternate (ep_mopen e) (seen sid eid evs) /\
    length (List.filter is_tick_cb (seen sid eid evs)) = length (accepted pr w l eid) /\
    seen sid eid evs = protocol (ep_mopen e) (map (is_market_open e) (accepted pr w l eid)).
Proof. exact @callbacks_of_run. Qed.
Print Assumptions C24_whole_run.
Theorem C24_flag_is_market_hours : forall {F} (e : epic F) tk, is_market_open e tk = true <-> market_hours e (ar_wall (tk_dt tk)).
Proof. exact @market_open_spec. Qed.
Print Assumptions C24_flag_is_market_hours.

(** 7:00, 9:00, (8:00 refused), 10:00, 17:00. *)
Definition w24 : world Q := run quiet empty_world ops_hours.
Definition day24 : list (op Q) := [at_h 7; at_h 9; at_h 8; at_h 10; at_h 17].
Example C24_ex : reach no_toggle w24 /\ clean quiet w24 day24 /\ w_epics w24 !! 0%nat = Some (epic_of w24 0) /\ ep_mopen (epic_of w24 0) = false /\
  ("s1", 1%nat) ∈ ep_strats (epic_of w24 0) /\
  seen 1 0 (w_log (run quiet w24 day24)) =
    [OnEveryTick; OnMarketOpen; OnEveryTickMarketOpen; OnEveryTick; OnEveryTickMarketOpen; OnEveryTick; OnMarketClose; OnEveryTick].
Proof.
  split; [apply run_quiet_reach; repeat constructor|]. split; [apply clean_b_ok; vm_compute; reflexivity|]. split; [apply epic_of_lookup; vm_compute; lia|].
  split; [vm_compute; reflexivity|]. split; [|vm_compute; reflexivity].
  assert (ep_strats (epic_of w24 0) = [("s0", 0%nat); ("s1", 1%nat)]) as -> by (vm_compute; reflexivity). right. left.
Qed.

(** When the callback of another strategy raises at the opening, the strategy is never told that the market opened. *)
Theorem C24_lost_opening_refuted : exists (w : world Q) pr l, reach no_toggle w /\ programs_ok no_toggle pr /\
  ("s1", 1%nat) ∈ ep_strats (epic_of w 0) /\ st_paused (strat_of w 1) = None /\ st_stopped (strat_of w 1) = false /\
  seen 1 0 (w_log (run pr w l)) = [OnEveryTickMarketOpen; OnEveryTick; OnMarketClose; OnEveryTick].
Proof.
  exists w24, raiser, [at_h 9; at_h 10; at_h 17]. split; [apply run_quiet_reach; repeat constructor|]. split; [apply raiser_ok|].
  split; [assert (ep_strats (epic_of w24 0) = [("s0", 0%nat); ("s1", 1%nat)]) as -> by (vm_compute; reflexivity); right; left|].
  repeat split; vm_compute; reflexivity.
Qed.
Print Assumptions C24_lost_opening_refuted.

(** C25: ticks in UTC order are all accepted when the local clock never goes back. *)
Theorem C25_utc_order_accepted : forall {F} `{Num F} pr (P : cmd F -> Prop) l (w : world F) eid e,
  reach P w -> programs_ok P pr -> Forall (op_ok P) l -> w_epics w !! eid = Some e ->
  (forall u v, u <= v -> tz_wall (ep_tz e) u <= tz_wall (ep_tz e) v) -> (tz_id (ep_tz e) = 0%nat -> ep_tz e = tz_UTC) ->
  Sorted Z.le (ar_utc (tk_dt (ep_last e)) :: utcs eid l) ->
  forall l1 tk l2, l = l1 ++ OTick eid tk :: l2 -> exists e1, w_epics (run pr w l1) !! eid = Some e1 /\ ~ refused e1 tk.
Proof. exact @utc_order. Qed.
Print Assumptions C25_utc_order_accepted.

Definition tz_plus2 : tzinfo := tz_fixed 3 7200000000.
Definition l25 : list (op Q) := [OTick 0 (tk_s 1603587540 (1#1) (1#1)); OTick 0 (tk_s 1603587540 (2#1) (2#1)); OTick 0 (tk_s 1603587610 (1#1) (1#1))].
Example C25_ex : reach any_call (w_zone tz_plus2) /\ (forall u v, u <= v -> tz_wall tz_plus2 u <= tz_wall tz_plus2 v) /\
  ep_tz <$> w_epics (w_zone tz_plus2) !! 0%nat = Some tz_plus2 /\ Sorted Z.le (ar_utc (tk_dt (ep_last (epic_of (w_zone tz_plus2) 0))) :: utcs 0 l25) /\
  length (accepted quiet (w_zone tz_plus2) l25 0) = 3%nat.
Proof.
  split; [apply run_quiet_reach; repeat constructor|]. split; [unfold tz_plus2, tz_fixed; cbn [tz_wall]; intros u v Huv; lia|]. split; [reflexivity|].
  split; [|vm_compute; reflexivity]. assert (ar_utc (tk_dt (ep_last (epic_of (w_zone tz_plus2) 0))) = -2208988800000000) as -> by (vm_compute; reflexivity).
  assert (utcs 0 l25 = [1603587540000000; 1603587540000000; 1603587610000000]) as -> by (vm_compute; reflexivity). repeat constructor; lia.
Qed.

(** When the clock goes back, a tick one hour after the last one (in UTC) is refused. *)
Theorem C25_clock_back_refuted : exists (w : world Q) e tk, reach any_call w /\ w_epics w !! 0%nat = Some e /\
  ar_utc (tk_dt (ep_last e)) < ar_utc (tk_dt tk) /\ refused e tk.
Proof.
  destruct (w_zone_tick tz_fall (tk_s 1603587540 (1#1) (1#1))) as (e & E1 & E2 & E3 & E4); [vm_compute; reflexivity|].
  exists (run quiet (w_zone tz_fall) [OTick 0 (tk_s 1603587540 (1#1) (1#1))]), e, (tk_s 1603587610 (1#1) (1#1)).
  split; [apply (run_quiet_reach any_call [_; _]); repeat constructor|]. split; [auto|]. unfold refused. rewrite E2, E3.
  split; [vm_compute; reflexivity|vm_compute; reflexivity].
Qed.
Print Assumptions C25_clock_back_refuted.

(** C26: registration of frame sets and strategies. *)
Theorem C26_add_frame_set : forall {F} `{Num F} (w : world F) eid fid e fs, w_epics w !! eid = Some e -> w_fsets w !! fid = Some fs ->
  (forall i, dict_get (ep_fsets e) (fs_ref fs) = Some i -> add_frame_set w eid fid = (w, Err EpicException)) /\
  (dict_get (ep_fsets e) (fs_ref fs) = None -> exists w' e', add_frame_set w eid fid = (w', Ok ()) /\
     w_epics w' = <[eid := e']> (w_epics w) /\ w_fsets w' = <[fid := fs_set_epic fs (Some eid)]> (w_fsets w) /\
     w_trades w' = w_trades w /\ w_provs w' = w_provs w /\ w_strats w' = w_strats w /\ w_log w' = w_log w /\
     e' = ep_set_fsets e (ep_fsets e') /\ ep_fsets e' = ep_fsets e ++ [(fs_ref fs, fid)] /\
     (forall k, dict_get (ep_fsets e') k = if String.eqb (fs_ref fs) k then Some fid else dict_get (ep_fsets e) k)).
Proof. intros F H. exact add_frame_set_spec. Qed.
Print Assumptions C26_add_frame_set.
Theorem C26_add_strategy : forall {F} `{Num F} (w : world F) eid sid e s, w_epics w !! eid = Some e -> w_strats w !! sid = Some s ->
  (forall i, dict_get (ep_strats e) (st_ref s) = Some i -> add_strategy w eid sid = (w, Err EpicException)) /\
  (dict_get (ep_strats e) (st_ref s) = None -> exists w' e' s', add_strategy w eid sid = (w', Ok ()) /\
     w_epics w' = <[eid := e']> (w_epics w) /\ w_strats w' = <[sid := s']> (w_strats w) /\
     w_trades w' = w_trades w /\ w_provs w' = w_provs w /\ w_fsets w' = w_fsets w /\ w_log w' = w_log w /\
     e' = ep_set_strats e (ep_strats e') /\ ep_strats e' = ep_strats e ++ [(st_ref s, sid)] /\
     (forall k, dict_get (ep_strats e') k = if String.eqb (st_ref s) k then Some sid else dict_get (ep_strats e) k) /\
     s' = st_set_epics s (st_epics s') /\
     (forall k, dict_get (st_epics s') k = if String.eqb (ep_ref e) k then Some eid else dict_get (st_epics s) k)).
Proof. intros F H. exact add_strategy_spec. Qed.
Print Assumptions C26_add_strategy.
Theorem C26_references_unique : forall {F} `{Num F} P (w : world F) eid e, reach P w -> w_epics w !! eid = Some e ->
  (forall k i, (k, i) ∈ ep_strats e -> exists s, w_strats w !! i = Some s /\ st_ref s = k) /\ NoDup (map fst (ep_strats e)) /\
  (forall k i, (k, i) ∈ ep_fsets e -> exists fs, w_fsets w !! i = Some fs /\ fs_ref fs = k) /\ NoDup (map fst (ep_fsets e)).
Proof. exact @reach_refs. Qed.
Print Assumptions C26_references_unique.
Theorem C26_never_replaced : forall {F} `{Num F} pr l (w : world F) eid e, w_epics w !! eid = Some e -> exists e', w_epics (run pr w l) !! eid = Some e' /\
  (forall k i, dict_get (ep_fsets e) k = Some i -> dict_get (ep_fsets e') k = Some i) /\
  (forall k i, dict_get (ep_strats e) k = Some i -> dict_get (ep_strats e') k = Some i).
Proof. exact @never_replaced. Qed.
Print Assumptions C26_never_replaced.

Definition ops26 : list (op Q) := ops_hours ++ [ONewStrategy "s0"; ONewFrameSet HOUR 2 "H2" 2; ONewFrameSet DAY 1 "H2" 5; OAddFrameSet 0 0].
Example C26_ex : let w := run quiet empty_world ops26 in reach any_call w /\ ep_strats (epic_of w 0) = [("s0", 0%nat); ("s1", 1%nat)] /\
  ep_fsets (epic_of w 0) = [("H2", 0%nat)] /\ snd (step quiet w (OAddFrameSet 0 1)) = Err EpicException /\ snd (step quiet w (OAddStrategy 0 2)) = Err EpicException.
Proof. split; [apply run_quiet_reach; repeat constructor|]. repeat split; vm_compute; reflexivity. Qed.

(** A strategy keeps its epics by reference: two epics with the same reference hide each other. *)
Theorem C26_strategy_epics_refuted : exists (w : world Q), reach any_call w /\
  ep_strats (epic_of w 0) = [("s0", 0%nat)] /\ ep_strats (epic_of w 1) = [("s0", 0%nat)] /\ st_epics (strat_of w 0) = [("A", 1%nat)].
Proof.
  exists (run quiet empty_world [ONewStrategy "s0"; ONewEpic "A" (Some tz_UTC) 0 1 None None None; ONewEpic "A" (Some tz_UTC) 0 1 None None None; OAddStrategy 0 0; OAddStrategy 1 0]).
  split; [apply run_quiet_reach; repeat constructor|]. repeat split; vm_compute; reflexivity.
Qed.
Print Assumptions C26_strategy_epics_refuted.

(** C27: lookups by offset. *)
Theorem C27_get_frame : forall {F} `{Num F} P (w : world F) eid e ref, reach P w -> w_epics w !! eid = Some e ->
  (forall off, dict_get (ep_fsets e) ref = None -> get_frame w e ref off = Err KeyError) /\
  (forall fid off, dict_get (ep_fsets e) ref = Some fid -> 0 <= off -> exists fs, w_fsets w !! fid = Some fs /\ fs_ref fs = ref /\
     get_frame w e ref off = Ok (reverse (fs_frames fs) !! Z.to_nat off)).
Proof. exact @get_frame_spec. Qed.
Print Assumptions C27_get_frame.
Theorem C27_get_indicator_value : forall {F} `{Num F} P (w : world F) eid e ref iref, reach P w -> w_epics w !! eid = Some e ->
  (forall off, dict_get (ep_fsets e) ref = None -> get_indicator_value w e ref iref off = Err KeyError) /\
  (forall fid off fs, dict_get (ep_fsets e) ref = Some fid -> w_fsets w !! fid = Some fs -> 1 <= fs_max fs -> 0 <= off ->
     (get_frame w e ref off = Ok None -> get_indicator_value w e ref iref off = Ok None) /\
     (forall i, get_frame w e ref off = Ok (Some i) -> exists f, fs_heap fs !! i = Some f /\
        forall v, get_indicator_value w e ref iref off = Ok v <-> v = mjoin (dict_get (fr_inds f) iref))).
Proof. exact @get_indicator_spec. Qed.
Print Assumptions C27_get_indicator_value.

Definition w27 : world Q := w_frames [OAddIndicator 0 {| in_ref := "sma"; in_mopen := false; in_kind := KSMA 2 |}; at_h 8; at_h 10; at_h 12].
Example C27_ex : reach any_call w27 /\ dict_get (ep_fsets (epic_of w27 0)) "H2" = Some 0%nat /\ fs_frames (fset_of w27 0) = [1; 2]%nat /\ fs_max (fset_of w27 0) = 2 /\
  get_frame w27 (epic_of w27 0) "H2" 0 = Ok (Some 2%nat) /\ get_frame w27 (epic_of w27 0) "H2" 1 = Ok (Some 1%nat) /\ get_frame w27 (epic_of w27 0) "H2" 2 = Ok None /\
  get_frame w27 (epic_of w27 0) "no" 0 = Err KeyError /\
  (match get_indicator_value w27 (epic_of w27 0) "H2" "sma" 1 with Ok (Some _) => true | _ => false end) = true.
Proof. split; [apply w_frames_reach; repeat constructor|]. repeat split; vm_compute; reflexivity. Qed.

(** A negative offset is not an error: -1 gives the oldest frame in memory. *)
Theorem C27_negative_offset_refuted : exists (w : world Q) e, reach any_call w /\ w_epics w !! 0%nat = Some e /\
  get_frame w e "H2" (-1) = Ok (Some 1%nat) /\ fs_frames (fset_of w 0) = [1; 2]%nat /\ dict_get (ep_fsets e) "H2" = Some 0%nat.
Proof. exists w27, (epic_of w27 0). split; [apply w_frames_reach; repeat constructor|]. split; [apply epic_of_lookup; vm_compute; lia|]. repeat split; vm_compute; reflexivity. Qed.
Print Assumptions C27_negative_offset_refuted.

(** C32-C37 for whole programs: a frame set attached to one epic only has the history made of the ticks this epic accepted
    (which are in order, C22_accepted_in_order); so all theorems about [fs_run_epic] and [fs_run] apply to it. *)
Theorem C32_history_of_program : forall {F} `{Num F} (P : cmd F -> Prop) pr l (w : world F) eid e fid fs u q mx ts,
  reach P w -> programs_ok P pr -> Forall (op_ok P) l -> clean pr w l -> Forall (not_attaching fid) l ->
  w_epics w !! eid = Some e -> attached_only w fid eid -> w_fsets w !! fid = Some fs -> fs_run_epic u q mx ts fs ->
  exists fs', w_fsets (run pr w l) !! fid = Some fs' /\ fs_run_epic u q mx (ts ++ accepted pr w l eid) fs'.
Proof. exact @run_fset_clean. Qed.
Print Assumptions C32_history_of_program.

Example C32_history_ex : let w := w_frames [] in reach any_call w /\ clean quiet w [at_h 9; at_h 8; at_h 12] /\ attached_only w 0 0 /\
  w_fsets w !! 0%nat = Some (fset_of w 0) /\ fs_run_epic HOUR 2 2 [] (fset_of w 0) /\ length (accepted quiet w [at_h 9; at_h 8; at_h 12] 0) = 2%nat.
Proof.
  set (w := w_frames []). split; [apply w_frames_reach; constructor|]. split; [apply clean_b_ok; vm_compute; reflexivity|].
  assert (ep_fsets (epic_of w 0) = [("H2", 0%nat)]) as Ef by (vm_compute; reflexivity).
  assert (w_epics w !! 0%nat = Some (epic_of w 0)) as He by (apply epic_of_lookup; vm_compute; lia).
  assert (w_fsets w !! 0%nat = Some (fset_of w 0)) as Hf by (apply fset_of_lookup; vm_compute; lia).
  split; [|split; [auto|split; [|vm_compute; reflexivity]]].
  - split; [exists (epic_of w 0), "H2"; rewrite Ef; split; [auto|left]|]. split; [exists (fset_of w 0); split; [auto|vm_compute; reflexivity]|].
    intros a b k Ha Hk. apply lookup_lt_Some in Ha. assert (length (w_epics w) = 1%nat) as E by (vm_compute; reflexivity). lia.
  - destruct (fset_init (F:=Q) HOUR 2 "H2" 2) as [fs0|] eqn:E0; [|vm_compute in E0; discriminate]. assert (fset_of w 0 = fs_set_epic fs0 (Some 0%nat)) as ->.
    { vm_compute in E0. injection E0 as <-. vm_compute. reflexivity. }
    apply rep_epic. eapply rep_init. exact E0.
Qed.

(** C47: isolation of epics. *)
Theorem C47_isolated : forall {F} `{Num F} P pr (w : world F) eid e tk, reach P w -> w_epics w !! eid = Some e -> let w' := fst (epic_on_new_tick pr w eid tk) in
  (forall a, a <> eid -> w_epics w' !! a = w_epics w !! a) /\
  (forall fid, (forall k, ~ (k, fid) ∈ ep_fsets e) -> w_fsets w' !! fid = w_fsets w !! fid) /\
  (programs_ok no_call pr -> w_provs w' = w_provs w /\ map st_trades (w_strats w') = map st_trades (w_strats w) /\
     (forall i, ~ registered w (ep_prov e) i -> w_trades w' !! i = w_trades w !! i)).
Proof. exact @tick_isolated. Qed.
Print Assumptions C47_isolated.

Definition w47 : world Q := run quiet empty_world ops_two.
Definition mark (w : world Q) : list (option Q) := map (fun t => Qred <$> Some (tr_cv t)) (w_trades w).
Example C47_ex : reach any_call w47 /\ w_epics w47 !! 0%nat = Some (epic_of w47 0) /\ programs_ok no_call quiet /\ map ep_prov (w_epics w47) = [0; 1]%nat /\
  map pv_trades (w_provs w47) = [[0]; [1]]%nat /\ mark w47 = [Some (100#1); Some (200#1)]%Q /\
  mark (fst (epic_on_new_tick quiet w47 0 (tk_s 1600000060 (90#1) (91#1)))) = [Some (90#1); Some (200#1)]%Q.
Proof.
  split; [apply run_quiet_reach; repeat constructor|]. split; [apply epic_of_lookup; vm_compute; lia|]. split; [apply quiet_ok|]. repeat split; vm_compute; reflexivity.
Qed.

(** C48: lookup of epics by reference in a tick provider. *)
Theorem C48_get_epic_by_ref : forall {F} (w : world F) l ref i, (forall j, j ∈ l -> is_Some (w_epics w !! j)) ->
  (get_epic_by_ref (tp_epics w l) ref = Some i <-> exists l1 l2 e, l = l1 ++ i :: l2 /\ w_epics w !! i = Some e /\ ep_ref e = ref /\
     forall j e', j ∈ l2 -> w_epics w !! j = Some e' -> ep_ref e' <> ref) /\
  (get_epic_by_ref (tp_epics w l) ref = None <-> forall j e', j ∈ l -> w_epics w !! j = Some e' -> ep_ref e' <> ref).
Proof. exact @tp_lookup. Qed.
Print Assumptions C48_get_epic_by_ref.

Example C48_ex : let w := run quiet empty_world [ONewEpic "A" (Some tz_UTC) 0 1 None None None; ONewEpic "B" (Some tz_UTC) 0 1 None None None; ONewEpic "A" (Some tz_UTC) 0 1 None None None] in
  get_epic_by_ref (tp_epics w [0; 1; 2]%nat) "A" = Some 2%nat /\ get_epic_by_ref (tp_epics w [2; 1; 0]%nat) "A" = Some 0%nat /\
  get_epic_by_ref (tp_epics w [0; 1; 2]%nat) "B" = Some 1%nat /\ get_epic_by_ref (tp_epics w [0; 1; 2]%nat) "C" = None.
Proof. repeat split; vm_compute; reflexivity. Qed.

(** C49: an operation other than a tick or the addition of an indicator that raises leaves the whole state unchanged. *)
Theorem C49_failed_operation : forall {F} `{Num F} P pr (w : world F) (o : op F) w' x, reach P w ->
  match o with OTick _ _ | OAddIndicator _ _ => False | _ => True end -> step pr w o = (w', Err x) -> w' = w.
Proof. exact @op_fails. Qed.
Print Assumptions C49_failed_operation.
(** Opening fails exactly on an invalid direction; closing through a strategy or a trade never fails. *)
Theorem C49_opening_fails_iff : forall {F} `{Num F} (P : cmd F -> Prop) (w : world F) eid e d q sid ref, reach P w -> w_epics w !! eid = Some e ->
  valid_id (w_strats w) sid = true -> ((exists x, snd (run_cmd w (COpen eid d q sid ref)) = Err x) <-> d = BadDir).
Proof. exact @open_fails_iff. Qed.
Print Assumptions C49_opening_fails_iff.
Theorem C49_closing_succeeds : forall {F} `{Num F} P (w : world F) i t q ref, reach P w -> w_trades w !! i = Some t ->
  snd (run_cmd w (CClose i q ref)) = Ok () /\ snd (run_cmd w (CTradeCloseEpic i q ref)) = Ok ().
Proof. exact @close_ok. Qed.
Print Assumptions C49_closing_succeeds.

Example C49_ex : let w := world_of [buy 0 5 0] in reach any_call w /\
  snd (step quiet w (OCmd (COpen 0 BadDir 3 (Some 0%nat) ""))) = Err TradeException /\
  (exists x, snd (step quiet w (OCmd (CTradeClose 0 (100#1)%Q DtNaive None ""))) = Err x).
Proof. split; [apply world_of_reach; ops_ok|]. split; [vm_compute; reflexivity|]. eexists. vm_compute. reflexivity. Qed.

(** Adding an RSI that needs more frames than kept in memory raises, yet the indicator is registered. *)
Theorem C49_rsi_registered_refuted : exists (w w' : world Q), reach any_call w /\
  step quiet w (OAddIndicator 0 {| in_ref := "rsi"; in_mopen := false; in_kind := KRSI 14 None |}) = (w', Err BaseIndicatorException) /\
  fs_inds (fset_of w 0) = [] /\ map fst (fs_inds (fset_of w' 0)) = ["rsi"].
Proof.
  set (w := w_frames []). set (o := OAddIndicator 0 {| in_ref := "rsi"; in_mopen := false; in_kind := KRSI 14 None |} : op Q).
  exists w, (fst (step quiet w o)). split; [apply w_frames_reach; constructor|].
  split; [|split; vm_compute; reflexivity]. rewrite (surjective_pairing (step quiet w o)) at 1. f_equal.
Qed.
Print Assumptions C49_rsi_registered_refuted.
