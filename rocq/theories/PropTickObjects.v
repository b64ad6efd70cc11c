(** C58: tick objects are modified in place by the epics that receive them (estrade/epic.py:244). *)
From Verif Require Import TightenMoreProofs TickObjectProofs EpicExamples.
Open Scope Z_scope.

(** Whatever is done with a tick object, refused or accepted, by one epic or several, its instant and prices stay. *)
Theorem C58_quote_kept : forall {F} `{Num F} pr l (s : oworld F) tid t, ow_ticks s !! tid = Some t ->
  exists t', ow_ticks (o_run pr s l) !! tid = Some t' /\ same_quote t t'.
Proof. exact @o_run_quote. Qed.
Print Assumptions C58_quote_kept.

(** After [on_new_tick] the tick object has the zone of the epic, also when it was refused. *)
Theorem C58_zone_of_epic : forall {F} `{Num F} pr (s : oworld F) eid tid e t, w_epics (ow_world s) !! eid = Some e -> ow_ticks s !! tid = Some t ->
  ow_ticks (fst (o_step pr s (OBTick eid tid))) !! tid = Some (tick_to (ep_tz e) t).
Proof. exact @o_tick_zone. Qed.
Print Assumptions C58_zone_of_epic.

(** When every tick object goes to epics of one zone only (as often as one likes), programs behave as if ticks were values:
    same states, same outcomes, hence all other properties hold. *)
Theorem C58_as_values : forall {F} `{Num F} zone ts pr (w : world F) l o, Forall (uses ts) (l ++ [o]) -> one_zone zone pr (o_init w ts) (l ++ [o]) ->
  ow_world (o_run pr (o_init w ts) (l ++ [o])) = run pr w (map (by_value ts) (l ++ [o])) /\
  snd (o_step pr (o_run pr (o_init w ts) l) o) = snd (step pr (run pr w (map (by_value ts) l)) (by_value ts o)).
Proof. exact @objects_as_values. Qed.
Print Assumptions C58_as_values.

(** Two epics, zones [za] and [zb], open 08:00-16:00. *)
Definition w58 (za zb : tzinfo) : world Q :=
  run quiet empty_world [ONewEpic "A" (Some za) 28800000000 57600000000 None None None; ONewEpic "B" (Some zb) 28800000000 57600000000 None None None].
(** 2020-09-15 09:00 and 10:00 UTC. *)
Definition ts58 : list (tick Q) := [tk_s (1600128000 + 3600 * 9) (1#1) (2#1); tk_s (1600128000 + 3600 * 10) (1#1) (2#1)].

(** The first tick is shared by both epics, and sent again after the second one (and refused). *)
Example C58_ex : Forall (uses ts58) [OBTick 0 0; OBTick 1 0; OBTick 0 1; OBTick 0 0] /\
  one_zone (fun _ => tz_UTC) quiet (o_init (w58 tz_UTC tz_UTC) ts58) [OBTick 0 0; OBTick 1 0; OBTick 0 1; OBTick 0 0] /\
  snd (o_step quiet (o_run quiet (o_init (w58 tz_UTC tz_UTC) ts58) [OBTick 0 0; OBTick 1 0; OBTick 0 1]) (OBTick 0 0)) = Err EpicException.
Proof.
  split; [repeat constructor|]. split; [|vm_compute; reflexivity].
  repeat (split; [intros e E; apply (inj Some) in E; subst e; reflexivity|]). exact I.
Qed.

(** Finding: the same tick object sent to an epic of another zone.  The first epic holds a tick of the other zone: its flag says
    open and is_market_open() says closed. *)
Theorem C58_two_zones_refuted : exists (w : world Q) ts l e e', reach any_call w /\ Forall (uses ts) l /\
  w_epics (ow_world (o_run quiet (o_init w ts) l)) !! 0%nat = Some e /\ ep_mopen e = true /\ is_market_open e (ep_last e) = false /\
  w_epics (run quiet w (map (by_value ts) l)) !! 0%nat = Some e' /\ ep_mopen e' = true /\ is_market_open e' (ep_last e') = true.
Proof.
  exists (w58 tz_UTC (tz_fixed 9 (12 * US_HOUR))), ts58, [OBTick 0 0; OBTick 1 0],
    (epic_of (ow_world (o_run quiet (o_init (w58 tz_UTC (tz_fixed 9 (12 * US_HOUR))) ts58) [OBTick 0 0; OBTick 1 0])) 0),
    (epic_of (run quiet (w58 tz_UTC (tz_fixed 9 (12 * US_HOUR))) (map (by_value ts58) [OBTick 0 0; OBTick 1 0])) 0).
  split; [apply run_quiet_reach; repeat constructor|]. split; [repeat constructor|].
  split; [apply epic_of_lookup; vm_compute; lia|]. split; [vm_compute; reflexivity|]. split; [vm_compute; reflexivity|].
  split; [apply epic_of_lookup; vm_compute; lia|]. split; vm_compute; reflexivity.
Qed.
Print Assumptions C58_two_zones_refuted.

(** It also changes which ticks are accepted, in the hour in which the clocks of the first epic go back. *)
Theorem C58_acceptance_refuted : exists (w : world Q) ts l o, reach any_call w /\ Forall (uses ts) (l ++ [o]) /\
  snd (o_step quiet (o_run quiet (o_init w ts) l) o) = Ok () /\
  snd (step quiet (run quiet w (map (by_value ts) l)) (by_value ts o)) = Err EpicException.
Proof.
  exists (w58 tz_fall tz_UTC), [tk_s 1603587540 (1#1) (1#1); tk_s 1603587660 (1#1) (1#1)], [OBTick 0 0; OBTick 1 0], (OBTick 0 1).
  split; [apply run_quiet_reach; repeat constructor|]. split; [repeat constructor|]. split; vm_compute; reflexivity.
Qed.
Print Assumptions C58_acceptance_refuted.

(** The setters of a tick change one field, to the number given. *)
Theorem C58_setters : forall {F} `{Num F} (t : tick F) a,
  match price_of a with
  | Some x => (exists t', tick_set_ask t a = Ok t' /\ tk_ask t' = x /\ tk_bid t' = tk_bid t /\ tk_dt t' = tk_dt t) /\
              (exists t', tick_set_bid t a = Ok t' /\ tk_bid t' = x /\ tk_ask t' = tk_ask t /\ tk_dt t' = tk_dt t)
  | None => tick_set_ask t a = Err TickException /\ tick_set_bid t a = Err TickException
  end.
Proof. exact @setters_spec. Qed.
Print Assumptions C58_setters.
Theorem C58_set_datetime : forall {F} `{Num F} (t : tick F) d,
  match d with
  | DtNaive => tick_set_dt t d = Err TimeException
  | DtAware a => exists t', tick_set_dt t d = Ok t' /\ tk_dt t' = a /\ tk_bid t' = tk_bid t /\ tk_ask t' = tk_ask t
  end.
Proof. exact @set_dt_spec. Qed.
Print Assumptions C58_set_datetime.

(** Finding: the setters do not check the order of the prices (C01 holds for the constructor only). *)
Theorem C58_setter_refuted : exists (t t' : tick Q) d b a, tick_init d b a = Ok t /\ tick_set_bid t (NInt 5) = Ok t' /\ (tk_ask t' < tk_bid t')%Q.
Proof.
  exists {| tk_dt := arrow_of_utc tz_UTC 0; tk_bid := 3#1; tk_ask := 4#1 |}, {| tk_dt := arrow_of_utc tz_UTC 0; tk_bid := 5#1; tk_ask := 4#1 |},
    (DtAware (arrow_of_utc tz_UTC 0)), (NFloat (3#1)), (NFloat (4#1)).
  split; [reflexivity|]. split; [reflexivity|]. reflexivity.
Qed.
Print Assumptions C58_setter_refuted.
