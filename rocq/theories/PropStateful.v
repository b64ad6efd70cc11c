(** Property C61 (estrade/strategy.py, estrade/tick_provider.py:45-52, estrade/epic.py:206-259): programs whose strategies and main
    program keep data of their own. *)
From Verif Require Import StatefulExamples.
Open Scope Z_scope.

(** C61: whatever data the callbacks and the main program keep and read, the program does the same operations with the same states and outcomes
    as one whose callbacks are functions of the state of the library, and which makes no other calls. *)
Theorem C61_no_data : forall {F} `{Num F} {St} (P : cmd F -> Prop) d (pp : pprograms F St) (w : world F) p, pprograms_ok (op_ok P) pp ->
  exists pr, rprograms_ok P pr /\ trace (rstep d pr) w (map op_of (ptrace d pp w p)) = ptrace d pp w p.
Proof. exact @stateful_run. Qed.
Print Assumptions C61_no_data.
(** The same when callbacks only trade, pause and stop (the programs of the properties other than C55). *)
Theorem C61_no_data_calls : forall {F} `{Num F} {St} (P : cmd F -> Prop) d (pp : pprograms F St) (w : world F) p, pprograms_ok (only_calls P) pp ->
  exists pr, programs_ok P pr /\ trace (step pr) w (map op_of (ptrace (S d) pp w p)) = ptrace (S d) pp w p.
Proof. exact @stateful_calls. Qed.
Print Assumptions C61_no_data_calls.
(** The trace is that of the run. *)
Theorem C61_trace : forall {F} `{Num F} {St} d (pp : pprograms F St) p (w : world F), final w (ptrace d pp w p) = (prun d pp w p).1.2.
Proof. exact @final_prun. Qed.
Print Assumptions C61_trace.
(** Hence every state is one of those the other properties are about... *)
Theorem C61_states : forall {F} `{Num F} {St} (P : cmd F -> Prop) d (pp : pprograms F St) (w : world F) p,
  pprograms_ok (op_ok P) pp -> pscript_ok (op_ok P) p -> reach P w ->
  reach P (prun d pp w p).1.2 /\ forall o w' r, (o, w', r) ∈ ptrace d pp w p -> reach P w'.
Proof. exact @stateful_states. Qed.
Print Assumptions C61_states.
(** ... and properties of whole runs extend to programs with data, for instance C24: *)
Theorem C61_protocol : forall {F} `{Num F} {St} (P : cmd F -> Prop) d (pp : pprograms F St) (w : world F) p eid e sid k s,
  (forall c, P c -> spares sid c) -> reach P w -> pprograms_ok (only_calls P) pp -> pscript_ok (op_ok P) p -> ticks_pass (ptrace (S d) pp w p) ->
  w_epics w !! eid = Some e -> (k, sid) ∈ ep_strats e -> w_strats w !! sid = Some s -> st_paused s = None -> st_stopped s = false ->
  exists evs, w_log (prun (S d) pp w p).1.2 = w_log w ++ evs /\ alternate (ep_mopen e) (seen sid eid evs) /\
    seen sid eid evs = protocol (ep_mopen e) (map (is_market_open e) (sent e eid (ptrace (S d) pp w p))).
Proof. exact @stateful_protocol. Qed.
Print Assumptions C61_protocol.

(** Two ticks: strategy 0 remembered the first one and bought at the second one; the main program stopped. *)
Definition t61 := ptrace 1 counter w55 (feed 2 5 9 0).
Definition w61 : world Q := (prun 1 counter w55 (feed 2 5 9 0)).1.2.
Example C61_ex : pprograms_ok (only_calls no_toggle) counter /\ pscript_ok (op_ok no_toggle) (feed 2 5 9 0) /\ reach no_toggle w55 /\
  map snd t61 = [Ok (); Ok ()] /\ (prun 1 counter w55 (feed 2 5 9 0)).1.1 = 2%nat /\ qtys w61 = [2] /\ hour_of w61 = 10 /\
  w_epics w55 !! 0%nat = Some (epic_of w55 0) /\ ep_mopen (epic_of w55 0) = false /\ length (sent (epic_of w55 0) 0 t61) = 2%nat /\
  seen 1 0 (w_log w61) = [OnMarketOpen; OnEveryTickMarketOpen; OnEveryTick; OnEveryTickMarketOpen; OnEveryTick].
Proof.
  split; [exact counter_ok|]. split; [apply feed_ok|]. split; [apply w55_reach|]. split; [vm_compute; reflexivity|]. split; [vm_compute; reflexivity|].
  split; [vm_compute; reflexivity|]. split; [vm_compute; reflexivity|]. split; [apply epic_of_lookup; vm_compute; lia|]. repeat split; vm_compute; reflexivity.
Qed.
(** Five ticks: the third one raises, then strategy 0 goes on counting. *)
Example C61_ex_raise : pprograms_ok (op_ok sane_call) counter /\ map snd (ptrace 1 counter w55 (feed 9 5 9 0)) = [Ok (); Ok (); Err KeyError; Ok (); Ok ()] /\
  (prun 1 counter w55 (feed 9 5 9 0)).1.1 = 5%nat.
Proof. split; [exact counter_sane|]. split; vm_compute; reflexivity. Qed.
