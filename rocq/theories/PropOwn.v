(** Theorems for properties C64 (strategies do not influence each other) and C65 (several epics can be backtested together).
    Definitions: World.v (model), SpecWorld.v, SpecOwn.v. *)
From Verif Require Import OwnExamples.
Open Scope Z_scope.

(** Two runs with the same ticks, registrations and orders of one strategy, in which that strategy decides on what it owns
    and on the market, and the other strategies (any, different in the two runs) and request threads do what they like elsewhere
    without raising: the strategy ends with the same trades, closes, prices, results, flags, callback calls. *)
Theorem C64_independent : forall {F} `{Num F} sid (pr pr' : programs F) l l' w w', own_program sid everything everything (pr sid) (pr' sid) ->
  others_keep_off sid pr -> others_keep_off sid pr' -> same_main sid everything everything l l' -> reach any_call w -> reach any_call w' ->
  own sid everything everything w = own sid everything everything w' -> own sid everything everything (run pr w l) = own sid everything everything (run pr' w' l').
Proof. intros F HN sid pr pr' l l' w w' Hp Ho Ho' Hl R R' E. exact (pair_run sid _ _ pr pr' l l' w w' Hp Ho Ho' Hl R R' (wired_all _ _ _ w (fun i => conj eq_refl eq_refl)) E). Qed.
Print Assumptions C64_independent.
(** In particular it ends as if the other strategies were idle. *)
Theorem C64_alone : forall {F} `{Num F} sid (pr : programs F) l w, own_program sid everything everything (pr sid) (pr sid) -> others_keep_off sid pr ->
  Forall (fun o => own_op sid everything everything o \/ other_op sid everything o) l -> reach any_call w ->
  own sid everything everything (run pr w l) = own sid everything everything (run (alone sid pr) w l).
Proof. intros F HN sid pr l w Hp Ho Hl R. exact (run_alone sid _ _ pr l w Hp Ho Hl R (wired_all _ _ _ w (fun i => conj eq_refl eq_refl))). Qed.
Print Assumptions C64_alone.
(** Its result and profit factor are determined by what it owns. *)
Theorem C64_results : forall {F} `{Num F} sid ine inf (w w' : world F) s s', own sid ine inf w = own sid ine inf w' -> w_strats w !! sid = Some s -> w_strats w' !! sid = Some s' ->
  strategy_result w s TNone = strategy_result w' s' TNone /\ profit_factor w s TNone = profit_factor w' s' TNone.
Proof. exact @own_results. Qed.
Print Assumptions C64_results.

Example C64_ex : own_program 0 everything everything (duo 0%nat) (duo 0%nat) /\ others_keep_off 0 duo /\
  Forall (fun o => own_op 0 everything everything o \/ other_op 0 everything o) l64 /\
  map shape (o_trades (own 0 everything everything (run duo empty_world l64))) = [(3, [1; 1; 1]); (3, [3])] /\
  own_ids 0 (run duo empty_world l64) = [1; 7]%nat /\ own_ids 0 (run (alone 0 duo) empty_world l64) = [0; 2]%nat.
Proof.
  split; [exact (duo_own _ _)|]. split; [exact duo_off|]. split; [exact l64_ok|]. split; [vm_compute; reflexivity|]. split; vm_compute; reflexivity.
Qed.

(** A strategy that raises does influence the strategies after it on the epic. *)
Theorem C64_raise_refuted : exists (pr : programs Q) l, own_program 0 everything everything (pr 0%nat) (pr 0%nat) /\
  Forall (fun o => own_op 0 everything everything o \/ other_op 0 everything o) l /\
  (forall s cb eid w, s <> 0%nat -> pr s cb eid w = SRaise KeyError) /\ 
  own 0 everything everything (run pr empty_world l) <> own 0 everything everything (run (alone 0 pr) empty_world l).
Proof.
  exists rude, l64. split; [exact (duo_own _ _)|]. split; [exact l64_ok|]. split; [now intros [|s] cb eid w Hs; [congruence|]|].
  intros E. apply (f_equal (fun o => length (o_trades o))) in E. vm_compute in E. discriminate E.
Qed.
Print Assumptions C64_raise_refuted.

(** Two runs with the same ticks of the epics of one strategy ([ine]) and the same orders of it, other epics (with other
    providers and other frame sets, [inf] being those of the strategy) ticking as they like, other strategies doing what they like
    elsewhere without raising: the strategy ends with the same trades, candles, results, flags, callback calls. *)
Theorem C65_independent : forall {F} `{Num F} sid ine inf (pr pr' : programs F) l l' w w', own_program sid ine inf (pr sid) (pr' sid) ->
  others_keep_off sid pr -> others_keep_off sid pr' -> same_main sid ine inf l l' -> reach any_call w -> reach any_call w' ->
  wired sid ine inf w -> own sid ine inf w = own sid ine inf w' -> own sid ine inf (run pr w l) = own sid ine inf (run pr' w' l').
Proof. exact @pair_run. Qed.
Print Assumptions C65_independent.
(** In particular it ends as if the ticks of the other epics had not been sent and the other strategies were idle. *)
Theorem C65_alone : forall {F} `{Num F} sid ine inf (pr : programs F) l w, own_program sid ine inf (pr sid) (pr sid) -> others_keep_off sid pr ->
  Forall (fun o => own_op sid ine inf o \/ other_op sid ine o) l -> reach any_call w -> wired sid ine inf w ->
  own sid ine inf (run pr w l) = own sid ine inf (run (alone sid pr) w (own_ticks ine l)).
Proof. exact @run_epics. Qed.
Print Assumptions C65_alone.

Example C65_ex : own_program 0 first first (duo 0%nat) (duo 0%nat) /\ others_keep_off 0 duo /\ Forall (fun o => own_op 0 first first o \/ other_op 0 first o) l65 /\
  reach any_call (run duo empty_world (setup65 1)) /\ wired 0 first first (run duo empty_world (setup65 1)) /\
  map shape (o_trades (own 0 first first (run duo (run duo empty_world (setup65 1)) l65))) = [(3, [1; 1])] /\
  length (w_log (run duo (run duo empty_world (setup65 1)) l65)) = 9%nat /\ length (own_ticks first l65) = 5%nat.
Proof.
  split; [exact (duo_own _ _)|]. split; [exact duo_off|]. split; [exact l65_ok|]. split; [exact (setup65_reach 1)|]. split; [exact setup65_wired|].
  split; [vm_compute; reflexivity|]. split; vm_compute; reflexivity.
Qed.

(** Two epics with one provider do influence each other: the ticks of one revalue the trades of the other. *)
Theorem C65_shared_provider_refuted : exists (pr : programs Q) l, let w := run pr empty_world (setup65 0) in
  own_program 0 first first (pr 0%nat) (pr 0%nat) /\ others_keep_off 0 pr /\ Forall (fun o => own_op 0 first first o \/ other_op 0 first o) l /\
  map result <$> mapM id (o_trades (own 0 first first (run pr w l))) <> map result <$> mapM id (o_trades (own 0 first first (run pr w (own_ticks first l)))).
Proof.
  exists duo, l65. split; [exact (duo_own _ _)|]. split; [exact duo_off|]. split; [exact l65_ok|]. intros E. vm_compute in E. discriminate E.
Qed.
Print Assumptions C65_shared_provider_refuted.
