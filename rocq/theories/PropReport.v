(** C45 and C46: CSV reports, references. *)
From Verif Require Import ReportExamples.
From Verif Require Export SpecReport.
Open Scope Z_scope.

(** C45: every reachable state, every list of strategies, every content of the target folder, every arithmetic
    in which the report returns.  [dt] is the formatted current time. *)
Theorem C45_report : forall {F} `{Num F} P (w : world F) dt (details : bool) sids d d', reach P w -> report w dt sids details d = (d', Ok ()) ->
  (forall n f, dict_get d n = Some f -> dict_get d' n = Some f) /\
  (dict_get d (dt ++ "_strategies.csv")%string = None ->
     exists rows, dict_get d' (dt ++ "_strategies.csv")%string = Some (FStrategies strategy_columns rows) /\ Forall2 (strategy_row w) sids rows) /\
  (details = true -> forall k sid s, sids !! k = Some sid -> w_strats w !! sid = Some s -> dict_get d (dt ++ "_" ++ st_ref s ++ "_trades.csv")%string = None ->
     (forall k' sid', (k' < k)%nat -> sids !! k' = Some sid' -> ~ has_ref w sid' (st_ref s)) ->
     exists rows, dict_get d' (dt ++ "_" ++ st_ref s ++ "_trades.csv")%string = Some (FTrades (match st_trades s with [] => [] | _ => trade_columns end) rows) /\
       Forall2 (trade_row w) (reverse (st_trades s)) rows) /\
  (forall n, n <> (dt ++ "_strategies.csv")%string ->
     (details = true -> forall sid s, sid ∈ sids -> w_strats w !! sid = Some s -> n <> (dt ++ "_" ++ st_ref s ++ "_trades.csv")%string) ->
     dict_get d' n = dict_get d n).
Proof. exact @report_contents. Qed.
Print Assumptions C45_report.
(** Over exact arithmetic every report returns; when a report raises (other arithmetics) the strategies file is not written. *)
Theorem C45_returns : forall P (w : world Q) dt details sids d, reach P w -> (forall sid, sid ∈ sids -> exists s, w_strats w !! sid = Some s) ->
  exists d', report w dt sids details d = (d', Ok ()).
Proof. exact report_total. Qed.
Print Assumptions C45_returns.
Theorem C45_failed : forall {F} `{Num F} (w : world F) dt details sids d d' x, report w dt sids details d = (d', Err x) ->
  dict_get d' (dt ++ "_strategies.csv")%string = dict_get d (dt ++ "_strategies.csv")%string.
Proof. exact @report_failed. Qed.
Print Assumptions C45_failed.

(** (t1 is valued at -396 because both epics share a provider, see C18_two_epics_refuted.) *)
Example C45_ex : reach sane_call w45 /\ st_trades (strat_of w45 0) = [0; 2; 4]%nat /\
  map (fun x => (x.1, file_data x.2)) (fst (report w45 "D" [1; 0]%nat true [("x", FOther "y")]%string)) =
    [("x", (["y"], [], []));
     ("D_s1_trades.csv", (trade_columns, [("t1", "B", "s1", 1600000000, 4, 0, (201#1, -396#1)%Q)], []));
     ("D_s0_trades.csv", (trade_columns, [("t4", "A", "s0", 1600000120, 1, 0, (103#1, -1#1)%Q); ("t2", "A", "s0", 1600000060, 2, 0, (105#1, -6#1)%Q);
                                          ("t0", "A", "s0", 1600000000, 5, 2, (101#1, 9#1)%Q)], []));
     ("D_strategies.csv", (strategy_columns, [], [("s1", 1, (-396#1)%Q, 0%Q); ("s0", 3, (2#1)%Q, (129#100)%Q)]))]%string /\
  snd (report w45 "D" [1; 0]%nat true [("x", FOther "y")]%string) = Ok ().
Proof. split; [apply world_of_reach; ops_ok|]. split; [vm_compute; reflexivity|]. split; vm_compute; reflexivity. Qed.

(** Two strategies with the same reference: the trades of the second one are nowhere in the report. *)
Theorem C45_same_reference_refuted : exists (w : world Q) sids d', reach sane_call w /\ report w "D" sids true [] = (d', Ok ()) /\
  exists sid s i t, sid ∈ sids /\ w_strats w !! sid = Some s /\ i ∈ st_trades s /\ w_trades w !! i = Some t /\ lost d' (tr_ref t).
Proof.
  exists w45, [0; 2]%nat, (fst (report w45 "D" [0; 2]%nat true [])). split; [apply world_of_reach; ops_ok|].
  split; [assert (snd (report w45 "D" [0; 2]%nat true []) = Ok ()) as E by (vm_compute; reflexivity); rewrite <- E; now destruct (report w45 "D" [0; 2]%nat true [])|].
  exists 2%nat, (strat_of w45 2), 3%nat, (trade_of w45 3). split; [right; left|]. split; [apply strat_of_lookup; vm_compute; lia|]. split; [vm_compute; left|].
  split; [apply trade_of_lookup; vm_compute; lia|]. apply lost_check. vm_compute. reflexivity.
Qed.
Print Assumptions C45_same_reference_refuted.
(** A second report within the same second writes nothing: a trade opened in between is nowhere in the folder. *)
Theorem C45_same_second_refuted : exists (w w' : world Q) d' d'', reach sane_call w /\ w' = fst (run_cmd w (COpen 0 (Dir BUY) 1 (Some 0%nat) "late")) /\
  report w "D" [0]%nat true [] = (d', Ok ()) /\ report w' "D" [0]%nat true d' = (d'', Ok ()) /\ d'' = d' /\
  exists i t, i ∈ st_trades (strat_of w' 0) /\ w_trades w' !! i = Some t /\ lost d'' (tr_ref t).
Proof.
  exists w45, (fst (run_cmd w45 (COpen 0 (Dir BUY) 1 (Some 0%nat) "late"))).
  exists (fst (report w45 "D" [0]%nat true [])), (fst (report w45 "D" [0]%nat true [])). split; [apply world_of_reach; ops_ok|]. split; [reflexivity|].
  split; [assert (snd (report w45 "D" [0]%nat true []) = Ok ()) as E by (vm_compute; reflexivity); rewrite <- E; now destruct (report w45 "D" [0]%nat true [])|].
  split; [vm_compute; reflexivity|]. split; [reflexivity|].
  exists 5%nat, (trade_of (fst (run_cmd w45 (COpen 0 (Dir BUY) 1 (Some 0%nat) "late"))) 5). split; [vm_compute; do 3 right; left|].
  split; [apply trade_of_lookup; vm_compute; lia|]. apply lost_check. vm_compute. reflexivity.
Qed.
Print Assumptions C45_same_second_refuted.

(** C46: the reference of an object; [u] is the text of the UUID drawn. *)
Theorem C46_explicit : forall r u, r <> ""%string -> make_ref (Some r) u = r.
Proof. exact make_ref_explicit. Qed.
Print Assumptions C46_explicit.
Theorem C46_default : forall a u, a = None \/ a = Some ""%string -> uuid_text u ->
  exists l rest, length l = 5%nat /\ Forall (fun c => c ∈ hex_digits) l /\ u = (String.string_of_list_ascii l ++ rest)%string /\
    make_ref a u = String.string_of_list_ascii l.
Proof. exact make_ref_default. Qed.
Print Assumptions C46_default.
Theorem C46_collision : forall l, Forall uuid_text l -> 16 ^ 5 < Z.of_nat (length l) ->
  exists i j u v, (i < j)%nat /\ l !! i = Some u /\ l !! j = Some v /\ make_ref None u = make_ref None v.
Proof. exact refs_collide. Qed.
Print Assumptions C46_collision.
(** The bound is exact. *)
Theorem C46_bound : exists l, Forall uuid_text l /\ Z.of_nat (length l) = 16 ^ 5 /\ NoDup (map (make_ref None) l).
Proof. exact refs_distinct. Qed.
Print Assumptions C46_bound.
Example C46_ex : uuid_text "3f2b8c1e-9d4a-4c5b-8f00-0123456789ab" /\ make_ref None "3f2b8c1e-9d4a-4c5b-8f00-0123456789ab" = "3f2b8"%string /\
  make_ref (Some "DAX") "3f2b8c1e-9d4a-4c5b-8f00-0123456789ab" = "DAX"%string.
Proof.
  split; [|split; reflexivity]. exists (String.list_ascii_of_string "3f2b8c1e"), "-9d4a-4c5b-8f00-0123456789ab"%string. split; [reflexivity|]. split; [reflexivity|].
  apply Forall_forall. intros c Hc. apply (bool_decide_unpack _). vm_compute in Hc. repeat (apply elem_of_cons in Hc as [->|Hc]; [vm_compute; exact I|]). now apply elem_of_nil in Hc.
Qed.
