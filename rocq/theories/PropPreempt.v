(** C78: request threads that run between any two statements. *)
From Verif Require Import SpecPreempt PreemptSimProofs WorldExamples PreemptExamples.
Open Scope Z_scope.

(** C78: wherever the scheduler runs request threads, inside a netting loop, a revaluation, a close or a callback included, the
    state in the end is the one of the program whose threads run afterwards, one after the other. *)
Theorem C78_any_point : forall {F} `{Num F} (pr : programs F) l sch, heedless_programs pr -> Forall heedless_op l ->
  exists b, fst (irun pr (empty_world, sch) l) = run pr empty_world (l ++ threads_run b).
Proof. exact @preempt_run. Qed.
Print Assumptions C78_any_point.

(** C78: every operation returns or raises as without interruptions. *)
Theorem C78_same_outcomes : forall {F} `{Num F} (pr : programs F) l sch o, heedless_programs pr -> Forall heedless_op l -> heedless_op o ->
  snd (istep pr (irun pr (empty_world, sch) l) o) = snd (step pr (run pr empty_world l) o).
Proof. exact @preempt_outcome. Qed.
Print Assumptions C78_same_outcomes.

(** C78: every trade has the quantities, prices, results and closes it has without interruptions. *)
Theorem C78_same_figures : forall {F} `{Num F} (pr : programs F) l sch i t, heedless_programs pr -> Forall heedless_op l ->
  w_trades (fst (irun pr (empty_world, sch) l)) !! i = Some t ->
  exists t', w_trades (run pr empty_world l) !! i = Some t' /\
    opened_quantities t' = opened_quantities t /\ closed_quantities t' = closed_quantities t /\ result t' = result t /\
    tr_cv t' = tr_cv t /\ tr_max t' = tr_max t /\ tr_min t' = tr_min t /\ tr_oq t' = tr_oq t /\
    map tc_value (tr_closes t') = map tc_value (tr_closes t) /\ map tc_qty (tr_closes t') = map tc_qty (tr_closes t).
Proof. exact @preempt_figures. Qed.
Print Assumptions C78_same_figures.

(** C78: no answer is lost: when no thread of a backtest provider is alive, every trade it registered and every trade or close handed
    to it is CONFIRMED. *)
Theorem C78_all_confirmed : forall {F} `{Num F} (pr : programs F) l sch a p, heedless_programs pr -> Forall heedless_op l ->
  let w := fst (irun pr (empty_world, sch) l) in
  w_provs w !! a = Some p -> pv_kind p = PBacktests -> is_alive p = false ->
  (forall i, i ∈ pv_trades p -> confirmed w (JOpen i)) /\ (forall j, handed w a j -> confirmed w j).
Proof. exact @preempt_confirmed. Qed.
Print Assumptions C78_all_confirmed.

(** C78: the states of interrupted programs are among those the other properties quantify over. *)
Theorem C78_reachable : forall {F} `{Num F} P (pr : programs F) l sch, heedless_programs pr -> Forall heedless_op l ->
  programs_ok P pr -> Forall (op_ok P) l -> (forall a k, P (CRun a k)) -> reach P (fst (irun pr (empty_world, sch) l)).
Proof. exact @preempt_reach. Qed.
Print Assumptions C78_reachable.

(** Two threads run in the middle of a netting loop, after the first close was handed over and before the quantity of the new trade was
    reduced; the statuses they gave are kept, the quantities are those of the uninterrupted run. *)
Example C78_ex : heedless_programs quiet /\ Forall heedless_op ops_net /\
  show (fst (irun quiet (empty_world, repeat [] 21 ++ [[(0, 2); (0, 0)]%nat]) ops_net)) =
    [(CONFIRMED, 5, [(4, CREATED)]); (CREATED, 3, [(3, CONFIRMED)]); (CREATED, 0, [])] /\
  show (run quiet empty_world (ops_net ++ threads_run [(0, 2); (0, 0)]%nat)) = show (fst (irun quiet (empty_world, repeat [] 21 ++ [[(0, 2); (0, 0)]%nat]) ops_net)) /\
  show (fst (irun quiet (empty_world, []) ops_net)) = show (run quiet empty_world ops_net).
Proof. exact net_case. Qed.
(** A strategy that trades in its callbacks; a thread runs between two statements of its second call; all threads done, all CONFIRMED. *)
Example C78_ex_callbacks : heedless_programs dealer /\ Forall heedless_op ops_deal /\
  show (fst (irun dealer (empty_world, repeat [] 15 ++ repeat [(0, 1); (0, 0)]%nat 20) ops_deal)) =
    [(CONFIRMED, 3, [(1, CONFIRMED)])] /\
  (is_alive <$> w_provs (fst (irun dealer (empty_world, repeat [] 15 ++ repeat [(0, 1); (0, 0)]%nat 20) ops_deal)) !! 0%nat) = Some false.
Proof. exact deal_case. Qed.

(** A program that looks at statuses is outside the theorem, and has to be: no later schedule gives the state it ends in. *)
Theorem C78_watching_refuted : exists (pr : programs Q) l sch, Forall heedless_op l /\ programs_ok not_run pr /\
  forall b, fst (irun pr (empty_world, sch) l) <> run pr empty_world (l ++ threads_run b).
Proof. exact watching. Qed.
Print Assumptions C78_watching_refuted.
