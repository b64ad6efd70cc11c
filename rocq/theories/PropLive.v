(** C67: a backtest without openings against open positions is what any other provider records. *)
From Verif Require Import LiveExamples.
Open Scope Z_scope.

(** C67: strategies that decide alike and never trade against their open position, on providers of any kinds: the two runs
    agree in all trades (up to statuses), ledgers, epics, frame sets, strategies and callbacks.  All arithmetics. *)
Theorem C67_any_provider : forall {F} `{Num F} (P : cmd F -> Prop) pr pr' l l' (w w' : world F),
  one_way_programs P pr pr' -> programs_ok P pr -> Forall (op_ok P) l -> reach P w -> other_kinds pr w l l' ->
  plain w = plain w' -> plain (run pr w l) = plain (run pr' w' l').
Proof. exact @alike_run. Qed.
Print Assumptions C67_any_provider.

(** C67: what the two runs have in common, in terms of the API. *)
Theorem C67_same_trades : forall {F} (w w' : world F) i t, plain w = plain w' -> w_trades w !! i = Some t ->
  exists t', w_trades w' !! i = Some t' /\ erase_trade t' = erase_trade t.
Proof. exact @plain_trade. Qed.
Print Assumptions C67_same_trades.
Theorem C67_same_figures : forall {F} `{Num F} (w w' : world F), plain w = plain w' ->
  w_strats w = w_strats w' /\ w_epics w = w_epics w' /\ w_fsets w = w_fsets w' /\ w_log w = w_log w' /\
  (forall pid, pv_trades <$> w_provs w !! pid = pv_trades <$> w_provs w' !! pid) /\
  (forall s a, strategy_result w s a = strategy_result w' s a /\ profit_factor w s a = profit_factor w' s a) /\
  (forall s es oo d, get_trades w s es oo d = get_trades w' s es oo d).
Proof. exact @plain_same. Qed.
Print Assumptions C67_same_figures.

(** C67: strategies with a fixed direction. *)
Theorem C67_fixed_direction : forall {F} `{Num F} (dirs : option nat -> dir) (pr : programs F) l l',
  kind_blind pr -> programs_ok (directed dirs) pr -> Forall (op_ok (directed dirs)) l -> same_but_kinds l l' ->
  plain (run pr empty_world l) = plain (run pr empty_world l').
Proof. exact @directed_run. Qed.
Print Assumptions C67_fixed_direction.

Example C67_ex_direction : kind_blind buyer /\ programs_ok (directed (fun _ => BUY)) buyer /\
  Forall (op_ok (directed (fun _ => BUY))) (ops_kind PBacktests) /\ same_but_kinds (ops_kind PBacktests) (ops_kind PBase) /\
  qtys (run buyer empty_world (ops_kind PBacktests)) = [0; 0; 3; 3] /\ res_of (run buyer empty_world (ops_kind PBase)) = (-30#1)%Q.
Proof.
  split; [exact buyer_blind|]. split; [exact buyer_directed|]. split; [apply ops_kind_any|]. split; [apply ops_kind_same|]. split; vm_compute; reflexivity.
Qed.

(** C67: after close_opened_trades() a strategy may open in any direction. *)
Theorem C67_after_closing : forall {F} `{Num F} (P : cmd F -> Prop) (w : world F) sid s ref w' r e d q ref',
  reach P w -> w_strats w !! sid = Some s -> run_cmd w (CCloseAll sid None ref) = (w', r) -> 0 < q -> one_way w' (COpen e d q (Some sid) ref').
Proof. exact @after_closing. Qed.
Print Assumptions C67_after_closing.

Example C67_ex : one_way_programs any_call follower follower /\ programs_ok any_call follower /\
  other_kinds follower empty_world (ops_kind PBacktests) (ops_kind (PCustom PENDING REQUIRED)) /\
  dirs_of (run follower empty_world (ops_kind PBacktests)) = [(BUY, 0, CREATED); (SELL, 0, CREATED); (SELL, 0, CREATED); (BUY, 2, CREATED)] /\
  res_of (run follower empty_world (ops_kind PBacktests)) = (10#1)%Q /\ res_of (run follower empty_world (ops_kind (PCustom PENDING REQUIRED))) = (10#1)%Q.
Proof.
  split; [exact follower_one_way|]. split; [exact follower_any|]. split; [apply ops_kind_other|]. split; [vm_compute; reflexivity|]. split; vm_compute; reflexivity.
Qed.

(** An opening against an open position: the backtest closes part of the position, another provider records two trades; the
    results differ by the spread. *)
Definition against (k : pkind) : list (op Q) := ops_kind k ++ [buy 0 5 0; sell 0 2 0; OTick 0 (tk_s 1600000004 (99#1) (101#1))].
Theorem C67_against_refuted : exists l l' : list (op Q), same_but_kinds l l' /\ Forall (op_ok sane_call) l /\ Forall (op_ok sane_call) l' /\
  qtys (run quiet empty_world l) = [3; 0] /\ qtys (run quiet empty_world l') = [5; 2] /\
  (res_of (run quiet empty_world l) == -5)%Q /\ (res_of (run quiet empty_world l') == -9)%Q.
Proof.
  exists (against PBacktests), (against PBase). split; [apply Forall2_app; [apply ops_kind_same|repeat constructor]|].
  split; [apply Forall_app; split; [apply ops_kind_any|ops_ok]|]. split; [apply Forall_app; split; [apply ops_kind_any|ops_ok]|].
  split; [vm_compute; reflexivity|]. split; [vm_compute; reflexivity|]. split; vm_compute; reflexivity.
Qed.
Print Assumptions C67_against_refuted.
