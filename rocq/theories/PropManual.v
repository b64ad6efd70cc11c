(** C68: trades handled by hand. *)
From Verif Require Import ManualExamples.
Open Scope Z_scope.

(** Building a trade with Trade.open_from_epic and handing it to the epic's provider is Epic.open_trade. *)
Theorem C68_build_give {F} `{Num F} (w : world F) eid d q s ref :
  match run_mcmd w (MBuildEpic eid d q s ref) with
  | (w1, Ok _) => exists e, w_epics w !! eid = Some e /\
      run_mcmd w1 (MGive (ep_prov e) (length (w_trades w)) ref) = run_cmd w (COpen eid d q s ref)
  | (w1, Err x) => run_cmd w (COpen eid d q s ref) = (w, Err x) /\ w1 = w
  end.
Proof. exact (build_give w eid d q s ref). Qed.
Print Assumptions C68_build_give.

(** Closing a trade with Trade.close_from_epic and handing the close to the epic's provider is Epic.close_trade. *)
Theorem C68_close_hand {F} `{Num F} (w : world F) eid e tid t q ref :
  w_epics w !! eid = Some e -> w_trades w !! tid = Some t -> is_Some (w_provs w !! ep_prov e) ->
  match run_cmd w (CTradeCloseEpic tid q ref) with
  | (w1, Ok _) => run_mcmd w1 (MHand (ep_prov e) tid (length (tr_closes t))) = run_cmd w (CEpicClose eid tid q ref)
  | (w1, Err x) => run_cmd w (CEpicClose eid tid q ref) = (w, Err x) /\ w1 = w
  end.
Proof. exact (close_hand w eid e tid t q ref). Qed.
Print Assumptions C68_close_hand.

(** Programs that build trades themselves and hand each over at most once, to the provider of its epic, before closing any of
    it, keep the books in order: in the final state and in every state on the way. *)
Theorem C68_books {F} `{Num F} (pr : mprograms F) (l : list (mop F)) :
  careful_programs pr -> careful_ops pr empty_world l -> books (mrun pr empty_world l).
Proof. exact (mrun_books pr l). Qed.
Print Assumptions C68_books.
Theorem C68_books_inside {F} `{Num F} (w : world F) : mreach w -> books w.
Proof. exact (mreach_books w). Qed.
Print Assumptions C68_books_inside.

(** A trade that was built and not handed over is in no ledger and is not touched by ticks, netting, or closing everything,
    whatever happens meanwhile: only the statuses of closes already handed over may be set. *)
Theorem C68_waiting {F} `{Num F} (pr : mprograms F) tid (w : world F) l t :
  careful_programs pr -> others_programs tid pr -> mreach w -> waiting w tid -> w_trades w !! tid = Some t ->
  careful_ops pr w l -> Forall (others_op tid) l ->
  waiting (mrun pr w l) tid /\ exists t', w_trades (mrun pr w l) !! tid = Some t' /\ erase_trade t' = erase_trade t.
Proof. exact (waiting_run pr tid w l t). Qed.
Print Assumptions C68_waiting.

(** Programs that do not handle trades by hand run as in World.v. *)
Theorem C68_api {F} `{Num F} (pr : programs F) l w : mrun (by_hands pr) w (map MOp l) = run pr w l.
Proof. exact (hand_run pr l w). Qed.
Print Assumptions C68_api.

(** Trade(...) sets what it is given; a current_close_value that is missing or 0 is the open value; nothing else changes. A naive date is refused. *)
Theorem C68_built {F} `{Num F} (w : world F) e d q ov a cv st s ref : is_Some (w_epics w !! e) -> valid_id (w_strats w) s = true ->
  run_mcmd w (MBuild e d q ov DtNaive cv st s ref) = (w, Err TimeException) /\
  exists w1 t, run_mcmd w (MBuild e d q ov (DtAware a) cv st s ref) = (w1, Ok ()) /\
    w_trades w1 = w_trades w ++ [t] /\ w_provs w1 = w_provs w /\ w_strats w1 = w_strats w /\ w_epics w1 = w_epics w /\ w_fsets w1 = w_fsets w /\ w_log w1 = w_log w /\
    tr_epic t = e /\ tr_strat t = s /\ tr_dir t = d /\ tr_oq t = q /\ tr_closes t = [] /\ tr_ov t = ov /\ tr_dt t = a /\ tr_status t = st /\ tr_ref t = ref /\
    (forall v, cv = Some v -> ftruthy v = true -> tr_cv t = v) /\ (cv = None -> tr_cv t = ov) /\ (forall v, cv = Some v -> ftruthy v = false -> tr_cv t = ov) /\
    tr_max t = result t /\ tr_min t = result t.
Proof. exact (manual_built w e d q ov a cv st s ref). Qed.
Print Assumptions C68_built.
(** Trade.open_from_tick opens at the ask and values at the bid, or the converse. *)
Theorem C68_built_tick {F} `{Num F} (w : world F) tk e q s ref : is_Some (w_epics w !! e) -> valid_id (w_strats w) s = true ->
  run_mcmd w (MBuildTick tk e BadDir q s ref) = (w, Err TradeException) /\
  run_mcmd w (MBuildTick tk e (Dir BUY) q s ref) = run_mcmd w (MBuild e BUY q (tk_ask tk) (DtAware (tk_dt tk)) (Some (tk_bid tk)) CREATED s ref) /\
  run_mcmd w (MBuildTick tk e (Dir SELL) q s ref) = run_mcmd w (MBuild e SELL q (tk_bid tk) (DtAware (tk_dt tk)) (Some (tk_ask tk)) CREATED s ref).
Proof. exact (manual_built_tick w tk e q s ref). Qed.
Print Assumptions C68_built_tick.

Example C68_built_ex : let w := mrun handy empty_world hand_ops in
  option_map (fun e => ep_prov e) (w_epics w !! 0%nat) = Some 0%nat /\ valid_id (w_strats w) (Some 0%nat) = true /\
  let last c := option_map (fun t => (tr_status t, Qred (tr_ov t), Qred (tr_cv t), Qred (tr_max t))) (List.last (map Some (w_trades (fst (run_mcmd w c)))) None) in
  last (MBuild 0 SELL 3 7%Q (DtAware (tk_dt (@fake_tick Q _))) (Some 5%Q) CONFIRMED (Some 0%nat) "x") = Some (CONFIRMED, 7, 5, 6)%Q /\
  last (MBuild 0 SELL 3 7%Q (DtAware (tk_dt (@fake_tick Q _))) (Some 0%Q) PENDING None "x") = Some (PENDING, 7, 7, 0)%Q.
Proof. split; [vm_compute; reflexivity|]. split; [vm_compute; reflexivity|]. split; vm_compute; reflexivity. Qed.

(** A careful program: a SELL of 3 built before two BUYs of 2 and handed over after them; it closes the newest and half of the
    other and is not registered; the strategy then buys again. *)
Example C68_ex : careful_programs handy /\ careful_ops handy empty_world (hand_ops ++ hand_give) /\
  lines (mrun handy empty_world hand_ops) = [(SELL, 3, 0); (BUY, 2, 0); (BUY, 2, 0)] /\ ids (mrun handy empty_world hand_ops) = [1; 2]%nat /\
  lines (mrun handy empty_world (hand_ops ++ hand_give)) = [(SELL, 0, 0); (BUY, 2, 1); (BUY, 2, 2); (BUY, 2, 0)] /\
  ids (mrun handy empty_world (hand_ops ++ hand_give)) = [1; 2; 3]%nat.
Proof.
  split; [exact handy_careful|]. split; [exact hand_ops_careful|]. split; [vm_compute; reflexivity|]. split; [vm_compute; reflexivity|].
  split; vm_compute; reflexivity.
Qed.

(** Handing a trade over twice registers it twice: the result of its strategy counts it twice. *)
Theorem C68_twice_refuted : exists l : list (mop Q), let w := mrun still empty_world l in
  ids w = [0; 0]%nat /\ sids w = [0; 0]%nat /\ map (fun t => Qred (result t)) (w_trades w) = [3%Q] /\ res_of w = 6%Q.
Proof. exists twice. split; [vm_compute; reflexivity|]. split; [vm_compute; reflexivity|]. split; vm_compute; reflexivity. Qed.
Print Assumptions C68_twice_refuted.
(** Handing over a trade that was partly closed: netting reduces its quantity below what was closed. *)
Theorem C68_late_refuted : exists l : list (mop Q), let w := mrun still empty_world l in
  ids w = [0; 1]%nat /\ map (fun t => (tr_oq t, closed_quantities t)) (w_trades w) = [(2, 2); (2, 3)].
Proof. exists late. split; vm_compute; reflexivity. Qed.
Print Assumptions C68_late_refuted.
(** Handed to another provider than its epic's: the ticks of its epic do not revalue it. *)
Theorem C68_astray_refuted : exists l : list (mop Q), let w := mrun still empty_world l in
  sids w = [0]%nat /\ map (fun t => (tr_dir t, opened_quantities t, Qred (tr_cv t))) (w_trades w) = [(BUY, 1, 100%Q)] /\
  map (fun e => Qred (tk_bid (ep_last e))) (w_epics w) = [104%Q].
Proof. exists astray. split; [vm_compute; reflexivity|]. split; vm_compute; reflexivity. Qed.
Print Assumptions C68_astray_refuted.
