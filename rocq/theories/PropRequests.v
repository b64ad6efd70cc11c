(** C75: trade providers written by users. *)
From Coq Require Import QArith.
From Verif Require Import RequestsExamples.
Open Scope Z_scope.

(** open_trade_request and close_trade_request may be any code - it may read everything, assign the status and the price of its trade or close, call the
    API with sound quantities, return or raise - and go on at any time between two calls of the program: the books stay in order. *)
Theorem C75_books {F} `{Num F} (rq : requests F) (pr : lprograms F) l : modest_requests rq -> sane_lprograms pr -> Forall sane_lop l ->
  books (l_w (lrun rq pr empty_live l)).
Proof. exact (modest_books rq pr l). Qed.
Print Assumptions C75_books.
(** Requests that assign quantities too, as long as they lower them at most to what is closed already (of a close: only on other providers than backtest ones);
    in the final state and in every state on the way, between the parts of a tick included. *)
Theorem C75_books_fills {F} `{Num F} (rq : requests F) (pr : lprograms F) l : careful_lprograms rq pr -> careful_lops rq pr empty_live l ->
  books (l_w (lrun rq pr empty_live l)).
Proof. exact (lrun_books rq pr l). Qed.
Print Assumptions C75_books_fills.
Theorem C75_books_inside {F} `{Num F} (rq : requests F) s : lreach rq s -> books (l_w s).
Proof. exact (lreach_books rq s). Qed.
Print Assumptions C75_books_inside.

(** What a request does, one thing at a time: an assignment sets that attribute of its trade or close and touches nothing else; a call is the API's;
    returning and raising end the thread and change nothing else.  The other requests are not disturbed. *)
Theorem C75_own {F} `{Num F} (rq : requests F) (s : lstate F) pid k th : thread_of (l_w s) pid k = Some th -> th_done th = false ->
  match code rq s pid k (th_job th) with
  | RReturn | RRaise _ => w_trades (l_w (act rq s pid k)) = w_trades (l_w s) /\
      (exists th', thread_of (l_w (act rq s pid k)) pid k = Some th' /\ th_done th' = true /\ th_job th' = th_job th) /\ l_code (act rq s pid k) = l_code s
  | RSet x r => w_provs (l_w (act rq s pid k)) = w_provs (l_w s) /\
      (forall i, i <> job_trade (th_job th) -> w_trades (l_w (act rq s pid k)) !! i = w_trades (l_w s) !! i) /\
      (forall t, w_trades (l_w s) !! job_trade (th_job th) = Some t -> exists t', w_trades (l_w (act rq s pid k)) !! job_trade (th_job th) = Some t' /\ job_set x (th_job th) t t') /\
      (forall j, code rq (act rq s pid k) pid k j = r (l_w (act rq s pid k)))
  | RCall c r => l_w (act rq s pid k) = fst (run_cmd (l_w s) c) /\ (forall j, code rq (act rq s pid k) pid k j = r (fst (run_cmd (l_w s) c)) (snd (run_cmd (l_w s) c)))
  end /\
  (forall pid' k' j, (pid', k') <> (pid, k) -> code rq (act rq s pid k) pid' k' j = code rq (on_world s (l_w (act rq s pid k))) pid' k' j) /\
  ((forall c r, code rq s pid k (th_job th) <> RCall c r) -> let w := l_w s in let w' := l_w (act rq s pid k) in
    w_strats w' = w_strats w /\ w_epics w' = w_epics w /\ w_fsets w' = w_fsets w /\ w_log w' = w_log w /\
    length (w_provs w') = length (w_provs w) /\ forall a p, w_provs w !! a = Some p -> exists p', w_provs w' !! a = Some p' /\ pv_kind p' = pv_kind p /\ pv_trades p' = pv_trades p /\
      map th_job (pv_threads p') = map th_job (pv_threads p) /\ forall m, (a, m) <> (pid, k) -> pv_threads p' !! m = pv_threads p !! m).
Proof. exact (act_own rq s pid k th). Qed.
Print Assumptions C75_own.
(** A thread that is over, or that does not exist, does nothing. *)
Theorem C75_over {F} `{Num F} (rq : requests F) (s : lstate F) pid k : (forall th, thread_of (l_w s) pid k = Some th -> th_done th = true) -> act rq s pid k = s.
Proof. exact (act_over rq s pid k). Qed.
Print Assumptions C75_over.
(** Requests that assign one status and return are the providers of the other properties. *)
Theorem C75_statuses {F} `{Num F} (rq : requests F) (s : lstate F) pid k p th so sc : w_provs (l_w s) !! pid = Some p -> pv_threads p !! k = Some th -> th_done th = false ->
  pv_kind p = PCustom so sc \/ pv_kind p = PBacktests /\ so = CONFIRMED /\ sc = CONFIRMED ->
  (forall r, (pid, k, r) ∉ l_code s) -> (forall w, rq pid (th_job th) w = replies so sc (th_job th)) ->
  l_w (act rq (act rq s pid k) pid k) = run_thread (l_w s) pid k.
Proof. exact (answered rq s pid k p th so sc). Qed.
Print Assumptions C75_statuses.
(** A program that never lets a request go on does what it does in World.v, and leaves the requests where they are. *)
Theorem C75_idle {F} `{Num F} (rq : requests F) (pr : programs F) s o :
  lstep rq (lifted pr) s (LOp o) = ({| l_w := fst (step pr (l_w s) o); l_code := l_code s |}, snd (step pr (l_w s) o)).
Proof. exact (idle_step rq pr s o). Qed.
Print Assumptions C75_idle.
Theorem C75_idle_run {F} `{Num F} (rq : requests F) (pr : programs F) s l :
  lrun rq (lifted pr) s (map LOp l) = {| l_w := run pr (l_w s) l; l_code := l_code s |}.
Proof. exact (idle_run rq pr s l). Qed.
Print Assumptions C75_idle_run.

(** A price or a quantity other than the one ordered moves the result by exactly the difference. *)
Theorem C75_fill_price (t t' : trade Q) v : in_cents t -> cents v -> opening_set (TwPrice v) t t' ->
  (result t' == result t + sgn (tr_dir t) * (tr_ov t - v) * inject_Z (tr_oq t))%Q.
Proof. exact (fill_price t t' v). Qed.
Print Assumptions C75_fill_price.
Theorem C75_fill_quantity (t t' : trade Q) q : in_cents t -> opening_set (TwQuantity q) t t' ->
  (result t' == result t + sgn (tr_dir t) * (tr_cv t - tr_ov t) * (inject_Z q - inject_Z (tr_oq t)))%Q.
Proof. exact (fill_quantity t t' q). Qed.
Print Assumptions C75_fill_quantity.
Theorem C75_fill_close (t t' : trade Q) n c v : in_cents t -> cents v -> closing_set (TwPrice v) n t t' -> tr_closes t !! n = Some c ->
  (result t' == result t + sgn (tr_dir t) * (v - tc_value c) * inject_Z (tc_qty c))%Q.
Proof. exact (fill_close t t' n c v). Qed.
Print Assumptions C75_fill_close.
Theorem C75_fill_close_quantity (t t' : trade Q) n c q : in_cents t -> closing_set (TwQuantity q) n t t' -> tr_closes t !! n = Some c ->
  (result t' == result t + sgn (tr_dir t) * (tc_value c - tr_cv t) * (inject_Z q - inject_Z (tc_qty c)))%Q.
Proof. exact (fill_close_quantity t t' n c q). Qed.
Print Assumptions C75_fill_close_quantity.

(** A broker that fills half a point dearer, and buys again and fails at every close; the columns are quantity, closed, price, result, status. *)
Example C75_ex : modest_requests broker /\ sane_lprograms hasty /\ Forall sane_lop day /\
  sheet (lrun broker hasty empty_live day) = [(2, 1, 203#2, 5%Q, CONFIRMED); (2, 0, 211#2, (-3)%Q, CREATED); (1, 0, 211#2, -3#2, CREATED)] /\
  alive (lrun broker hasty empty_live day) = [[true; false; true; false]].
Proof.
  split; [exact broker_modest|]. split; [exact hasty_sane|]. split; [unfold day, shop, acts; cbn [map app]; repeat constructor; discriminate|].
  split; vm_compute; reflexivity.
Qed.
Example C75_ex_fills : careful_lprograms (filling 3) idle /\ careful_lops (filling 3) idle empty_live part /\
  sheet (lrun (filling 3) idle empty_live part) = [(3, 2, 101%Q, (-3)%Q, CREATED)].
Proof. split; [apply idle_careful|]. split; [exact part_careful|vm_compute; reflexivity]. Qed.

(** max_result is not revised when a request assigns the price: the result is above it. *)
Theorem C75_envelope_refuted : exists (rq : requests Q) l, modest_requests rq /\ Forall sane_lop l /\
  map (fun t => (Qred (result t), Qred (tr_max t))) (w_trades (l_w (lrun rq idle empty_live l))) = [(4%Q, (-2)%Q)].
Proof.
  exists better, (one_buy PBase 2 ++ acts [0; 0]%nat). split; [intros pid j w; simpl; auto|].
  split; [unfold one_buy, shop, acts; cbn [map app]; repeat constructor|vm_compute; reflexivity].
Qed.
Print Assumptions C75_envelope_refuted.
(** A trade the broker refused, or whose request failed, stays open: ticks revalue it and it counts in the result of its strategy. *)
Theorem C75_refused_refuted : exists (l : list (lop Q)), Forall sane_lop l /\
  (let s := lrun refusing idle empty_live l in sheet s = [(2, 0, 101%Q, 6%Q, REFUSED)] /\ gain s = 6%Q /\ alive s = [[true]]) /\
  (let s := lrun failing idle empty_live l in sheet s = [(2, 0, 101%Q, 6%Q, CREATED)] /\ gain s = 6%Q /\ alive s = [[true]]).
Proof.
  exists (one_buy PBase 2 ++ acts [0; 0]%nat ++ [quote 1600000001 (104#1) (105#1)]).
  split; [unfold one_buy, shop, acts; cbn [map app]; repeat constructor|]. repeat split; vm_compute; reflexivity.
Qed.
Print Assumptions C75_refused_refuted.
(** A broker that fills 2 of 5 when 4 are closed already: -2 are open, for ever. *)
Theorem C75_fill_refuted : exists (l : list (lop Q)), Forall sane_lop l /\ let s := lrun (filling 2) idle empty_live l in
  map (fun t => (tr_oq t, closed_quantities t, opened_quantities t, closed t)) (w_trades (l_w s)) = [(2, 4, -2, false)].
Proof.
  exists (one_buy PBase 5 ++ [api (CClose 0 (Some 4) "")] ++ acts [0; 0]%nat).
  split; [unfold one_buy, shop, acts; cbn [map app]; repeat constructor; discriminate|vm_compute; reflexivity].
Qed.
Print Assumptions C75_fill_refuted.
(** On a provider derived from TradeProviderBacktests, filling less of a close made by netting leaves the strategy with both directions. *)
Theorem C75_close_fill_refuted : exists (l : list (lop Q)), Forall sane_lop l /\ let s := lrun (closing 1) idle empty_live l in
  map (fun t => (tr_dir t, opened_quantities t, tr_strat t)) (w_trades (l_w s)) = [(BUY, 1, Some 0%nat); (SELL, 1, Some 0%nat)].
Proof.
  exists (one_buy PBacktests 2 ++ [api (COpen 0 (Dir SELL) 3 (Some 0%nat) "")] ++ acts [1]%nat).
  split; [unfold one_buy, shop, acts; cbn [map app]; repeat constructor|vm_compute; reflexivity].
Qed.
Print Assumptions C75_close_fill_refuted.
