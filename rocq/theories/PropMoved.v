(** Property C74 (the whole program): a backtest does the same at other dates. *)
From Verif Require Import MovedExamples MovedFloat.
From Verif Require Import SpecMoved.
From Coq Require Import QArith.
Open Scope Z_scope.

(** C74: a program whose ticks, holidays, pauses and dates of closings are all moved by a whole number of weeks - by whole periods of 400 years
    when it has frame sets of months or years, which are multiples of q years if it has frames of q years - goes through the same states but for the dates, which are moved, and ends every operation the same way.
    Strategies may read anything, charts and dates included, as long as they make the same calls (moved) in such states. *)
Theorem C74_moved : forall {F} `{Num F} d (pr pr' : programs F) l l', whole_weeks d -> programs_moved d pr pr' -> ops_moved d pr empty_world l l' ->
  charts_fine pr empty_world l -> charts_fine pr' empty_world l' ->
  world_moved d (run pr empty_world l) (run pr' empty_world l') /\ endings pr' empty_world l' = endings pr empty_world l.
Proof. exact @run_moved. Qed.
Print Assumptions C74_moved.
(** With built-in indicators and dates far enough from the ends of the calendar nothing more is needed (C71). *)
Theorem C74_plain : forall d N zone cls N' zone' cls' (pr pr' : programs Q) l l', whole_weeks d -> programs_moved d pr pr' -> ops_moved d pr empty_world l l' ->
  1 <= N -> (forall f, resolves_forward (zone f)) -> plain_charts N zone cls any_quote any_number pr empty_world l ->
  1 <= N' -> (forall f, resolves_forward (zone' f)) -> plain_charts N' zone' cls' any_quote any_number pr' empty_world l' ->
  world_moved d (run pr empty_world l) (run pr' empty_world l') /\ endings pr' empty_world l' = endings pr empty_world l.
Proof. exact plain_moved. Qed.
Print Assumptions C74_plain.
Theorem C74_plain_b64 : forall d N zone cls N' zone' cls' (pr pr' : programs b64) l l', whole_weeks d -> programs_moved d pr pr' -> ops_moved d pr empty_world l l' ->
  1 <= N -> (forall f, resolves_forward (zone f)) -> plain_charts N zone cls (quotes_within 800) (fun n => n < 2 ^ 53) pr empty_world l ->
  1 <= N' -> (forall f, resolves_forward (zone' f)) -> plain_charts N' zone' cls' (quotes_within 800) (fun n => n < 2 ^ 53) pr' empty_world l' ->
  world_moved d (run pr empty_world l) (run pr' empty_world l') /\ endings pr' empty_world l' = endings pr empty_world l.
Proof. exact plain_moved_b64. Qed.
Print Assumptions C74_plain_b64.
(** Trades and strategies have the same results. *)
Theorem C74_trade : forall {F} `{Num F} d (t t' : trade F), trade_moved d t t' ->
  result t' = result t /\ opened_result t' = opened_result t /\ closed_result t' = closed_result t /\ opened_quantities t' = opened_quantities t /\ closed t' = closed t /\
  result_avg t' = result_avg t /\ closed_result_avg t' = closed_result_avg t /\ opened_result_avg t' = opened_result_avg t.
Proof. exact @moved_result. Qed.
Print Assumptions C74_trade.
Theorem C74_strategy : forall {F} `{Num F} d (w w' : world F) s s' a, world_moved d w w' -> strategy_moved d s s' ->
  strategy_result w' s' a = strategy_result w s a /\ profit_factor w' s' a = profit_factor w s a.
Proof. exact @moved_strategy. Qed.
Print Assumptions C74_strategy.
(** The same frames and values of indicators are found by reference and offset, and candles, averages and pivots are the same. *)
Theorem C74_lookup : forall {F} `{Num F} d (w w' : world F) e e' ref i n, world_moved d w w' -> epic_moved d e e' ->
  get_frame w' e' ref n = get_frame w e ref n /\
  match get_indicator_value w e ref i n, get_indicator_value w' e' ref i n with Ok x, Ok y => opt_moved (value_moved d) x y | Err x, Err y => x = y | _, _ => False end.
Proof. exact @lookup_moved. Qed.
Print Assumptions C74_lookup.
Theorem C74_values : forall {F} `{Num F} d (s s' : fset F) f f' v v', fset_moved d s s' -> frame_moved d f f' -> value_moved d v v' -> let h := fs_heap s in let h' := fs_heap s' in
  c_open h' f' v' = c_open h f v /\ c_high h' f' v' = c_high h f v /\ c_low h' f' v' = c_low h f v /\ c_close f' v' = c_close f v /\ candle_last v' = candle_last v /\
  (forall l p, sma_value f' l p = sma_value f l p) /\ pivot h' f' v' = pivot h f v /\ support1 h' f' v' = support1 h f v /\ support2 h' f' v' = support2 h f v /\ support3 h' f' v' = support3 h f v /\
  resistance1 h' f' v' = resistance1 h f v /\ resistance2 h' f' v' = resistance2 h f v /\ resistance3 h' f' v' = resistance3 h f v.
Proof. exact @values_moved. Qed.
Print Assumptions C74_values.
(** Time zones without daylight saving time are always the same as themselves moved. *)
Theorem C74_zones : forall d, zone_moved d tz_UTC tz_UTC /\ forall i off, zone_moved d (tz_fixed i off) (tz_fixed i off).
Proof. exact zones_moved. Qed.
Print Assumptions C74_zones.

Ltac same_ops := apply qm_cons; [first [apply pm_same; exact I|apply pm_epic, zone_utc|apply pm_fset; first [exact I|exists 1; reflexivity]|apply pm_ind; exact I|
  apply pm_tick; [apply tk_s_moved|intros x Hx; assert (ep_tz x = tz_UTC) as -> by (apply (f_equal (option_map ep_tz)) in Hx; vm_compute in Hx; injection Hx as Hx; exact (eq_sym Hx)); repeat split; vm_compute; discriminate]]|].
(** A strategy that reads the candles and pauses, on days a week later and on months 400 years later. *)
Example C74_ex : whole_weeks (7 * US_DAY) /\ programs_moved (7 * US_DAY) chaser chaser /\ ops_moved (7 * US_DAY) chaser empty_world (history 0 DAY) (history 7 DAY) /\
  charts_fine chaser empty_world (history 0 DAY) /\ charts_fine chaser empty_world (history 7 DAY) /\
  map (fun t => Qred (result t)) (w_trades (run chaser empty_world (history 0 DAY))) = [(6#1); (5#1); (3#1); (2#1); (1#1); 0]%Q /\
  map (fun t => ar_utc (tr_dt t)) (w_trades (run chaser empty_world (history 7 DAY))) = map (fun t => ar_utc (tr_dt t) + 7 * US_DAY) (w_trades (run chaser empty_world (history 0 DAY))).
Proof.
  split; [exists 1; reflexivity|]. split; [apply chaser_moved|]. split; [unfold history; cbv [app imap compose fst snd]; repeat same_ops; apply qm_nil|].
  split; [repeat (split; [first [exact I|vm_compute; reflexivity]|]); exact I|]. split; [repeat (split; [first [exact I|vm_compute; reflexivity]|]); exact I|]. split; vm_compute; reflexivity.
Qed.
Example C74_ex_months : whole_weeks (146097 * US_DAY) /\ ops_moved (146097 * US_DAY) chaser empty_world (history 0 MONTH) (history 146097 MONTH) /\
  charts_fine chaser empty_world (history 0 MONTH) /\ charts_fine chaser empty_world (history 146097 MONTH) /\ length (w_trades (run chaser empty_world (history 0 MONTH))) = 7%nat.
Proof.
  split; [exists 20871; reflexivity|]. split; [unfold history; cbv [app imap compose fst snd]; repeat same_ops; apply qm_nil|].
  split; [repeat (split; [first [exact I|vm_compute; reflexivity]|]); exact I|]. split; [repeat (split; [first [exact I|vm_compute; reflexivity]|]); exact I|]. vm_compute; reflexivity.
Qed.

(** Moved by days that are not whole weeks, the same quotes fall on a weekend: other trades. *)
Theorem C74_days_refuted : exists (l l' : list (op Q)), l = history 0 DAY /\ l' = history 5 DAY /\
  length (w_trades (run chaser empty_world l)) = 6%nat /\ length (w_trades (run chaser empty_world l')) = 3%nat.
Proof. exists (history 0 DAY), (history 5 DAY). split; [reflexivity|]. split; [reflexivity|]. split; vm_compute; reflexivity. Qed.
(** Frames of months moved by whole weeks: one frame becomes two. *)
Theorem C74_months_refuted : exists (l l' : list (op Q)), l = history 0 MONTH /\ l' = history 84 MONTH /\ whole_weeks (84 * US_DAY) /\
  map (fun f => length (fs_heap f)) (w_fsets (run chaser empty_world l)) = [1%nat] /\ map (fun f => length (fs_heap f)) (w_fsets (run chaser empty_world l')) = [2%nat].
Proof. exists (history 0 MONTH), (history 84 MONTH). split; [reflexivity|]. split; [reflexivity|]. split; [exists 12; reflexivity|]. split; vm_compute; reflexivity. Qed.
