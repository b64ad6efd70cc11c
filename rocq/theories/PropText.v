(** C59 and C60: the texts of dates and of the CSV reports. *)
From Coq Require Import Ascii.
From Verif Require Import NumQProofs TightenMoreProofs ReportTextProofs TickTextProofs ReportExamples.
Open Scope Z_scope.

(** C59: the date written for a trade (and in the names of the reports) is the date and time on the wall clock, to the second. *)
Theorem C59_shows : forall sep w, representable w -> shows sep (date_text sep w) w.
Proof. exact date_text_shows. Qed.
Print Assumptions C59_shows.
(** A text shows one second only. *)
Theorem C59_one_second : forall sep txt a b, shows sep txt a -> shows sep txt b -> a / 1000000 = b / 1000000.
Proof. exact shows_second. Qed.
Print Assumptions C59_one_second.
(** Sorting the texts sorts the wall clocks (to the second). *)
Theorem C59_order : forall sep a b, representable a -> representable b -> String.compare (date_text sep a) (date_text sep b) = (a / 1000000 ?= b / 1000000).
Proof. exact cmp_dates. Qed.
Print Assumptions C59_order.
(** [datetime_utc] is the same instant, and the order of its texts is the order of the instants. *)
Theorem C59_utc : forall a b, representable (ar_utc a) -> representable (ar_utc b) ->
  ar_utc (datetime_utc a) = ar_utc a /\
  String.compare (date_text " " (ar_wall (datetime_utc a))) (date_text " " (ar_wall (datetime_utc b))) = (ar_utc a / 1000000 ?= ar_utc b / 1000000).
Proof. exact utc_text. Qed.
Print Assumptions C59_utc.
(** [Tick.asdict(datetime_to_str=True)], from the year 1000 on. *)
Theorem C59_tick : forall {F} `{Num F} (t : tick F), representable (ar_wall (tk_dt t)) -> 1000 <= w_year (ar_wall (tk_dt t)) ->
  exists txt, td_datetime (tick_asdict true t) = DText txt /\ shows " " txt (ar_wall (tk_dt t)).
Proof. exact @tick_date_text. Qed.
Print Assumptions C59_tick.
(** The prices it shows: the quotes, their exact difference and a value between them, for quotes in cents. *)
Theorem C59_tick_prices : forall b (t : tick Q), (tk_bid t <= tk_ask t)%Q -> cents (tk_bid t) -> cents (tk_ask t) ->
  td_bid (tick_asdict b t) = tk_bid t /\ td_ask (tick_asdict b t) = tk_ask t /\ (td_spread (tick_asdict b t) == tk_ask t - tk_bid t)%Q /\
  (tk_bid t <= td_value (tick_asdict b t) <= tk_ask t)%Q.
Proof. exact dict_prices. Qed.
Print Assumptions C59_tick_prices.
(** [str(tick)], logged for every tick: ten words, with the date, the mid value, the quotes and the spread ([ftext]: the text of a float). *)
Theorem C59_line : forall {F} `{Num F} (ftext : F -> string) (t : tick F), representable (ar_wall (tk_dt t)) -> 1000 <= w_year (ar_wall (tk_dt t)) ->
  (forall x, In x [tk_value t; tk_bid t; tk_ask t; tk_spread t] -> one_word (ftext x) = true) ->
  exists d h, line_words (tick_str ftext t) = [d; h; ":"; ftext (tk_value t); "(bid:"; ftext (tk_bid t) ++ ","; "ask:"; ftext (tk_ask t) ++ ","; "spread:";
      ftext (tk_spread t) ++ ")"]%string /\ shows " " (d ++ " " ++ h) (ar_wall (tk_dt t)).
Proof. exact @tick_line. Qed.
Print Assumptions C59_line.
(** Sorting these lines sorts the ticks by their wall clocks. *)
Theorem C59_line_order : forall {F} `{Num F} (ftext : F -> string) (t t' : tick F), representable (ar_wall (tk_dt t)) -> representable (ar_wall (tk_dt t')) ->
  1000 <= w_year (ar_wall (tk_dt t)) -> 1000 <= w_year (ar_wall (tk_dt t')) -> ar_wall (tk_dt t) / 1000000 < ar_wall (tk_dt t') / 1000000 ->
  String.compare (tick_str ftext t) (tick_str ftext t') = Lt.
Proof. exact @tick_line_order. Qed.
Print Assumptions C59_line_order.
(** A report leaves alone every file that a report of another second may write: nothing of the second one is dropped (C45). *)
Theorem C59_file_names : forall {F} `{Num F} (w : world F) now now' sids details d d' r n rest, representable now -> representable now' ->
  now / 1000000 <> now' / 1000000 -> report w (report_stamp now) sids details d = (d', r) -> n = (report_stamp now' ++ rest)%string ->
  dict_get d' n = dict_get d n.
Proof. exact @report_names. Qed.
Print Assumptions C59_file_names.

(** 2020-10-25T02:59:59.5 *)
Example C59_ex : representable 1603594799500000 /\ date_text " " 1603594799500000 = "2020-10-25 02:59:59"%string /\
  strftime_text 1603594799500000 = "2020-10-25 02:59:59"%string /\ 1000 <= w_year 1603594799500000 /\
  fst (report w45 (report_stamp 1603594799500000) [1]%nat false []) !! 0%nat ≫= (fun x => Some (fst x)) = Some "2020-10-25_02:59:59_strategies.csv"%string.
Proof. split; [apply representable_year; vm_compute; split; discriminate|]. split; [vm_compute; reflexivity|]. split; [vm_compute; reflexivity|].
  split; [vm_compute; discriminate|]. vm_compute. reflexivity. Qed.

Definition qtext (x : Q) : string := int_text (Qfloor x).
Example C59_ex_line : let t := {| tk_dt := arrow_of_utc tz_UTC 1603594799500000; tk_bid := 999%Q; tk_ask := 1001%Q |} in
  representable (ar_wall (tk_dt t)) /\ 1000 <= w_year (ar_wall (tk_dt t)) /\
  forallb (fun x => one_word (qtext x)) [tk_value t; tk_bid t; tk_ask t; tk_spread t] = true /\
  tick_str qtext t = "2020-10-25 02:59:59 : 1000 (bid: 999, ask: 1001, spread: 2)"%string.
Proof. split; [apply representable_year; vm_compute; split; discriminate|]. split; [vm_compute; discriminate|]. split; vm_compute; reflexivity. Qed.

(** Before the year 1000 [Tick.asdict] does not pad the year: the texts do not sort like the dates. *)
Theorem C59_tick_year_refuted : exists a b, representable a /\ representable b /\ a / 1000000 < b / 1000000 /\ String.compare (strftime_text a) (strftime_text b) = Gt.
Proof.
  exists (w_of_date 999 12 31), (w_of_date 1000 1 1). split; [apply representable_year; vm_compute; split; discriminate|].
  split; [apply representable_year; vm_compute; split; discriminate|]. split; vm_compute; reflexivity.
Qed.
Print Assumptions C59_tick_year_refuted.
(** When clocks go back, the dates of the rows do not sort like the instants. *)
Theorem C59_clock_back_refuted : exists z a b, a / 1000000 < b / 1000000 /\
  String.compare (date_text " " (ar_wall (arrow_of_utc z a))) (date_text " " (ar_wall (arrow_of_utc z b))) = Gt.
Proof. exists tz_fall, (1603587540 * 1000000), (1603587660 * 1000000). split; vm_compute; reflexivity. Qed.
Print Assumptions C59_clock_back_refuted.

(** C60: the text written for a list of rows, whatever the fields (commas, quotes, line ends), reads back as these rows. *)
Theorem C60_reads_back : forall rows, read_csv (csv_text rows) = rows.
Proof. exact csv_reads. Qed.
Print Assumptions C60_reads_back.
(** The files of a report, read back, show every strategy and every trade; [ftext] is the text of a float. *)
Theorem C60_report : forall {F} `{Num F} (ftext : F -> string) P (w : world F) dt (details : bool) sids d d', reach P w ->
  (forall i t, w_trades w !! i = Some t -> representable (ar_wall (tr_dt t))) -> report w dt sids details d = (d', Ok ()) ->
  (dict_get d (dt ++ "_strategies.csv")%string = None ->
     exists f rows, dict_get d' (dt ++ "_strategies.csv")%string = Some f /\ read_csv (file_text ftext f) = strategy_columns :: rows /\
       Forall2 (strategy_texts ftext w) sids rows) /\
  (details = true -> forall k sid s, sids !! k = Some sid -> w_strats w !! sid = Some s -> dict_get d (dt ++ "_" ++ st_ref s ++ "_trades.csv")%string = None ->
     (forall k' sid', (k' < k)%nat -> sids !! k' = Some sid' -> ~ has_ref w sid' (st_ref s)) ->
     exists f rows, dict_get d' (dt ++ "_" ++ st_ref s ++ "_trades.csv")%string = Some f /\
       read_csv (file_text ftext f) = (match st_trades s with [] => [] | _ => trade_columns end) :: rows /\
       Forall2 (trade_texts ftext w) (reverse (st_trades s)) rows).
Proof. exact @report_texts. Qed.
Print Assumptions C60_report.
(** A row determines the figures of its trade. *)
Theorem C60_determines : forall {F} `{Num F} (ftext : F -> string) (w w' : world F) i j l t t', trade_texts ftext w i l -> trade_texts ftext w' j l ->
  w_trades w !! i = Some t -> w_trades w' !! j = Some t' ->
  tr_ref t = tr_ref t' /\ tr_status t = tr_status t' /\ tr_dir t = tr_dir t' /\ tr_oq t = tr_oq t' /\
  total (map tc_qty (tr_closes t)) = total (map tc_qty (tr_closes t')) /\ ar_wall (tr_dt t) / 1000000 = ar_wall (tr_dt t') / 1000000 /\
  ftext (tr_ov t) = ftext (tr_ov t') /\ ftext (result t) = ftext (result t').
Proof. exact @texts_determine. Qed.
Print Assumptions C60_determines.

(** A reference with a comma and quotes. *)
Example C60_ex_fields : csv_text [["ref"; "n"]; ["a,""b"""; "-12"]; [""]]%string =
  ("ref,n" ++ String CR (String LF """a,""""b"""""",-12") ++ String CR (String LF """""") ++ String CR (String LF ""))%string.
Proof. vm_compute. reflexivity. Qed.
Example C60_ex : reach sane_call w45 /\ forallb (fun t => (1 <=? w_year (ar_wall (tr_dt t))) && (w_year (ar_wall (tr_dt t)) <=? 9999)) (w_trades w45) = true /\
  snd (report w45 "D" [1; 0]%nat true []) = Ok () /\
  map (fun x => read_csv (file_text qtext x.2)) (take 1 (fst (report w45 "D" [1; 0]%nat true []))) =
    [[trade_columns; ["t1"; "TransactionStatus.CREATED"; "B"; "s1"; "2020-09-13 12:26:40"; "TradeDirection.BUY"; "4"; "201"; "0"; "-396"]%string]].
Proof. split; [apply world_of_reach; ops_ok|]. split; [vm_compute; reflexivity|]. split; vm_compute; reflexivity. Qed.
