(** estrade/reporting/csv.py *)
From Verif Require Export World.

Section report.
  Context {F : Type} `{Num F}.

  (** trade.py:93-106 [Trade.asdict]: the row of a trade (one field per key, in key order);
      [open_date] is the wall-clock value that is formatted. *)
  Record trow := {
    row_ref : string; row_status : status; row_epic : string; row_strategy : string; row_date : Z;
    row_dir : dir; row_oq : Z; row_ov : F; row_closed : Z; row_result : F }.
  Definition trade_keys : list string :=
    ["ref"; "status"; "epic"; "strategy"; "open_date"; "direction"; "open_quantity"; "open_value";
     "closed_quantities"; "result"]%string.
  Definition asdict (w : world F) (t : trade F) : res trow :=
    let! e := of_option Dangling (w_epics w !! tr_epic t) in
    let! s := match tr_strat t with
              | None => Ok "undefined"%string
              | Some i => rmap st_ref (of_option Dangling (w_strats w !! i))
              end in
    Ok {| row_ref := tr_ref t; row_status := tr_status t; row_epic := ep_ref e; row_strategy := s;
          row_date := ar_wall (tr_dt t); row_dir := tr_dir t; row_oq := tr_oq t; row_ov := tr_ov t;
          row_closed := closed_quantities t; row_result := result t |}.

  (** csv.py:75-82: the row of a strategy. *)
  Record srow := { srow_ref : string; srow_nb : Z; srow_result : F; srow_pf : F }.
  Definition strategy_keys : list string := ["ref"; "nb_trades"; "result"; "profit_factor"]%string.

  (** A written file: header and rows (the text encoding of csv.DictWriter is not modelled).
      [FOther] is a file that existed before with unknown content. *)
  Inductive file := FTrades (headers : list string) (rows : list trow)
                  | FStrategies (headers : list string) (rows : list srow)
                  | FOther (content : string).
  (** The files of the target folder (which is created when missing, csv.py:19-20). *)
  Definition folder := dict file.

  (** csv.py:16-38 [open_file] and [dict_to_csv]: an existing file is opened for appending and
      nothing is written to it. *)
  Definition dict_to_csv (d : folder) (filename : string) (f : file) : folder :=
    match dict_get d filename with
    | Some _ => d
    | None => dict_set d filename f
    end.

  Fixpoint rmapM {A B} (f : A -> res B) (l : list A) : res (list B) :=
    match l with
    | [] => Ok []
    | x :: l' => let! y := f x in let! ys := rmapM f l' in Ok (y :: ys)
    end.

  (** csv.py:84 and 102: file names; [dt] is the formatted current time (an oracle). *)
  Definition trades_file (dt ref : string) : string := (dt ++ "_" ++ ref ++ "_trades.csv")%string.
  Definition strategies_file (dt : string) : string := (dt ++ "_strategies.csv")%string.

  (** csv.py:73-98: one strategy of the loop. *)
  Definition report_strategy (w : world F) (dt : string) (details : bool) (acc : folder * list srow) (sid : nat)
      : (folder * list srow) * res unit :=
    match w_strats w !! sid with
    | None => (acc, Err Dangling)
    | Some s =>
        let ids := get_trades w s None false None in
        match profit_factor w s TNone with
        | Err e => (acc, Err e)
        | Ok pf =>
            let row := {| srow_ref := st_ref s; srow_nb := Z.of_nat (length ids);
                          srow_result := strategy_result w s TNone; srow_pf := pf |} in
            let rows := snd acc ++ [row] in
            if details then
              match rmapM (fun i => let! t := of_option Dangling (w_trades w !! i) in asdict w t) ids with
              | Err e => ((fst acc, rows), Err e)
              | Ok trs =>
                  let headers := match trs with [] => [] | _ => trade_keys end in
                  ((dict_to_csv (fst acc) (trades_file dt (st_ref s)) (FTrades headers trs), rows), Ok ())
              end
            else ((fst acc, rows), Ok ())
        end
    end.

  (** csv.py:52-105 [ReportingCSV.report] *)
  Definition report (w : world F) (dt : string) (strategies : list nat) (details : bool) (d : folder)
      : folder * res unit :=
    match forM (report_strategy w dt details) (d, []) strategies with
    | ((d', rows), Ok _) => (dict_to_csv d' (strategies_file dt) (FStrategies strategy_keys rows), Ok ())
    | ((d', _), Err e) => (d', Err e)
    end.
End report.
