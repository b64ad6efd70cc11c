(** Texts: dates of ticks, trades and reports, and the contents of the CSV files. *)
From Coq Require Import Ascii DecimalString.
From Verif Require Export Report.
Open Scope Z_scope.

(** A decimal digit; a number on two and on four digits (Python's ["{:02d}"] and ["{:04d}"] below 100 and 10000). *)
Definition digit (n : Z) : string := String (ascii_of_N (48 + Z.to_N n)) "".
Definition pad2 (n : Z) : string := (digit (n / 10) ++ digit (n mod 10))%string.
Definition pad4 (n : Z) : string := (pad2 (n / 100) ++ pad2 (n mod 100))%string.
(** [str(n)] *)
Definition int_text (n : Z) : string := NilZero.string_of_int (Z.to_int n).

(** The time of day "HH:mm:ss". *)
Definition time_text (w : Z) : string := (pad2 (w_hour w) ++ ":" ++ pad2 (w_minute w) ++ ":" ++ pad2 (w_second w))%string.
(** estrade/trade.py:99 [self.datetime.format("YYYY-MM-DD HH:mm:ss")] and estrade/reporting/csv.py:70
    [arrow.utcnow().format("YYYY-MM-DD_HH:mm:ss")] ([sep] is the character between date and time): arrow 0.17.0's
    formatter, from the wall clock. *)
Definition date_text (sep : ascii) (w : Z) : string :=
  (pad4 (w_year w) ++ "-" ++ pad2 (w_month w) ++ "-" ++ pad2 (w_day w) ++ String sep "" ++ time_text w)%string.
(** estrade/tick.py:150 and 169-171 [datetime.strftime("%Y-%m-%d %H:%M:%S")]: with glibc, [%Y] does not pad the year. *)
Definition strftime_text (w : Z) : string :=
  (int_text (w_year w) ++ "-" ++ pad2 (w_month w) ++ "-" ++ pad2 (w_day w) ++ " " ++ time_text w)%string.

(** csv.writer of CPython 3.6-3.8 (Modules/_csv.c, join_append_data), excel dialect: a field is quoted when it has a comma, a
    quote, a carriage return, a line feed or a NUL; quotes are doubled. *)
Definition CR : ascii := "013"%char.
Definition LF : ascii := "010"%char.
Definition QUOTE : ascii := """"%char.
Definition COMMA : ascii := ","%char.
Definition special (c : ascii) : bool :=
  Ascii.eqb c COMMA || Ascii.eqb c QUOTE || Ascii.eqb c CR || Ascii.eqb c LF || Ascii.eqb c "000"%char.
Fixpoint has_special (s : string) : bool := match s with EmptyString => false | String c s' => special c || has_special s' end.
Fixpoint doubled (s : string) : string :=
  match s with
  | EmptyString => EmptyString
  | String c s' => if Ascii.eqb c QUOTE then String QUOTE (String QUOTE (doubled s')) else String c (doubled s')
  end.
Definition csv_field (s : string) : string :=
  if has_special s then String QUOTE (doubled s ++ String QUOTE "") else s.
Fixpoint csv_fields (l : list string) : string :=
  match l with
  | [] => ""
  | [s] => csv_field s
  | s :: l' => (csv_field s ++ String COMMA (csv_fields l'))%string
  end.
(** csv_writerow: a row whose only field is empty is written as a quoted empty field; the terminator is CR LF. *)
Definition csv_row (l : list string) : string :=
  ((match l with [""] => String QUOTE (String QUOTE "") | _ => csv_fields l end) ++ String CR (String LF ""))%string.
Fixpoint csv_text (rows : list (list string)) : string :=
  match rows with [] => "" | r :: rows' => (csv_row r ++ csv_text rows')%string end.

(** [str] of an enum member, estrade/enums/__init__.py:4-37. *)
Definition status_text (s : status) : string :=
  ("TransactionStatus." ++ match s with CREATED => "CREATED" | REQUIRED => "REQUIRED" | PENDING => "PENDING" | CONFIRMED => "CONFIRMED"
                                   | CLOSED => "CLOSED" | REFUSED => "REFUSED" end)%string.
Definition dir_text (d : dir) : string := ("TradeDirection." ++ match d with BUY => "BUY" | SELL => "SELL" end)%string.

Section text.
  Context {F : Type} `{Num F}.
  (** [repr] of a float: any function. *)
  Variable ftext : F -> string.

  (** The fields of a row, converted by csv.writer ([repr] for floats, [str] for the rest). *)
  Definition trow_fields (r : trow (F:=F)) : list string :=
    [row_ref r; status_text (row_status r); row_epic r; row_strategy r; date_text " " (row_date r); dir_text (row_dir r);
     int_text (row_oq r); ftext (row_ov r); int_text (row_closed r); ftext (row_result r)].
  Definition srow_fields (r : srow (F:=F)) : list string :=
    [srow_ref r; int_text (srow_nb r); ftext (srow_result r); ftext (srow_pf r)].
  (** The text written by [dict_to_csv], csv.py:31-38. *)
  Definition file_text (f : file (F:=F)) : string :=
    match f with
    | FTrades headers rows => csv_text (headers :: map trow_fields rows)
    | FStrategies headers rows => csv_text (headers :: map srow_fields rows)
    | FOther s => s
    end.

  (** csv.py:70: the prefix of the file names, from the current instant. *)
  Definition report_stamp (now : Z) : string := date_text "_" (ar_wall (arrow_of_utc tz_UTC now)).

  (** tick.py:154-178 [asdict]; the date is a text when [datetime_to_str]. *)
  Inductive dateval := DText (s : string) | DArrow (a : arrow).
  Record tickdict := { td_datetime : dateval; td_bid : F; td_ask : F; td_spread : F; td_value : F }.
  Definition tick_asdict (datetime_to_str : bool) (t : tick F) : tickdict :=
    {| td_datetime := if datetime_to_str then DText (strftime_text (ar_wall (tk_dt t))) else DArrow (tk_dt t);
       td_bid := tk_bid t; td_ask := tk_ask t; td_spread := tk_spread t; td_value := tk_value t |}.
  (** tick.py:137-152 [__str__] *)
  Definition tick_str (t : tick F) : string :=
    (strftime_text (ar_wall (tk_dt t)) ++ " : " ++ ftext (tk_value t) ++ " (bid: " ++ ftext (tk_bid t) ++ ", ask: " ++ ftext (tk_ask t) ++
     ", spread: " ++ ftext (tk_spread t) ++ ")")%string.
  (** mixins/timed.py:43-51 [datetime_utc] *)
  Definition datetime_utc (a : arrow) : arrow := arrow_to tz_UTC a.
End text.
