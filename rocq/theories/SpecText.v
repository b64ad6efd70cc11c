(** A reader of CSV files (RFC 4180: fields separated by commas, records ended by CR LF, quoted fields with doubled quotes) and
    the number written by a text of digits. *)
From Coq Require Import Ascii.
From Verif Require Export Text SpecReport SpecCalendar.
Open Scope Z_scope.

Inductive rstate := Before | Plain | Quoted | AfterQuote.
(** [row]: the fields of the record read so far; [fld]: the characters of the field read so far. *)
Fixpoint reading (st : rstate) (row : list string) (fld : string) (s : string) : list (list string) :=
  match s with
  | EmptyString => match st, row with Before, [] => [] | _, _ => [row ++ [fld]] end
  | String c s' =>
      let add := String.append fld (String c "") in
      match st with
      | Quoted => if Ascii.eqb c """" then reading AfterQuote row fld s' else reading Quoted row add s'
      | _ =>
          if Ascii.eqb c "," then reading Before (row ++ [fld]) "" s'
          else if Ascii.eqb c """" then
            match st with
            | Before => reading Quoted row fld s'
            | AfterQuote => reading Quoted row add s'
            | _ => reading Plain row add s'
            end
          else if Ascii.eqb c "013" then
            match s' with
            | String d s'' => if Ascii.eqb d "010" then (match st, row with Before, [] => [] | _, _ => row ++ [fld] end) :: reading Before [] "" s''
                              else reading Plain row add s'
            | EmptyString => [row ++ [add]]
            end
          else reading Plain row add s'
      end
  end.
Definition read_csv (s : string) : list (list string) := reading Before [] "" s.

(** The number written by a text of decimal digits; None for other texts. *)
Definition digit_value (c : ascii) : option Z :=
  let n := Z.of_N (N_of_ascii c) in if (48 <=? n) && (n <=? 57) then Some (n - 48) else None.
Fixpoint digits (acc : Z) (s : string) : option Z :=
  match s with
  | EmptyString => Some acc
  | String c s' => match digit_value c with Some d => digits (10 * acc + d) s' | None => None end
  end.
Definition decimal (s : string) : option Z := match s with EmptyString => None | _ => digits 0 s end.
(** The integer written by a text, with an optional minus sign. *)
Definition integer (s : string) : option Z :=
  match s with
  | String c s' => if Ascii.eqb c "-" then option_map Z.opp (decimal s') else decimal s
  | EmptyString => None
  end.

(** [txt] reads "year-month-day", a separator, "hour:minute:second", on 4, 2, 2 and 2, 2, 2 digits. *)
Definition reads_date (sep : ascii) (txt : string) (y mo d h mi s : Z) : Prop := exists ty tm td th tmi ts,
  txt = (ty ++ "-" ++ tm ++ "-" ++ td ++ String sep "" ++ th ++ ":" ++ tmi ++ ":" ++ ts)%string /\
  String.length ty = 4%nat /\ Forall (fun x => String.length x = 2%nat) [tm; td; th; tmi; ts] /\
  decimal ty = Some y /\ decimal tm = Some mo /\ decimal td = Some d /\ decimal th = Some h /\ decimal tmi = Some mi /\ decimal ts = Some s.

(** A wall clock (microseconds since 1970) that Python can represent: years 1 to 9999. *)
Definition representable (w : Z) : Prop := exists y mo d, date_of (w / (86400 * 1000000)) (y, mo, d) /\ 1 <= y <= 9999.
(** [txt] shows the wall clock [w] to the second. *)
Definition shows (sep : ascii) (txt : string) (w : Z) : Prop := exists y mo d h mi s, reads_date sep txt y mo d h mi s /\
  date_of (w / (86400 * 1000000)) (y, mo, d) /\ (w / 1000000) mod 86400 = h * 3600 + mi * 60 + s /\ 0 <= mi < 60 /\ 0 <= s < 60.

Section spec.
  Context {F : Type} `{Num F}.
  (** The texts of the row of trade [i]. *)
  Definition trade_texts (ftext : F -> string) (w : world F) (i : nat) (l : list string) : Prop := exists t e date oq cq,
    w_trades w !! i = Some t /\ w_epics w !! tr_epic t = Some e /\
    l = [tr_ref t; status_text (tr_status t); ep_ref e;
         match tr_strat t with None => "undefined"%string | Some sid => match w_strats w !! sid with Some s => st_ref s | None => ""%string end end;
         date; dir_text (tr_dir t); oq; ftext (tr_ov t); cq; ftext (result t)] /\
    shows " " date (ar_wall (tr_dt t)) /\
    integer oq = Some (tr_oq t) /\ integer cq = Some (total (map tc_qty (tr_closes t))).
  (** The texts of the row of strategy [sid]. *)
  Definition strategy_texts (ftext : F -> string) (w : world F) (sid : nat) (l : list string) : Prop := exists s nb pf,
    w_strats w !! sid = Some s /\ l = [st_ref s; nb; ftext (strategy_result w s TNone); ftext pf] /\
    integer nb = Some (Z.of_nat (length (st_trades s))) /\ profit_factor w s TNone = Ok pf.
End spec.

(** The words of a line: its parts between spaces. [wd]: the characters of the word read so far. *)
Fixpoint line_words_from (wd : string) (s : string) : list string :=
  match s with
  | EmptyString => [wd]
  | String c s' => if Ascii.eqb c " " then wd :: line_words_from "" s' else line_words_from (String.append wd (String c "")) s'
  end.
Definition line_words (s : string) : list string := line_words_from "" s.
(** A text without spaces. *)
Fixpoint one_word (s : string) : bool := match s with EmptyString => true | String c s' => negb (Ascii.eqb c " ") && one_word s' end.
