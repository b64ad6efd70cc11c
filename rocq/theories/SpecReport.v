(** Vocabulary of the properties of the CSV reports and of references. *)
From Coq Require Import Ascii String.
From Verif Require Export Report SpecTrade SpecWorld.
Open Scope Z_scope.

Section spec.
  Context {F : Type} `{Num F}.
  (** [r] shows the figures of trade [i]. *)
  Definition trade_row (w : world F) (i : nat) (r : trow (F:=F)) : Prop := exists t e,
    w_trades w !! i = Some t /\ w_epics w !! tr_epic t = Some e /\
    row_ref r = tr_ref t /\ row_status r = tr_status t /\ row_epic r = ep_ref e /\
    (tr_strat t = None -> row_strategy r = "undefined"%string) /\
    (forall sid s, tr_strat t = Some sid -> w_strats w !! sid = Some s -> row_strategy r = st_ref s) /\
    row_date r = ar_wall (tr_dt t) /\ row_dir r = tr_dir t /\ row_oq r = tr_oq t /\ row_ov r = tr_ov t /\
    row_closed r = total (map tc_qty (tr_closes t)) /\ row_result r = result t.
  (** [r] shows the figures of strategy [sid]. *)
  Definition strategy_row (w : world F) (sid : nat) (r : srow (F:=F)) : Prop := exists s,
    w_strats w !! sid = Some s /\ srow_ref r = st_ref s /\ srow_nb r = Z.of_nat (length (st_trades s)) /\
    srow_result r = strategy_result w s TNone /\ profit_factor w s TNone = Ok (srow_pf r).
  (** The reference of a strategy. *)
  Definition has_ref (w : world F) (sid : nat) (ref : string) : Prop := exists s, w_strats w !! sid = Some s /\ st_ref s = ref.
  (** The columns of the two kinds of files. *)
  Definition trade_columns : list string :=
    ["ref"; "status"; "epic"; "strategy"; "open_date"; "direction"; "open_quantity"; "open_value"; "closed_quantities"; "result"]%string.
  Definition strategy_columns : list string := ["ref"; "nb_trades"; "result"; "profit_factor"]%string.
End spec.

(** Hexadecimal digits, as printed by str(uuid4()). *)
Definition hex_digits : list ascii :=
  ["0"; "1"; "2"; "3"; "4"; "5"; "6"; "7"; "8"; "9"; "a"; "b"; "c"; "d"; "e"; "f"]%char.
(** The text of a UUID begins with 8 hexadecimal digits. *)
Definition uuid_text (s : string) : Prop := exists l rest, s = (string_of_list_ascii l ++ rest)%string /\ length l = 8%nat /\ Forall (fun c => c ∈ hex_digits) l.
