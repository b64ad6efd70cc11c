(** Concrete reports. *)
From Verif Require Export ReportProofs RefProofs EpicExamples.
Open Scope Z_scope.

(** References of the trades shown in a folder. *)
Definition shown (d : folder (F:=Q)) : list string :=
  flat_map (fun x => match x.2 with FTrades _ rows => map row_ref rows | _ => [] end) d.
Lemma shown_row d n h rows r : dict_get d n = Some (FTrades h rows) -> r ∈ rows -> row_ref r ∈ shown d.
Proof.
  intros Hg Hr. apply EpicMoreProofs.dict_get_elem in Hg. apply elem_of_list_In, in_flat_map. exists (n, FTrades h rows). split; [now apply elem_of_list_In|].
  apply in_map. now apply elem_of_list_In.
Qed.
Definition lost (d : folder (F:=Q)) (ref : string) : Prop := forall n h rows r, dict_get d n = Some (FTrades h rows) -> r ∈ rows -> row_ref r <> ref.
Lemma lost_check d ref : bool_decide (ref ∈ shown d) = false -> lost d ref.
Proof. intros Hb n h rows r Hg Hr <-. apply bool_decide_eq_false in Hb. apply Hb. eapply shown_row; eauto. Qed.

Definition trade_of (w : world Q) (k : nat) : trade Q := nth k (w_trades w) (trade_init BUY 1 0%Q (dt_s 0) 0 None None "").
Lemma trade_of_lookup w k : (k < length (w_trades w))%nat -> w_trades w !! k = Some (trade_of w k).
Proof. intros Hk. destruct (lookup_lt_is_Some_2 _ _ Hk) as [s Hs]. rewrite Hs. unfold trade_of. f_equal. symmetry. now apply nth_lookup_Some. Qed.

Definition open_as (eid : nat) (q : Z) (s : nat) (ref : string) : op Q := OCmd (COpen eid (Dir BUY) q (Some s) ref).
(** Strategy 0 has three trades, strategy 1 one trade, strategy 2 (same reference as strategy 0) one. *)
Definition ops45 : list (op Q) :=
  [open_as 0 5 0 "t0"; OTick 0 (tk_s 1600000060 (104#1) (105#1)); OCmd (CClose 0 (Some 2) ""); open_as 1 4 1 "t1";
   open_as 0 2 0 "t2"; ONewStrategy "s0"; open_as 1 1 2 "t3"; OTick 0 (tk_s 1600000120 (102#1) (103#1)); open_as 0 1 0 "t4"].
Definition w45 : world Q := world_of ops45.

Definition trow_data (r : trow (F:=Q)) := (row_ref r, row_epic r, row_strategy r, row_date r / 1000000, row_oq r, row_closed r, (Qred (row_ov r), Qred (row_result r))).
Definition srow_data (r : srow (F:=Q)) := (srow_ref r, srow_nb r, Qred (srow_result r), Qred (srow_pf r)).
Definition file_data (f : file (F:=Q)) := match f with FTrades h rows => (h, map trow_data rows, []) | FStrategies h rows => (h, [], map srow_data rows) | FOther s => ([s], [], []) end.
