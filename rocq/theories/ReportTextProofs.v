(** The text of the reports. *)
From Coq Require Import Ascii.
From Verif Require Import ReportProofs LedgerProofs CalendarProofs.
From Verif Require Export CsvProofs DateTextProofs.
Open Scope Z_scope.

Lemma date_text_iff sep a b : representable a -> representable b -> (date_text sep a = date_text sep b <-> a / 1000000 = b / 1000000).
Proof. intros Ha Hb. split; [now apply date_text_inj|apply date_text_second]. Qed.
Lemma status_text_inj a b : status_text a = status_text b -> a = b.
Proof. destruct a, b; intros E; try reflexivity; discriminate E. Qed.
Lemma dir_text_inj a b : dir_text a = dir_text b -> a = b.
Proof. destruct a, b; intros E; try reflexivity; discriminate E. Qed.

(** A text shows one second only. *)
Lemma reads_date_fun sep txt y mo d h mi s y' mo' d' h' mi' s' : reads_date sep txt y mo d h mi s -> reads_date sep txt y' mo' d' h' mi' s' ->
  (y, mo, d, h, mi, s) = (y', mo', d', h', mi', s').
Proof.
  intros (a1 & a2 & a3 & a4 & a5 & a6 & E & L & Ls & A1 & A2 & A3 & A4 & A5 & A6) (b1 & b2 & b3 & b4 & b5 & b6 & E' & L' & Ls' & B1 & B2 & B3 & B4 & B5 & B6).
  rewrite !Forall_cons in Ls, Ls'. destruct Ls as (L2 & L3 & L4 & L5 & L6 & _). destruct Ls' as (L2' & L3' & L4' & L5' & L6' & _).
  rewrite E in E'. clear E. apply append_split in E' as [E1 E]; [|congruence]. apply append_inj_l in E. apply append_split in E as [E2 E]; [|congruence].
  apply append_inj_l in E. apply append_split in E as [E3 E]; [|congruence]. apply append_inj_l in E. apply append_split in E as [E4 E]; [|congruence].
  apply append_inj_l in E. apply append_split in E as [E5 E]; [|congruence]. apply append_inj_l in E. congruence.
Qed.
Lemma shows_second sep txt a b : shows sep txt a -> shows sep txt b -> a / 1000000 = b / 1000000.
Proof.
  intros (y & mo & d & h & mi & s & R & D & T & _) (y' & mo' & d' & h' & mi' & s' & R' & D' & T' & _).
  pose proof (reads_date_fun _ _ _ _ _ _ _ _ _ _ _ _ _ _ R R') as E. injection E as <- <- <- <- <- <-. apply date_of_civil in D, D'.
  assert (a / (86400 * 1000000) = b / (86400 * 1000000)) as Ed.
  { pose proof (days_civil (a / (86400 * 1000000))) as E1. pose proof (days_civil (b / (86400 * 1000000))) as E2. rewrite <- D in E1. rewrite <- D' in E2. congruence. }
  rewrite !(Z.mul_comm 86400), <- !Z.div_div in Ed by lia.
  rewrite (Z.div_mod (a / 1000000) 86400), (Z.div_mod (b / 1000000) 86400) by lia. congruence.
Qed.

Lemma tick_date_text {F} `{Num F} (t : tick F) : representable (ar_wall (tk_dt t)) -> 1000 <= w_year (ar_wall (tk_dt t)) ->
  exists txt, td_datetime (tick_asdict true t) = DText txt /\ shows " " txt (ar_wall (tk_dt t)).
Proof.
  intros Hr Hy. pose proof (proj1 (representable_year _) Hr) as Hy'. eexists. split; [reflexivity|]. rewrite strftime_date by lia. now apply date_text_shows.
Qed.
Lemma utc_text a b : representable (ar_utc a) -> representable (ar_utc b) ->
  ar_utc (datetime_utc a) = ar_utc a /\
  String.compare (date_text " " (ar_wall (datetime_utc a))) (date_text " " (ar_wall (datetime_utc b))) = (ar_utc a / 1000000 ?= ar_utc b / 1000000).
Proof. intros Ha Hb. split; [reflexivity|]. now apply cmp_dates. Qed.

(** *** Names of the files *)
Lemma stamp_length sep w : String.length (date_text sep w) = 19%nat.
Proof. reflexivity. Qed.
Lemma stamp_differs now now' a b : representable now -> representable now' -> now / 1000000 <> now' / 1000000 -> (report_stamp now ++ a)%string <> (report_stamp now' ++ b)%string.
Proof.
  intros H1 H2 Hn E. apply append_split in E as [E _]; [|reflexivity]. apply Hn. exact (date_text_inj "_" now now' H1 H2 E).
Qed.
Section names.
  Context {F : Type} `{Num F}.
  Implicit Types w : world F.
  Lemma step_names w dt det acc sid acc' r n : report_strategy w dt det acc sid = (acc', r) -> (forall ref, n <> trades_file dt ref) -> dict_get (fst acc') n = dict_get (fst acc) n.
  Proof.
    intros E Hn. unfold report_strategy in E. destruct (w_strats w !! sid) as [s|]; [|now injection E as <- <-].
    destruct (profit_factor w s TNone); [|now injection E as <- <-]. destruct det; [|now injection E as <- <-].
    destruct (rmapM _ _); injection E as <- <-; [|reflexivity]. cbn [fst]. apply csv_other. intros E2. now apply (Hn (st_ref s)).
  Qed.
  Lemma loop_names w dt det sids n : (forall ref, n <> trades_file dt ref) -> forall acc acc' r, forM (report_strategy w dt det) acc sids = (acc', r) ->
    dict_get (fst acc') n = dict_get (fst acc) n.
  Proof.
    intros Hn. induction sids as [|sid sids IH]; intros acc acc' r E; [now injection E as <- <-|].
    simpl in E. destruct (report_strategy w dt det acc sid) as [acc1 r1] eqn:E1. pose proof (step_names _ _ _ _ _ _ _ _ E1 Hn) as E2.
    destruct r1 as [u|x]; [rewrite <- E2; eauto|now injection E as <- <-].
  Qed.
  Lemma report_names w now now' sids det d d' r n rest : representable now -> representable now' -> now / 1000000 <> now' / 1000000 ->
    report w (report_stamp now) sids det d = (d', r) -> n = (report_stamp now' ++ rest)%string -> dict_get d' n = dict_get d n.
  Proof.
    intros H1 H2 Hn E ->. unfold report in E. destruct (forM _ _ _) as [[d1 rows] r1] eqn:E1.
    assert (dict_get d1 (report_stamp now' ++ rest) = dict_get d (report_stamp now' ++ rest)) as E2.
    { change d1 with (fst (d1, rows)). change d with (fst (d, @nil (srow (F:=F)))). eapply loop_names; [|exact E1]. intros ref E2.
      unfold trades_file in E2. symmetry in E2. now apply (stamp_differs now now') in E2. }
    destruct r1; injection E as <- <-; [|exact E2]. rewrite csv_other; [exact E2|]. unfold strategies_file. now apply stamp_differs.
  Qed.

  (** *** Rows *)
  Lemma row_texts (ftext : F -> string) P w i r : reach P w -> (forall t, w_trades w !! i = Some t -> representable (ar_wall (tr_dt t))) ->
    trade_row w i r -> trade_texts ftext w i (trow_fields ftext r).
  Proof.
    intros Hw Hr (t & e & Ht & He & E1 & E2 & E3 & E4 & E5 & E6 & E7 & E8 & E9 & E10 & E11).
    destruct (wf_trade _ (reach_wf P w Hw) i t Ht) as [_ Hs].
    exists t, e, (date_text " " (ar_wall (tr_dt t))), (int_text (tr_oq t)), (int_text (total (map tc_qty (tr_closes t)))).
    split; [exact Ht|]. split; [exact He|]. split; [|split; [apply date_text_shows; auto|split; apply integer_text]].
    unfold trow_fields. rewrite E1, E2, E3, E6, E7, E8, E9, E10, E11. do 3 f_equal. f_equal.
    destruct (tr_strat t) as [sid|] eqn:Es; [|now apply E4]. destruct (Hs sid eq_refl) as [s Hs']. rewrite Hs'. now apply (E5 sid).
  Qed.
  Lemma srow_texts (ftext : F -> string) w sid r : strategy_row w sid r -> strategy_texts ftext w sid (srow_fields ftext r).
  Proof.
    intros (s & Hs & E1 & E2 & E3 & E4). exists s, (int_text (srow_nb r)), (srow_pf r). split; [exact Hs|]. split; [unfold srow_fields; now rewrite E1, E3|].
    split; [rewrite integer_text; now rewrite E2|exact E4].
  Qed.
  Lemma file_reads (ftext : F -> string) headers rows : read_csv (file_text ftext (FTrades headers rows)) = headers :: map (trow_fields ftext) rows.
  Proof. apply csv_reads. Qed.
  Lemma sfile_reads (ftext : F -> string) headers rows : read_csv (file_text ftext (FStrategies headers rows)) = headers :: map (srow_fields ftext) rows.
  Proof. apply csv_reads. Qed.
  Lemma report_texts (ftext : F -> string) P w dt (det : bool) sids d d' : reach P w -> (forall i t, w_trades w !! i = Some t -> representable (ar_wall (tr_dt t))) ->
    report w dt sids det d = (d', Ok ()) ->
    (dict_get d (dt ++ "_strategies.csv")%string = None ->
       exists f rows, dict_get d' (dt ++ "_strategies.csv")%string = Some f /\ read_csv (file_text ftext f) = strategy_columns :: rows /\
         Forall2 (strategy_texts ftext w) sids rows) /\
    (det = true -> forall k sid s, sids !! k = Some sid -> w_strats w !! sid = Some s -> dict_get d (dt ++ "_" ++ st_ref s ++ "_trades.csv")%string = None ->
       (forall k' sid', (k' < k)%nat -> sids !! k' = Some sid' -> ~ has_ref w sid' (st_ref s)) ->
       exists f rows, dict_get d' (dt ++ "_" ++ st_ref s ++ "_trades.csv")%string = Some f /\
         read_csv (file_text ftext f) = (match st_trades s with [] => [] | _ => trade_columns end) :: rows /\
         Forall2 (trade_texts ftext w) (reverse (st_trades s)) rows).
  Proof.
    intros Hw Hr E. destruct (report_contents P w dt det sids d d' Hw E) as (_ & H1 & H2 & _). split.
    - intros Hd. destruct (H1 Hd) as (rows & Hf & Hrows). eexists _, _. split; [exact Hf|]. split; [apply sfile_reads|].
      apply Forall2_fmap_r. eapply Forall2_impl; [exact Hrows|]. intros sid r. apply srow_texts.
    - intros Hdet k sid s Hk Hs Hd Hfirst. destruct (H2 Hdet k sid s Hk Hs Hd Hfirst) as (rows & Hf & Hrows). eexists _, _. split; [exact Hf|].
      split; [apply file_reads|]. apply Forall2_fmap_r. eapply Forall2_impl; [exact Hrows|]. intros i r Hi. apply (row_texts ftext P); eauto.
  Qed.
  Lemma texts_determine (ftext : F -> string) w w' i j l t t' : trade_texts ftext w i l -> trade_texts ftext w' j l -> w_trades w !! i = Some t -> w_trades w' !! j = Some t' ->
    tr_ref t = tr_ref t' /\ tr_status t = tr_status t' /\ tr_dir t = tr_dir t' /\ tr_oq t = tr_oq t' /\
    total (map tc_qty (tr_closes t)) = total (map tc_qty (tr_closes t')) /\ ar_wall (tr_dt t) / 1000000 = ar_wall (tr_dt t') / 1000000 /\
    ftext (tr_ov t) = ftext (tr_ov t') /\ ftext (result t) = ftext (result t').
  Proof.
    intros (x & e & date & oq & cq & H1 & _ & El & D & O & C) (x' & e' & date' & oq' & cq' & H1' & _ & El' & D' & O' & C') Ht Ht'.
    rewrite Ht in H1. rewrite Ht' in H1'. apply (inj Some) in H1, H1'. subst x x'. rewrite El in El'.
    pose proof (f_equal (fun l => nth 0 l ""%string) El') as E1. pose proof (f_equal (fun l => nth 1 l ""%string) El') as E2.
    pose proof (f_equal (fun l => nth 4 l ""%string) El') as E3'. pose proof (f_equal (fun l => nth 5 l ""%string) El') as E3.
    pose proof (f_equal (fun l => nth 6 l ""%string) El') as E6. pose proof (f_equal (fun l => nth 7 l ""%string) El') as E4.
    pose proof (f_equal (fun l => nth 8 l ""%string) El') as E8. pose proof (f_equal (fun l => nth 9 l ""%string) El') as E5.
    cbn [nth] in *. subst date' oq' cq'. split; [exact E1|]. split; [now apply status_text_inj|]. split; [now apply dir_text_inj|]. split; [congruence|]. split; [congruence|].
    split; [exact (shows_second _ _ _ _ D D')|]. split; assumption.
  Qed.
End names.
