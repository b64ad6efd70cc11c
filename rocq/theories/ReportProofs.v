From Verif Require Import StrategyProofs EpicMoreProofs LedgerProofs WorldProofs StrategyExamples.
From Verif Require Export SpecReport.
Open Scope Z_scope.

Section proofs.
  Context {F : Type} `{Num F}.
  Implicit Types (w : world F) (d : folder (F:=F)).

  Lemma total_fold l : fold_left Z.add l 0 = total l.
  Proof.
    assert (forall a, fold_left Z.add l a = a + total l) as G.
    { induction l as [|x l IH]; intros a; simpl; [lia|]. rewrite IH. unfold total. simpl. lia. }
    apply G.
  Qed.

  Lemma asdict_row w i t r : w_trades w !! i = Some t -> asdict w t = Ok r -> trade_row w i r.
  Proof.
    intros Ht Ha. unfold asdict in Ha. destruct (w_epics w !! tr_epic t) as [e|] eqn:He; [|discriminate Ha]. cbn [of_option rbind] in Ha.
    destruct (tr_strat t) as [sid|] eqn:Es; cbn [rbind] in Ha.
    - destruct (w_strats w !! sid) as [s|] eqn:Hs; cbn [of_option rmap rbind] in Ha; [|discriminate Ha]. injection Ha as <-.
      exists t, e. cbn. repeat split; auto; try congruence. apply total_fold.
    - injection Ha as <-. exists t, e. cbn. repeat split; auto; try congruence. apply total_fold.
  Qed.
  Lemma rmapM_rows w l trs : rmapM (fun i => let! t := of_option Dangling (w_trades w !! i) in asdict w t) l = Ok trs -> Forall2 (trade_row w) l trs.
  Proof.
    revert trs. induction l as [|i l IH]; intros trs Hm; cbn [rmapM] in Hm; [injection Hm as <-; constructor|].
    destruct (w_trades w !! i) as [t|] eqn:Ht; cbn [of_option rbind] in Hm; [|discriminate Hm].
    destruct (asdict w t) as [r|] eqn:Ha; cbn [rbind] in Hm; [|discriminate Hm].
    match type of Hm with rbind ?x _ = _ => destruct x as [rs|] eqn:Hr end; cbn [rbind] in Hm; [|discriminate Hm]. injection Hm as <-.
    constructor; [now apply (asdict_row w i t)|auto].
  Qed.
  Lemma rmapM_total w l : (forall i, i ∈ l -> exists t r, w_trades w !! i = Some t /\ asdict w t = Ok r) ->
    exists trs, rmapM (fun i => let! t := of_option Dangling (w_trades w !! i) in asdict w t) l = Ok trs.
  Proof.
    induction l as [|i l IH]; intros Hl; [exists []; reflexivity|]. destruct (Hl i) as (t & r & Ht & Ha); [left|].
    destruct IH as [rs Hr]; [intros j Hj; apply Hl; now right|]. exists (r :: rs). cbn [rmapM]. rewrite Ht. cbn [of_option rbind]. rewrite Ha. cbn [rbind]. rewrite Hr. reflexivity.
  Qed.
  Lemma asdict_total P w i t : reach P w -> w_trades w !! i = Some t -> exists r, asdict w t = Ok r.
  Proof.
    intros Hr Ht. destruct (wf_trade _ (reach_wf P w Hr) i t Ht) as [(e & He) Hs]. unfold asdict. rewrite He. cbn [of_option rbind].
    destruct (tr_strat t) as [sid|] eqn:Es; cbn [rbind]; [|eauto]. destruct (Hs sid eq_refl) as (s & ->). cbn. eauto.
  Qed.

  Lemma csv_keep d n f n' f' : dict_get d n' = Some f' -> dict_get (dict_to_csv d n f) n' = Some f'.
  Proof. unfold dict_to_csv. intros Hg. destruct (dict_get d n) eqn:E; [auto|]. rewrite dict_get_set. destruct (String.eqb_spec n n') as [->|]; [congruence|auto]. Qed.
  Lemma csv_new d n f : dict_get d n = None -> dict_get (dict_to_csv d n f) n = Some f.
  Proof. unfold dict_to_csv. intros ->. rewrite dict_get_set. now rewrite String.eqb_refl. Qed.
  Lemma csv_other d n f n' : n <> n' -> dict_get (dict_to_csv d n f) n' = dict_get d n'.
  Proof. intros Hn. unfold dict_to_csv. destruct (dict_get d n); [auto|]. rewrite dict_get_set. destruct (String.eqb_spec n n'); [contradiction|auto]. Qed.

  (** ** File names *)
  Lemma append_cons x a b : (String x a ++ b = String x (a ++ b))%string.
  Proof. reflexivity. Qed.
  Lemma append_nil b : ("" ++ b = b)%string.
  Proof. reflexivity. Qed.
  Lemma append_inj_l a b c : (a ++ b = a ++ c)%string -> b = c.
  Proof. induction a as [|x a IH]; rewrite ?append_nil, ?append_cons; [auto|]. intros E. injection E. auto. Qed.
  Lemma length_append a b : String.length (a ++ b) = (String.length a + String.length b)%nat.
  Proof. induction a as [|x a IH]; [auto|]. rewrite append_cons. simpl. now rewrite IH. Qed.
  Lemma append_inj_r a b c : (a ++ c = b ++ c)%string -> a = b.
  Proof.
    revert b. induction a as [|x a IH]; intros b E.
    - destruct b as [|y b]; [auto|]. apply (f_equal String.length) in E. rewrite !length_append in E. simpl in E. lia.
    - destruct b as [|y b].
      + apply (f_equal String.length) in E. rewrite !length_append in E. simpl in E. lia.
      + rewrite !append_cons in E. injection E as -> E. f_equal. auto.
  Qed.
  Lemma trades_file_inj dt r r' : trades_file dt r = trades_file dt r' -> r = r'.
  Proof. unfold trades_file. intros E. apply append_inj_l in E. apply append_inj_l in E. now apply append_inj_r in E. Qed.
  Lemma append_split a b c e : String.length a = String.length b -> (a ++ c = b ++ e)%string -> a = b /\ c = e.
  Proof.
    revert b. induction a as [|x a IH]; intros [|y b] Hl E; simpl in Hl; try lia; [auto|]. rewrite !append_cons in E. injection E as -> E.
    destruct (IH b) as [-> ->]; [lia|auto|auto].
  Qed.
  Lemma files_differ dt r : trades_file dt r <> strategies_file dt.
  Proof.
    unfold trades_file, strategies_file. intros E. apply append_inj_l in E. change "_strategies.csv"%string with ("_" ++ "strategies.csv")%string in E. apply append_inj_l in E.
    assert (String.length r = 3%nat) as Hr. { apply (f_equal String.length) in E. rewrite length_append in E. simpl in E. lia. }
    change "strategies.csv"%string with ("str" ++ "ategies.csv")%string in E. apply append_split in E as [_ E]; [|exact Hr]. discriminate E.
  Qed.

  (** ** The loop *)
  Lemma strategy_step P w dt det d rows sid d' rows' : reach P w -> report_strategy w dt det (d, rows) sid = ((d', rows'), Ok ()) ->
    exists s r, w_strats w !! sid = Some s /\ rows' = rows ++ [r] /\ strategy_row w sid r /\
      if det then exists trs, d' = dict_to_csv d (trades_file dt (st_ref s)) (FTrades (match st_trades s with [] => [] | _ => trade_columns end) trs) /\
                     Forall2 (trade_row w) (reverse (st_trades s)) trs
      else d' = d.
  Proof.
    intros Hr Hx. unfold report_strategy in Hx. destruct (w_strats w !! sid) as [s|] eqn:Hs; [|discriminate Hx].
    rewrite (get_trades_all P w sid s Hr Hs) in Hx. destruct (profit_factor w s TNone) as [pf|] eqn:Hp; [|discriminate Hx]. cbn [fst snd] in Hx.
    assert (strategy_row w sid {| srow_ref := st_ref s; srow_nb := Z.of_nat (length (reverse (st_trades s))); srow_result := strategy_result w s TNone; srow_pf := pf |}) as Hrow.
    { exists s. cbn. rewrite reverse_length. auto. }
    destruct det.
    - match type of Hx with context [rmapM ?f ?l] => destruct (rmapM f l) as [trs|] eqn:Hm end; [|discriminate Hx]. injection Hx as <- <-.
      apply rmapM_rows in Hm. eexists s, _. split; [auto|]. split; [reflexivity|]. split; [exact Hrow|]. exists trs. split; [|exact Hm].
      pose proof (Forall2_length _ _ _ Hm) as Hl. rewrite reverse_length in Hl. do 2 f_equal. destruct trs, (st_trades s); simpl in Hl; auto; lia.
    - injection Hx as <- <-. eexists s, _. split; [auto|]. split; [reflexivity|]. split; [exact Hrow|]. reflexivity.
  Qed.

  Lemma report_loop P w dt det sids : reach P w -> forall d rows d' rows', forM (report_strategy w dt det) (d, rows) sids = ((d', rows'), Ok ()) ->
    (exists new, rows' = rows ++ new /\ Forall2 (strategy_row w) sids new) /\
    (forall n f, dict_get d n = Some f -> dict_get d' n = Some f) /\
    (forall n, (det = true -> forall sid s, sid ∈ sids -> w_strats w !! sid = Some s -> n <> trades_file dt (st_ref s)) -> dict_get d' n = dict_get d n) /\
    (det = true -> forall k sid s, sids !! k = Some sid -> w_strats w !! sid = Some s -> dict_get d (trades_file dt (st_ref s)) = None ->
       (forall k' sid', (k' < k)%nat -> sids !! k' = Some sid' -> ~ has_ref w sid' (st_ref s)) ->
       exists trs, dict_get d' (trades_file dt (st_ref s)) = Some (FTrades (match st_trades s with [] => [] | _ => trade_columns end) trs) /\
         Forall2 (trade_row w) (reverse (st_trades s)) trs).
  Proof.
    intros Hr. induction sids as [|sid sids IH]; intros d rows d' rows' Hx; cbn [forM] in Hx.
    - injection Hx as <- <-. split; [exists []; split; [now rewrite app_nil_r|constructor]|]. repeat split; auto. intros _ k sid s Hk. discriminate Hk.
    - destruct (report_strategy w dt det (d, rows) sid) as [[d1 rows1] [[]|x]] eqn:E1; [|discriminate Hx].
      destruct (strategy_step P w dt det d rows sid d1 rows1 Hr E1) as (s & r & Hs & -> & Hrow & Hd).
      destruct (IH _ _ _ _ Hx) as ((new & -> & Hnew) & K1 & K2 & K3). clear IH Hx E1.
      assert (forall n f, dict_get d n = Some f -> dict_get d1 n = Some f) as K0.
      { intros n f Hf. destruct det; [|now rewrite Hd]. destruct Hd as (trs & -> & _). now apply csv_keep. }
      split; [exists (r :: new); split; [now rewrite <- app_assoc|now constructor]|]. split; [auto|]. split.
      + intros n Hn. rewrite K2; [|intros ? i si Hi; apply Hn; [auto|now right]]. destruct det; [|now rewrite Hd]. destruct Hd as (trs & -> & _).
        apply csv_other. intros E. apply (Hn eq_refl sid s); [left|auto|auto].
      + intros Ed k i si Hk Hi Hnone Hfirst. subst det. destruct Hd as (trs & Hd & Htrs). destruct k as [|k].
        * simpl in Hk. injection Hk as <-. assert (si = s) as -> by congruence. exists trs. split; [|exact Htrs]. apply K1. rewrite Hd. now apply csv_new.
        * simpl in Hk. apply (K3 eq_refl k i si Hk Hi).
          -- rewrite Hd. rewrite csv_other; [auto|]. intros E. apply trades_file_inj in E. apply (Hfirst 0%nat sid); [lia|reflexivity|]. exists s. auto.
          -- intros k' i' Hk' Hi'. apply (Hfirst (S k')); [lia|exact Hi'].
  Qed.

  Lemma report_contents P w dt det sids d d' : reach P w -> report w dt sids det d = (d', Ok ()) ->
    (forall n f, dict_get d n = Some f -> dict_get d' n = Some f) /\
    (dict_get d (dt ++ "_strategies.csv")%string = None ->
       exists rows, dict_get d' (dt ++ "_strategies.csv")%string = Some (FStrategies strategy_columns rows) /\ Forall2 (strategy_row w) sids rows) /\
    (det = true -> forall k sid s, sids !! k = Some sid -> w_strats w !! sid = Some s -> dict_get d (dt ++ "_" ++ st_ref s ++ "_trades.csv")%string = None ->
       (forall k' sid', (k' < k)%nat -> sids !! k' = Some sid' -> ~ has_ref w sid' (st_ref s)) ->
       exists rows, dict_get d' (dt ++ "_" ++ st_ref s ++ "_trades.csv")%string = Some (FTrades (match st_trades s with [] => [] | _ => trade_columns end) rows) /\
         Forall2 (trade_row w) (reverse (st_trades s)) rows) /\
    (forall n, n <> (dt ++ "_strategies.csv")%string ->
       (det = true -> forall sid s, sid ∈ sids -> w_strats w !! sid = Some s -> n <> (dt ++ "_" ++ st_ref s ++ "_trades.csv")%string) ->
       dict_get d' n = dict_get d n).
  Proof.
    intros Hr Hx. unfold report in Hx. destruct (forM (report_strategy w dt det) (d, []) sids) as [[d1 rows] [[]|x]] eqn:E1; [|discriminate Hx]. injection Hx as <-.
    destruct (report_loop P w dt det sids Hr _ _ _ _ E1) as ((new & En & Hnew) & K1 & K2 & K3). simpl in En. subst rows.
    change (dt ++ "_strategies.csv")%string with (strategies_file dt). split; [|split; [|split]].
    - intros n f Hf. apply csv_keep. auto.
    - intros Hn. exists new. split; [|exact Hnew]. apply csv_new. rewrite K2; [exact Hn|]. intros _ sid s _ _ E. symmetry in E. exact (files_differ _ _ E).
    - intros Ed k sid s Hk Hs Hn Hf. destruct (K3 Ed k sid s Hk Hs Hn Hf) as (trs & Ht & Hrows). exists trs. split; [|exact Hrows].
      rewrite csv_other; [exact Ht|]. intros E. symmetry in E. exact (files_differ _ _ E).
    - intros n Hn Ht. rewrite csv_other by congruence. now apply K2.
  Qed.
End proofs.

(** Over exact arithmetic a report never fails. *)
Lemma report_strategy_total P (w : world Q) dt det acc sid s : reach P w -> w_strats w !! sid = Some s ->
  exists acc', report_strategy w dt det acc sid = (acc', Ok ()).
Proof.
  intros Hr Hs. unfold report_strategy. rewrite Hs. destruct (profit_factor_all P w sid s Hr Hs) as (rs & v & _ & -> & _).
  destruct det; [|eauto]. destruct (rmapM_total w (get_trades w s None false None)) as [trs ->]; [|eauto].
  intros i Hi. rewrite (get_trades_all P w sid s Hr Hs), elem_of_reverse in Hi. destruct (proj2 (wf_strat _ (reach_wf P w Hr) sid s Hs) i) as [Hf _].
  destruct (Hf Hi) as ((t & Ht & _) & _). destruct (asdict_total P w i t Hr Ht) as [r Ha]. eauto.
Qed.
Lemma report_total P (w : world Q) dt det sids d : reach P w -> (forall sid, sid ∈ sids -> exists s, w_strats w !! sid = Some s) ->
  exists d', report w dt sids det d = (d', Ok ()).
Proof.
  intros Hr Hs. unfold report. assert (forall acc, exists acc', forM (report_strategy w dt det) acc sids = (acc', Ok ())) as G.
  { induction sids as [|sid sids IH]; intros acc; cbn [forM]; [eauto|]. destruct (Hs sid) as [s Hsid]; [left|].
    destruct (report_strategy_total P w dt det acc sid s Hr Hsid) as [acc' ->]. apply IH. intros i Hi. apply Hs. now right. }
  destruct (G (d, [])) as [[d1 rows] ->]. eauto.
Qed.
(** The profit factor is an error for no arithmetic in which the sums divide; a failing report leaves the strategies file unwritten. *)
Lemma report_failed {F} `{Num F} (w : world F) dt det sids d d' x : report w dt sids det d = (d', Err x) ->
  dict_get d' (dt ++ "_strategies.csv")%string = dict_get d (dt ++ "_strategies.csv")%string.
Proof.
  intros Hx. unfold report in Hx. change (dt ++ "_strategies.csv")%string with (strategies_file dt) in *.
  assert (forall l acc acc' r, forM (report_strategy w dt det) acc l = (acc', r) -> dict_get acc'.1 (strategies_file dt) = dict_get acc.1 (strategies_file dt)) as G.
  { induction l as [|sid l IH]; intros acc acc' r Hl; cbn [forM] in Hl; [now injection Hl as <- <-|].
    destruct (report_strategy w dt det acc sid) as [acc1 r1] eqn:E1.
    assert (dict_get acc1.1 (strategies_file dt) = dict_get acc.1 (strategies_file dt)) as E.
    { unfold report_strategy in E1. destruct (w_strats w !! sid) as [s|]; [|now injection E1 as <- <-]. destruct (profit_factor w s TNone); [|now injection E1 as <- <-].
      destruct det; [|now injection E1 as <- <-]. match type of E1 with context [rmapM ?f ?l] => destruct (rmapM f l) as [trs|] end; [|now injection E1 as <- <-].
      injection E1 as <- <-. cbn [fst]. apply csv_other. apply files_differ. }
    destruct r1 as [[]|]; [|now injection Hl as <- <-]. rewrite <- E. now apply (IH _ _ _ Hl). }
  destruct (forM (report_strategy w dt det) (d, []) sids) as [[d1 rows] [[]|y]] eqn:E1; [discriminate Hx|]. injection Hx as <- <-. apply (G _ _ _ _ E1).
Qed.
