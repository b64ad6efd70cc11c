(** What a program reads at other dates (C74). *)
From Verif Require Export MovedProofs FineProofs.
Open Scope Z_scope.

Section reads.
  Context {F : Type} `{Num F}.
  Variable d : Z.
  Implicit Types (w : world F) (f : frame F).
  Local Notation TM := (tick_moved (F:=F) d).
  Local Notation FM := (frame_moved (F:=F) d).
  Local Notation VM := (value_moved (F:=F) d).

  Lemma moved_result t t' : trade_moved d t t' -> result t' = result t /\ opened_result t' = opened_result t /\ closed_result t' = closed_result t /\ opened_quantities t' = opened_quantities t /\
    closed t' = closed t /\ result_avg t' = result_avg t /\ closed_result_avg t' = closed_result_avg t /\ opened_result_avg t' = opened_result_avg t.
  Proof.
    intros Ht. pose proof (tm_result d t t' Ht) as E1. pose proof (tm_opened_result d t t' Ht) as E2. pose proof (tm_closed_result d t t' Ht) as E3. pose proof (tm_opened d t t' Ht) as E4.
    pose proof (tm_closed d t t' Ht) as E5. repeat split; auto.
    - unfold result_avg. now rewrite E1, (tm_oq _ _ _ Ht).
    - unfold closed_result_avg. rewrite E3, (tm_cq d t t' Ht). pose proof (tm_closes _ _ _ Ht) as Hc. now destruct Hc.
    - unfold opened_result_avg. now rewrite E5, (tm_dir _ _ _ Ht), (tm_ov _ _ _ Ht), (tm_cv _ _ _ Ht).
  Qed.
  Lemma moved_results w w' l : world_moved d w w' -> results_of w' l = results_of w l.
  Proof.
    intros R. unfold results_of. induction l as [|i l IH]; [auto|]. simpl. pose proof (wm_trade d w w' i R) as Ht. destruct (w_trades w !! i) as [t|], (w_trades w' !! i) as [t'|]; try easy. simpl. f_equal; [|exact IH].
    now apply (tm_result d).
  Qed.
  Lemma moved_strategy w w' s s' a : world_moved d w w' -> strategy_moved d s s' -> strategy_result w' s' a = strategy_result w s a /\ profit_factor w' s' a = profit_factor w s a.
  Proof.
    intros R Hs. assert (sel_trades s' a = sel_trades s a) as E by (unfold sel_trades; now rewrite (ym_trades _ _ _ Hs)).
    split; [unfold strategy_result|unfold profit_factor]; now rewrite E, (moved_results w w').
  Qed.
  Lemma moved_last u v : VM u v -> jp_open v = jp_open u /\ jp_high v = jp_high u /\ jp_low v = jp_low u /\ jp_last v = jp_last u /\ ha_last v = ha_last u /\ candle_last v = candle_last u.
  Proof.
    intros []. unfold candle_last. assert (jp_last v = jp_last u) as E1 by (unfold jp_last; now rewrite (tm_value d _ _ im_last)).
    assert (ha_last v = ha_last u) as E2 by (unfold ha_last; now rewrite (tm_value d _ _ im_first), (tm_value d _ _ im_high), (tm_value d _ _ im_low), (tm_value d _ _ im_last)).
    rewrite im_data, E1, E2. repeat split; auto; [unfold jp_open; now rewrite (tm_value d _ _ im_first)|unfold jp_high; now rewrite (tm_value d _ _ im_high)|unfold jp_low; now rewrite (tm_value d _ _ im_low)].
  Qed.
  Lemma moved_candle n h h' : Forall2 FM h h' -> forall f f' u v, FM f f' -> VM u v -> candle_open n h' f' v = candle_open n h f u.
  Proof.
    intros Hh. induction n as [|n IH]; intros f f' u v Hf Hv; cbn [candle_open]; rewrite (im_data _ _ _ Hv); pose proof (moved_last u v Hv) as (E1 & _); rewrite E1; destruct (iv_data u) as [[]| | | |]; auto.
    rewrite (im_ref _ _ _ Hv). pose proof (moved_previous d h h' f f' (iv_ref u) Hh (fm_prev _ _ _ Hf)) as Hp. destruct (previous h f (iv_ref u)) as [[[p x]|]|e], (previous h' f' (iv_ref u)) as [[[p' x']|]|e']; try easy.
    - destruct Hp as [<- Hx]. simpl. pose proof (F2_lookup _ _ _ p Hh) as Hg. destruct (h !! p) as [g|], (h' !! p) as [g'|]; try easy. rewrite (IH g g' x x' Hg Hx). now rewrite (proj2 (proj2 (proj2 (proj2 (proj2 (moved_last x x' Hx)))))).
    - simpl. now rewrite (tm_value d _ _ (im_first _ _ _ Hv)).
    - simpl in Hp. now subst.
  Qed.
  Lemma moved_c h h' f f' u v : Forall2 FM h h' -> FM f f' -> VM u v -> c_open h' f' v = c_open h f u /\ c_high h' f' v = c_high h f u /\ c_low h' f' v = c_low h f u /\ c_close f' v = c_close f u /\ candle_last v = candle_last u.
  Proof.
    intros Hh Hf Hv. assert (c_open h' f' v = c_open h f u) as E by (unfold c_open; rewrite <- (Forall2_length _ _ _ Hh); now apply moved_candle).
    pose proof (moved_last u v Hv) as (_ & E2 & E3 & _ & E5 & E6). repeat split; auto.
    - unfold c_high. rewrite (im_data _ _ _ Hv), E, E2, E5, (tm_value d _ _ (im_high _ _ _ Hv)). reflexivity.
    - unfold c_low. rewrite (im_data _ _ _ Hv), E, E3, E5, (tm_value d _ _ (im_low _ _ _ Hv)). reflexivity.
    - unfold c_close, frame_closed. now rewrite (fm_next _ _ _ Hf), E6.
  Qed.
  Lemma moved_pivot h h' f f' u v : Forall2 FM h h' -> FM f f' -> VM u v -> pivot h' f' v = pivot h f u /\ forall g, pivot_level g h' f' v = pivot_level g h f u.
  Proof.
    intros Hh Hf Hv. assert (match pivot_with_prev h f u, pivot_with_prev h' f' v with
      | Ok None, Ok None => True | Ok (Some (p, x)), Ok (Some (p', x')) => p = p' /\ VM x x' | Err e, Err e' => e = e' | _, _ => False end) as Hp.
    { unfold pivot_with_prev. rewrite (im_ref _ _ _ Hv). pose proof (moved_previous d h h' f f' (iv_ref u) Hh (fm_prev _ _ _ Hf)) as Hp.
      destruct (previous h f (iv_ref u)) as [[[p x]|]|e], (previous h' f' (iv_ref u)) as [[[p' x']|]|e']; try easy.
      destruct Hp as [_ Hx]. simpl. rewrite (im_data _ _ _ Hv). destruct (iv_data u) as [|[]| | |]; auto; (split; [|exact Hx]).
      - now rewrite (tm_value d _ _ (im_high _ _ _ Hx)), (tm_value d _ _ (im_low _ _ _ Hx)), (tm_value d _ _ (im_last _ _ _ Hx)), (tm_value d _ _ (im_first _ _ _ Hv)).
      - now rewrite (tm_value d _ _ (im_high _ _ _ Hx)), (tm_value d _ _ (im_low _ _ _ Hx)), (tm_value d _ _ (im_last _ _ _ Hx)). }
    unfold pivot, pivot_level. destruct (pivot_with_prev h f u) as [[[p x]|]|e], (pivot_with_prev h' f' v) as [[[p' x']|]|e']; try easy; simpl in Hp |- *.
    - destruct Hp as [<- Hx]. split; [auto|]. intros g. now rewrite (tm_value d _ _ (im_high _ _ _ Hx)), (tm_value d _ _ (im_low _ _ _ Hx)).
    - now subst.
  Qed.
  Lemma moved_sma f f' l p : FM f f' -> sma_value f' l p = sma_value f l p.
  Proof. intros Hf. unfold sma_value. now rewrite (moved_closes d f f'). Qed.
  (** The frame and the value of an indicator asked for by reference and offset. *)
  Lemma moved_get w w' e e' ref n : world_moved d w w' -> epic_moved d e e' -> get_frame w' e' ref n = get_frame w e ref n.
  Proof.
    intros R He. unfold get_frame. rewrite (em_fsets _ _ _ He). destruct (dict_get _ _) as [i|]; [|auto]. pose proof (wm_fset d w w' i R) as Hf. destruct (w_fsets w !! i) as [s|], (w_fsets w' !! i) as [s'|]; try easy.
    unfold fs_getitem. now rewrite (sm_frames _ _ _ Hf).
  Qed.
  Lemma moved_get_value w w' e e' ref i n : world_moved d w w' -> epic_moved d e e' ->
    resm (opt_moved VM) (get_indicator_value w e ref i n) (get_indicator_value w' e' ref i n).
  Proof.
    intros R He. unfold get_indicator_value. rewrite (moved_get w w' e e' ref n R He), (em_fsets _ _ _ He). destruct (get_frame w e ref n) as [[k|]|x]; simpl; [|constructor|reflexivity].
    destruct (dict_get _ _) as [j|]; [|reflexivity]. pose proof (wm_fset d w w' j R) as Hf. destruct (w_fsets w !! j) as [s|], (w_fsets w' !! j) as [s'|]; try easy.
    pose proof (F2_lookup _ _ _ k (sm_heap _ _ _ Hf)) as Hk. destruct (fs_heap s !! k) as [f|], (fs_heap s' !! k) as [f'|]; try easy. simpl.
    pose proof (inds_get d _ _ i (fm_inds _ _ _ Hk)) as Hg. destruct (dict_get (fr_inds f) i) as [o|], (dict_get (fr_inds f') i) as [o'|]; try easy; simpl; inversion Hg; constructor; auto.
  Qed.
End reads.

Lemma zone_fixed d i off : zone_moved d (tz_fixed i off) (tz_fixed i off).
Proof. constructor; simpl; intros; lia. Qed.
Lemma zone_utc d : zone_moved d tz_UTC tz_UTC.
Proof. constructor; simpl; intros; lia. Qed.
Lemma zones_moved d : zone_moved d tz_UTC tz_UTC /\ forall i off, zone_moved d (tz_fixed i off) (tz_fixed i off).
Proof. split; [apply zone_utc|intros; apply zone_fixed]. Qed.
Lemma run_moved {F} `{Num F} d (pr pr' : programs F) l l' : whole_weeks d -> programs_moved d pr pr' -> ops_moved d pr empty_world l l' -> charts_fine pr empty_world l -> charts_fine pr' empty_world l' ->
  world_moved d (run pr empty_world l) (run pr' empty_world l') /\ endings pr' empty_world l' = endings pr empty_world l.
Proof. intros Hd Hp Ho Hc Hc'. apply moved_run; auto. apply moved_empty. Qed.
Lemma plain_moved d N zone cls N' zone' cls' (pr pr' : programs Q) l l' : whole_weeks d -> programs_moved d pr pr' -> ops_moved d pr empty_world l l' ->
  1 <= N -> (forall f, resolves_forward (zone f)) -> plain_charts N zone cls any_quote any_number pr empty_world l ->
  1 <= N' -> (forall f, resolves_forward (zone' f)) -> plain_charts N' zone' cls' any_quote any_number pr' empty_world l' ->
  world_moved d (run pr empty_world l) (run pr' empty_world l') /\ endings pr' empty_world l' = endings pr empty_world l.
Proof. intros Hd Hp Ho HN Hz Hl HN' Hz' Hl'. apply run_moved; [exact Hd|exact Hp|exact Ho|exact (charts_Q N zone cls pr l HN Hz Hl)|exact (charts_Q N' zone' cls' pr' l' HN' Hz' Hl')]. Qed.
Lemma lookup_moved {F} `{Num F} d (w w' : world F) e e' ref i n : world_moved d w w' -> epic_moved d e e' ->
  get_frame w' e' ref n = get_frame w e ref n /\
  match get_indicator_value w e ref i n, get_indicator_value w' e' ref i n with Ok x, Ok y => opt_moved (value_moved d) x y | Err x, Err y => x = y | _, _ => False end.
Proof. intros R He. split; [now apply (moved_get d)|]. now apply (moved_get_value d). Qed.
Lemma values_moved {F} `{Num F} d (s s' : fset F) f f' v v' : fset_moved d s s' -> frame_moved d f f' -> value_moved d v v' -> let h := fs_heap s in let h' := fs_heap s' in
  c_open h' f' v' = c_open h f v /\ c_high h' f' v' = c_high h f v /\ c_low h' f' v' = c_low h f v /\ c_close f' v' = c_close f v /\ candle_last v' = candle_last v /\
  (forall l p, sma_value f' l p = sma_value f l p) /\ pivot h' f' v' = pivot h f v /\ support1 h' f' v' = support1 h f v /\ support2 h' f' v' = support2 h f v /\ support3 h' f' v' = support3 h f v /\
  resistance1 h' f' v' = resistance1 h f v /\ resistance2 h' f' v' = resistance2 h f v /\ resistance3 h' f' v' = resistance3 h f v.
Proof.
  intros Hs Hf Hv h h'. pose proof (moved_c d h h' f f' v v' (sm_heap _ _ _ Hs) Hf Hv) as (E1 & E2 & E3 & E4 & E5). pose proof (moved_pivot d h h' f f' v v' (sm_heap _ _ _ Hs) Hf Hv) as (E6 & E7).
  do 5 (split; [assumption|]). split; [intros; now apply (moved_sma d)|]. split; [assumption|]. repeat split; apply E7.
Qed.
