(** get_trades, result, profit_factor, close_opened_trades (C18-C20). *)
From Verif Require Import NumQProofs.
From Coq Require Import Qminmax Qabs Lqa.
From Verif Require Export EpicProofs.
Open Scope Z_scope.

Section proofs.
  Context {F : Type} `{Num F}.
  Implicit Types (w : world F) (t : trade F) (e : epic F) (s : strategy).

  (** ** get_trades *)
  Definition wanted_b w (epics : option (list nat)) (oo : bool) (i : nat) : bool :=
    match w_trades w !! i with
    | None => false
    | Some t => (match epics with None => true | Some es => bool_decide (tr_epic t ∈ es) end) && (negb oo || negb (closed t))
    end.
  Lemma wanted_b_spec w epics oo i : wanted_b w epics oo i = true <-> wanted w epics oo i.
  Proof.
    unfold wanted_b, wanted. split.
    - destruct (w_trades w !! i) as [t|]; [|discriminate]. intros E. apply andb_prop in E as [E1 E2]. exists t. split; [auto|]. split.
      + intros es ->. now apply bool_decide_eq_true in E1.
      + intros ->. simpl in E2. unfold closed in E2. destruct (Z.eqb_spec (opened_quantities t) 0); [discriminate|auto].
    - intros (t & -> & H1 & H2). apply andb_true_intro. split.
      + destruct epics as [es|]; [|auto]. apply bool_decide_eq_true. now apply H1.
      + destruct oo; [|auto]. simpl. unfold closed. destruct (Z.eqb_spec (opened_quantities t) 0); [|auto]. now elim H2.
  Qed.
  Lemma get_trades_none ts epics oo l w : w_trades w = ts -> get_trades_loop ts epics oo None l = List.filter (wanted_b w epics oo) l.
  Proof.
    intros <-. induction l as [|i l IH]; simpl; [auto|]. unfold wanted_b at 1. destruct (w_trades w !! i) as [t|]; [|auto]. rewrite IH. now destruct (_ && _).
  Qed.
  Definition after_b w (d : arrow) (i : nat) : bool := match w_trades w !! i with Some t => negb (arrow_ltb (tr_dt t) d) | None => false end.
  Lemma after_b_spec w d i : after_b w d i = true <-> dated_from w d i.
  Proof.
    unfold after_b, dated_from. split.
    - destruct (w_trades w !! i) as [t|]; [|discriminate]. intros E. exists t. split; [auto|]. now destruct (arrow_ltb _ _).
    - intros (t & -> & E). now rewrite E.
  Qed.
  (** [itertools.takewhile] *)
  Fixpoint take_while {A} (f : A -> bool) (l : list A) : list A := match l with [] => [] | x :: l' => if f x then x :: take_while f l' else [] end.
  Lemma get_trades_some w epics oo d l : get_trades_loop (w_trades w) epics oo (Some d) l = take_while (after_b w d) (List.filter (wanted_b w epics oo) l).
  Proof.
    induction l as [|i l IH]; simpl; [auto|]. unfold wanted_b at 1. destruct (w_trades w !! i) as [t|] eqn:Et; [|auto]. rewrite IH. destruct (_ && _); [|auto].
    simpl. unfold after_b at 2. rewrite Et. now destruct (arrow_ltb _ _).
  Qed.
  Lemma get_trades_elem w s epics oo i : i ∈ get_trades w s epics oo None <-> i ∈ st_trades s /\ wanted w epics oo i.
  Proof. unfold get_trades. rewrite (get_trades_none _ _ _ _ w eq_refl), elem_of_filter_b, elem_of_reverse, wanted_b_spec. tauto. Qed.
  Lemma get_trades_sorted P w sid s epics oo : reach P w -> w_strats w !! sid = Some s -> StronglySorted gt (get_trades w s epics oo None).
  Proof. intros Hr Hs. unfold get_trades. rewrite (get_trades_none _ _ _ _ w eq_refl). apply sorted_filter, sorted_reverse. eapply reach_increasing; eauto. Qed.
  Lemma get_trades_all P w sid s : reach P w -> w_strats w !! sid = Some s -> get_trades w s None false None = reverse (st_trades s).
  Proof.
    intros Hr Hs. unfold get_trades. rewrite (get_trades_none _ _ _ _ w eq_refl).
    assert (forall l, (forall i, i ∈ l -> wanted_b w None false i = true) -> List.filter (wanted_b w None false) l = l) as Hf.
    { induction l as [|i l IH]; intros Hl; simpl; [auto|]. rewrite Hl by left. f_equal. apply IH. intros j Hj. apply Hl. now right. }
    apply Hf. intros i Hi. rewrite elem_of_reverse in Hi. rewrite wanted_b_spec. apply (strategy_trades P w sid s i Hr Hs) in Hi as [(t & Ht & _) _]. exists t. split; [auto|]. split; discriminate.
  Qed.
  Lemma take_while_prefix {A} (f : A -> bool) l : take_while f l `prefix_of` l.
  Proof. induction l as [|x l IH]; simpl; [reflexivity|]. destruct (f x); [now apply prefix_cons|apply prefix_nil]. Qed.
  Lemma get_trades_after_prefix w s epics oo d : get_trades w s epics oo (Some d) `prefix_of` get_trades w s epics oo None.
  Proof. unfold get_trades. rewrite get_trades_some, (get_trades_none _ _ _ _ w eq_refl). apply take_while_prefix. Qed.
  Lemma take_while_all {A} (f : A -> bool) l i : i ∈ take_while f l -> i ∈ l /\ f i = true.
  Proof.
    induction l as [|x l IH]; simpl; [intros E; now apply elem_of_nil in E|]. destruct (f x) eqn:Ef; [|intros E; now apply elem_of_nil in E].
    intros [->|E]%elem_of_cons; [split; [left|auto]|]. apply IH in E as [E1 E2]. split; [now right|auto].
  Qed.
  Lemma take_while_sorted (f : nat -> bool) l i : StronglySorted gt l -> (forall a b, a ∈ l -> b ∈ l -> (a < b)%nat -> f a = true -> f b = true) ->
    i ∈ l -> f i = true -> i ∈ take_while f l.
  Proof.
    intros Hs. revert i. induction Hs as [|x l Hs IH Hx]; intros i Hf Hi Hfi; [auto|]. simpl.
    assert (f x = true) as Hfx.
    { apply elem_of_cons in Hi as [->|Hi]; [auto|]. rewrite Forall_forall in Hx. apply (Hf i x); [now right|left|apply Hx; auto|auto]. }
    rewrite Hfx. apply elem_of_cons in Hi as [->|Hi]; [left|]. right. apply IH; auto. intros a b Ha Hb. apply Hf; now right.
  Qed.
  Lemma follows_after d a b : follows d a b -> arrow_ltb a d = false -> arrow_ltb b d = false.
  Proof.
    intros [E1 E2]. unfold arrow_ltb. rewrite <- E1. destruct (decide _) as [E|E]; destruct (Nat.eqb_spec (tz_id (ar_tz a)) (tz_id (ar_tz d))); try congruence; rewrite !Z.ltb_ge; lia.
  Qed.
  Lemma get_trades_after P w sid s epics oo d i : reach P w -> w_strats w !! sid = Some s -> chronological w d (get_trades w s epics oo None) ->
    i ∈ get_trades w s epics oo (Some d) <-> i ∈ st_trades s /\ wanted w epics oo i /\ dated_from w d i.
  Proof.
    intros Hr Hs Hc. pose proof (get_trades_sorted P w sid s epics oo Hr Hs) as Hst.
    assert (i ∈ get_trades w s epics oo (Some d) <-> i ∈ get_trades w s epics oo None /\ after_b w d i = true) as ->.
    { unfold get_trades in *. rewrite get_trades_some. rewrite (get_trades_none _ _ _ _ w eq_refl) in *. split; [apply take_while_all|]. intros [H1 H2].
      apply take_while_sorted; auto. intros a b Ha Hb Hab. unfold after_b. destruct (w_trades w !! a) as [t|] eqn:Et; [|discriminate].
      rewrite !elem_of_filter_b in *. destruct (w_trades w !! b) as [u|] eqn:Eu; [|destruct Hb as [_ Hb]; unfold wanted_b in Hb; rewrite Eu in Hb; discriminate].
      destruct (arrow_ltb (tr_dt t) d) eqn:E; [discriminate|]. intros _. rewrite (follows_after d (tr_dt t)); auto. eapply (Hc a b); eauto; now rewrite elem_of_filter_b. }
    rewrite get_trades_elem, after_b_spec. tauto.
  Qed.

  (** ** close_opened_trades *)
  Lemma close_tick_out t tk ref t' c : opened_quantities t <> 0 -> close_from_tick t tk None ref = Ok (t', c) -> closed_out t t' tk ref.
  Proof.
    intros Ho E. destruct (close_tick_qty _ _ _ _ _ _ E) as [Q1 Q2]. rewrite close_quantity_default in Q1. pose proof (close_tick_fixed _ _ _ _ _ _ E) as (F1 & F2 & F3 & F4 & F5 & F6).
    unfold close_from_tick in E. destruct (update_from_tick_same t tk) as (S1 & S2 & S3 & S4 & S5 & S6 & S7 & S8 & S9).
    apply close_inv in E as (-> & E2 & E3 & E4 & _ & E6). injection E4 as E4.
    split; [exists c; cbn [set_closes tr_closes]; rewrite S5; split; [auto|]; split; [rewrite E2; now apply update_tick_cv|]; auto|]. split; [lia|]. now repeat split.
  Qed.
  Lemma close_opened_step_open w i t e ref : w_trades w !! i = Some t -> opened_quantities t <> 0 -> w_epics w !! tr_epic t = Some e ->
    exists t', closed_out t t' (ep_last e) ref /\
      close_opened_step None ref w i = (add_thread (upd_trades w (<[i := t']> (w_trades w))) (ep_prov e) (JClose i (length (tr_closes t))), Ok ()).
  Proof.
    intros Ht Ho He. unfold close_opened_step, trade_open_b. rewrite Ht. assert (closed t = false) as -> by now apply closed_false. simpl.
    unfold strategy_close_trade. rewrite Ht. unfold epic_close_trade. rewrite He. destruct (close_from_epic_ok w i None ref t e Ht He) as (t' & c & E1 & E2). rewrite E2.
    exists t'. split; [|auto]. eapply close_tick_out; eauto.
  Qed.
  Lemma close_opened_step_closed w i ref : ~ is_open w i -> close_opened_step None ref w i = (w, Ok ()).
  Proof. intros Hn. unfold close_opened_step. destruct (trade_open_b w i) eqn:E; [|auto]. now apply is_open_b in E. Qed.

  (** Trade [i] after closing the open trades among [l]. *)
  Definition out_of w (l : list nat) ref (i : nat) t t' : Prop :=
    (i ∈ l -> opened_quantities t <> 0 -> exists e, w_epics w !! tr_epic t = Some e /\ closed_out t t' (ep_last e) ref) /\
    (~ i ∈ l \/ opened_quantities t = 0 -> t' = t).
  Definition close_jobs w (a : nat) (l : list nat) : list thread :=
    omap (fun i => match w_trades w !! i with
                   | Some t => if closed t then None else
                     match w_epics w !! tr_epic t with
                     | Some e => if decide (ep_prov e = a) then Some {| th_job := JClose i (length (tr_closes t)); th_done := false |} else None
                     | None => None
                     end
                   | None => None
                   end) l.
  Lemma close_jobs_ext w w1 a l : (forall j, j ∈ l -> w_trades w1 !! j = w_trades w !! j) -> w_epics w1 = w_epics w -> close_jobs w1 a l = close_jobs w a l.
  Proof.
    intros Hj Ee. unfold close_jobs. rewrite Ee. apply list_omap_ext, Forall2_same_length_lookup. split; [auto|]. intros k x y Hx Hy. assert (y = x) as -> by congruence. rewrite Hj by (eapply elem_of_list_lookup_2; eauto). auto.
  Qed.
  Lemma close_all_loop ref l : NoDup l -> forall w, (forall i t, i ∈ l -> w_trades w !! i = Some t -> exists e, w_epics w !! tr_epic t = Some e) ->
    exists w', forM (close_opened_step None ref) w l = (w', Ok ()) /\ rest w' = rest w /\ w_strats w' = w_strats w /\
      length (w_trades w') = length (w_trades w) /\
      (forall i t, w_trades w !! i = Some t -> exists t', w_trades w' !! i = Some t' /\ out_of w l ref i t t') /\
      (forall a, w_provs w' !! a = (fun p => pv_set_threads p (pv_threads p ++ close_jobs w a l)) <$> w_provs w !! a).
  Proof.
    induction 1 as [|i l Hi Hl IH]; intros w Hw.
    - exists w. split; [auto|]. split; [auto|]. split; [auto|]. split; [auto|]. split.
      + intros i t Ht. exists t. split; [auto|]. split; [intros E; now apply elem_of_nil in E|auto].
      + intros a. simpl. destruct (w_provs w !! a) as [p|]; simpl; [|auto]. rewrite app_nil_r. now destruct p.
    - cbn [forM]. destruct (w_trades w !! i) as [t|] eqn:Ht; [destruct (decide (opened_quantities t = 0)) as [Hz|Hz]|].
      2:{ destruct (Hw i t ltac:(left) Ht) as (e & He). destruct (close_opened_step_open w i t e ref Ht Hz He) as (t' & Hout & ->).
        set (w1 := add_thread _ _ _).
        assert (forall j, j <> i -> w_trades w1 !! j = w_trades w !! j) as Hne by (intros j Hj; subst w1; simpl; now rewrite list_lookup_insert_ne by auto).
        assert (w_trades w1 !! i = Some t') as Heq by (subst w1; simpl; apply list_lookup_insert; eapply lookup_lt_Some; eauto).
        assert (w_epics w1 = w_epics w) as Ee by reflexivity.
        destruct (IH w1) as (w' & E & I1 & I2 & I3 & I4 & I5).
        { intros j tj Hj Htj. rewrite Hne in Htj by (intros ->; auto). rewrite Ee. eapply Hw; eauto. now right. }
        exists w'. split; [auto|]. split; [rewrite I1; auto|]. split; [rewrite I2; auto|]. split; [rewrite I3; subst w1; simpl; apply insert_length|]. split.
        - intros j tj Htj. destruct (decide (j = i)) as [->|Hji].
          + destruct (I4 i t' Heq) as (t'' & Ht'' & _ & O2). rewrite O2 in Ht'' by auto. exists t'. split; [auto|]. assert (tj = t) as -> by congruence. split.
            * intros _ _. exists e. auto.
            * intros [Hn|Hn]; [now elim Hn; left|lia].
          + destruct (I4 j tj) as (t'' & Ht'' & O1 & O2); [now rewrite Hne|]. exists t''. split; [auto|]. rewrite Ee in O1. split.
            * intros Hj. apply elem_of_cons in Hj as [?|Hj]; [congruence|auto].
            * intros [Hn|Hn]; apply O2; [left|now right]. intros Hj. apply Hn. now right.
        - intros a. rewrite I5. assert (close_jobs w1 a l = close_jobs w a l) as ->.
          { apply close_jobs_ext; [|auto]. intros j Hj. apply Hne. intros ->. auto. }
          unfold close_jobs at 2. cbn [omap list_omap]. rewrite Ht. assert (closed t = false) as -> by now apply closed_false. rewrite He. fold (close_jobs w a l).
          subst w1. simpl. destruct (decide (ep_prov e = a)) as [->|Hpa].
          + rewrite list_lookup_alter. destruct (w_provs w !! a) as [p|]; simpl; [|auto]. rewrite <- app_assoc. auto.
          + rewrite list_lookup_alter_ne by auto. auto. }
      all: assert (close_opened_step None ref w i = (w, Ok ())) as -> by (apply close_opened_step_closed; intros (t0 & Ht0 & Ho0); congruence).
      all: destruct (IH w ltac:(intros j tj Hj; apply Hw; now right)) as (w' & E & I1 & I2 & I3 & I4 & I5); exists w'; (split; [auto|]); (split; [auto|]); (split; [auto|]); (split; [auto|]); split.
      + intros j tj Htj. destruct (I4 j tj Htj) as (t'' & Ht'' & O1 & O2). exists t''. split; [auto|]. split.
        * intros Hj Ho. apply elem_of_cons in Hj as [->|Hj]; [congruence|auto].
        * intros [Hn|Hn]; apply O2; [left|now right]. intros Hj. apply Hn. now right.
      + intros a. rewrite I5. unfold close_jobs at 2. cbn [omap list_omap]. rewrite Ht. assert (closed t = true) as -> by now apply closed_spec. auto.
      + intros j tj Htj. destruct (I4 j tj Htj) as (t'' & Ht'' & O1 & O2). exists t''. split; [auto|]. split.
        * intros Hj Ho. apply elem_of_cons in Hj as [->|Hj]; [congruence|auto].
        * intros [Hn|Hn]; apply O2; [left|now right]. intros Hj. apply Hn. now right.
      + intros a. rewrite I5. unfold close_jobs at 2. cbn [omap list_omap]. rewrite Ht. auto.
  Qed.
  Lemma close_opened_trades_spec P w sid s ref : reach P w -> w_strats w !! sid = Some s ->
    exists w', run_cmd w (CCloseAll sid None ref) = (w', Ok ()) /\
      w_epics w' = w_epics w /\ w_fsets w' = w_fsets w /\ w_log w' = w_log w /\ w_strats w' = w_strats w /\
      length (w_trades w') = length (w_trades w) /\
      (forall i t, w_trades w !! i = Some t -> exists t', w_trades w' !! i = Some t' /\
        (i ∈ st_trades s -> opened_quantities t <> 0 -> exists e, w_epics w !! tr_epic t = Some e /\ closed_out t t' (ep_last e) ref) /\
        (~ i ∈ st_trades s \/ opened_quantities t = 0 -> t' = t)) /\
      (forall i, i ∈ st_trades s -> ~ is_open w' i).
  Proof.
    intros Hr Hs. cbn [run_cmd]. unfold close_opened_trades. rewrite Hs. pose proof (reach_wf _ _ Hr) as W.
    assert (NoDup (reverse (st_trades s))) as Hnd by (apply increasing_rev_nodup; eapply reach_increasing; eauto).
    destruct (close_all_loop ref _ Hnd w) as (w' & E & I1 & I2 & I3 & I4 & I5).
    { intros i t _ Ht. now apply (wf_trade _ W) in Ht as [? _]. }
    exists w'. split; [auto|]. unfold rest in I1. injection I1 as J1 J2 J3. split; [auto|]. split; [auto|]. split; [auto|]. split; [auto|]. split; [auto|].
    assert (forall i t, w_trades w !! i = Some t -> exists t', w_trades w' !! i = Some t' /\
        (i ∈ st_trades s -> opened_quantities t <> 0 -> exists e, w_epics w !! tr_epic t = Some e /\ closed_out t t' (ep_last e) ref) /\
        (~ i ∈ st_trades s \/ opened_quantities t = 0 -> t' = t)) as G.
    { intros i t Ht. destruct (I4 i t Ht) as (t' & Ht' & O1 & O2). exists t'. rewrite elem_of_reverse in O1, O2. auto. }
    split; [exact G|]. intros i Hi (t' & Ht' & Ho). destruct (w_trades w !! i) as [t|] eqn:Ht.
    - destruct (G i t Ht) as (t'' & Ht'' & G1 & G2). assert (t'' = t') as -> by congruence. destruct (decide (opened_quantities t = 0)) as [Hz|Hz].
      + rewrite G2 in Ho by auto. congruence.
      + destruct (G1 Hi Hz) as (e & _ & _ & Hc & _). congruence.
    - apply lookup_ge_None in Ht. apply lookup_lt_Some in Ht'. lia.
  Qed.
End proofs.

(** ** Results over exact arithmetic *)
Section results.
  Open Scope Q_scope.
  Implicit Types (w : world Q) (s : strategy).
  Lemma sum_of_Qsum l : sum_of l = Qsum l.
  Proof. induction l as [|x l IH]; simpl; [auto|]. now rewrite IH. Qed.
  Lemma build_sums_gen l p n : let '(a, b) := fold_left (fun '(p, n) v => if @fleb Q NumQ f0 v then (fadd p v, n) else (p, fadd n v)) l (p, n) in
    a == p + gains l /\ b == n - losses l.
  Proof.
    revert p n. induction l as [|x l IH]; intros p n; cbn [fold_left]; [unfold gains, losses; simpl; split; ring|].
    assert (gains (x :: l) = Qmax x 0 + gains l) as Eg by reflexivity. assert (losses (x :: l) = Qmax (- x) 0 + losses l) as El by reflexivity. rewrite Eg, El.
    destruct (@fleb Q NumQ f0 x) eqn:E.
    - apply qleb in E. rewrite qf0 in E. specialize (IH (@fadd Q NumQ p x) n). destruct (fold_left _ l (fadd p x, n)) as [a b]. destruct IH as [H1 H2]. rewrite H1, H2, qadd.
      rewrite (Q.max_l x 0) by auto. rewrite (Q.max_r (- x) 0) by lra. split; ring.
    - apply qleb_false in E. rewrite qf0 in E. specialize (IH p (@fadd Q NumQ n x)). destruct (fold_left _ l (p, fadd n x)) as [a b]. destruct IH as [H1 H2]. rewrite H1, H2, qadd.
      rewrite (Q.max_r x 0) by lra. rewrite (Q.max_l (- x) 0) by lra. split; ring.
  Qed.
  Lemma build_sums_spec l : let '(a, b) := @build_sums Q NumQ l in a == gains l /\ b == - losses l.
  Proof.
    pose proof (build_sums_gen l 0 0) as Hx. unfold build_sums. change (@f0 Q NumQ) with 0 at 2 3. destruct (fold_left _ l (0, 0)) as [a b]. destruct Hx as [-> ->]. split; ring.
  Qed.
  Lemma sum_max_nonneg f l : 0 <= sum_of (map (fun x : Q => Qmax (f x) 0) l).
  Proof. induction l as [|x l IH]; simpl; [lra|]. pose proof (Q.le_max_r (f x) 0). lra. Qed.
  Lemma gains_nonneg l : 0 <= gains l. Proof. apply (sum_max_nonneg (fun x => x)). Qed.
  Lemma losses_nonneg l : 0 <= losses l. Proof. apply (sum_max_nonneg (fun x => - x)). Qed.

  Lemma results_results w l rs : results w l rs -> results_of w l = rs.
  Proof.
    intros Hr. unfold results_of. induction Hr as [|i r l rs (t & Ht & ->) Hr IH]; [auto|]. cbn [omap list_omap]. rewrite Ht. cbn [map]. f_equal. exact IH.
  Qed.
  Lemma round_cent_Qround2 x : round_cent x (Qround2 x).
  Proof.
    exists (Qround_half_even (x * 100)). assert (Qround2 x == Qround_half_even (x * 100) # 100) as E by (rewrite Qround2_eq, Qz100; unfold Qdiv; apply Qmult_comp; [reflexivity|reflexivity]).
    split; [exact E|]. pose proof (Qround2_bounds x) as B. split; [apply Qabs_Qle_condition; lra|]. intros Ha. apply Qrhe_tie. rewrite E, Qz100 in Ha.
    revert Ha. generalize (inject_Z (Qround_half_even (x * 100))). intros z. apply Qabs_case; intros H1 H2; [right|left]; lra.
  Qed.

  Lemma strategy_result_spec w s a l rs : sel_trades s a = l -> results w l rs -> round_cent (sum_of rs) (strategy_result w s a).
  Proof.
    intros Hl Hr. unfold strategy_result. rewrite Hl, (results_results _ _ _ Hr). change (@round2 Q NumQ) with Qround2. 
    assert (fold_left fadd rs (@f0 Q NumQ) == sum_of rs) as E' by (transitivity (0 + Qsum rs); [apply (qfold_add rs 0)|change (sum_of rs) with (Qsum rs); ring]).
    destruct (round_cent_Qround2 (fold_left fadd rs (@f0 Q NumQ))) as (z & H1 & H2 & H3). exists z. rewrite <- E'. auto.
  Qed.
  Lemma round_cent_proper x y x' y' : x == x' -> y == y' -> round_cent x y -> round_cent x' y'.
  Proof. intros E1 E2 (z & H1 & H2 & H3). exists z. rewrite <- E1, <- E2. auto. Qed.
  Lemma profit_factor_spec w s a l rs : sel_trades s a = l -> results w l rs ->
    exists v, profit_factor w s a = Ok v /\ 0 <= v /\
      (losses rs == 0 -> v == gains rs) /\
      (0 < losses rs -> round_cent (gains rs / Qmax 1 (losses rs)) v).
  Proof.
    intros Hl Hr. unfold profit_factor. rewrite Hl, (results_results _ _ _ Hr). pose proof (build_sums_spec rs) as Hb. destruct (build_sums rs) as [ps ns]. destruct Hb as [Hp Hn].
    pose proof (gains_nonneg rs) as Hg. pose proof (losses_nonneg rs) as Hlo. destruct (feqb ns f0) eqn:E0.
    - apply qeqb in E0. rewrite qf0 in E0. exists ps. split; [auto|]. split; [lra|]. split; [auto|]. intros. lra.
    - apply qeqb_false in E0. rewrite qf0 in E0. set (ns' := if fltb (fabs ns) (fofZ 1) then fofZ 1 else ns).
      assert (Qabs ns == losses rs) as Ea by (rewrite Qabs_neg; lra).
      assert (Qabs (ps / ns') == gains rs / Qmax 1 (losses rs) /\ ~ ns' == 0) as [Hq Hz].
      { unfold ns'. destruct (fltb (fabs ns) (fofZ 1)) eqn:E1.
        - apply qltb in E1. change (fabs ns) with (Qabs ns) in E1. change (fofZ 1) with 1 in *. rewrite Ea in E1. rewrite (Q.max_l 1) by lra. split; [|lra]. rewrite Hp. rewrite Qabs_pos; [reflexivity|]. unfold Qdiv. change (/ 1) with 1. lra.
        - apply qltb_false in E1. change (fabs ns) with (Qabs ns) in E1. change (fofZ 1) with 1 in E1. rewrite Ea in E1. rewrite (Q.max_r 1) by lra. split; [|lra].
          rewrite Hp, Hn. rewrite Qabs_neg; [field; lra|]. unfold Qdiv. assert (0 < / losses rs) as Hi by (apply Qinv_lt_0_compat; lra).
          setoid_replace (/ - losses rs) with (- / losses rs) by (field; lra). assert (0 <= gains rs * / losses rs) by (apply Qmult_le_0_compat; lra). lra. }
      unfold fdivr. assert (feqb ns' f0 = false) as -> by (apply qeqb_false; rewrite qf0; exact Hz). cbn [rbind].
      exists (fabs (round2 (fdiv ps ns'))). split; [auto|]. split; [apply Qabs_nonneg|]. split; [intros; lra|]. intros _.
      change (@round2 Q NumQ) with Qround2. change (@fabs Q NumQ) with Qabs.
      assert (fdiv ps ns' == ps / ns') as Ed by apply qdiv.
      assert (Qabs (Qround2 (fdiv ps ns')) == Qround2 (Qabs (ps / ns'))) as Er.
      { rewrite (Qround2_proper _ _ Ed). apply (Qabs_case (ps / ns')); intros H1.
        - pose proof (Qround2_nonneg _ H1). now rewrite Qabs_pos.
        - pose proof (Qround2_nonpos _ H1). rewrite Qabs_neg by auto. symmetry. apply Qround2_opp. }
      eapply round_cent_proper; [exact Hq|symmetry; exact Er|]. apply round_cent_Qround2.
  Qed.
  Lemma profit_factor_given w s l rs a : a = TGen l \/ (a = TList l /\ l <> []) -> results w l rs ->
    exists v, profit_factor w s a = Ok v /\ 0 <= v /\ (losses rs == 0 -> v == gains rs) /\ (0 < losses rs -> round_cent (gains rs / Qmax 1 (losses rs)) v).
  Proof. intros Ha. apply profit_factor_spec. destruct Ha as [->|[-> Hl]]; [reflexivity|]. destruct l; [easy|reflexivity]. Qed.
End results.
