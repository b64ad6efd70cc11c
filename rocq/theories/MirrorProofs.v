(** A SELL mirrors a BUY; results depend on price differences and on the quantity closed at each price. *)
From Verif Require Import TradeProofs.
From Verif Require Export SpecCalls.
From Coq Require Import QArith.
Open Scope Z_scope.

(** ** Mirror *)
(** [R x y]: [y] is the opposite of [x]. *)
Record sym_laws {F} `{Num F} (R : F -> F -> Prop) : Prop := {
  sy_0 : R (fofZ 0) (fofZ 0);
  sy_swap : forall x y, R (fsub x y) (fsub y x);
  sy_round : forall x y, R x y -> R (round2 x) (round2 y);
  sy_mul : forall x y z, R x y -> R (fmul x (fofZ z)) (fmul y (fofZ z));
  sy_add : forall x y x' y', R x x' -> R y y' -> R (fadd x y) (fadd x' y');
  sy_lt : forall x y x' y', R x x' -> R y y' -> fltb x y = fltb y' x' }.

Section mirror.
  Context {F : Type} `{Num F} (R : F -> F -> Prop) (HR : sym_laws R).

  Record mirror (b s : trade F) : Prop := {
    mi_b : tr_dir b = BUY; mi_s : tr_dir s = SELL; mi_oq : tr_oq b = tr_oq s; mi_cl : tr_closes b = tr_closes s;
    mi_ov : tr_ov b = tr_ov s; mi_cv : tr_cv b = tr_cv s; mi_max : R (tr_max b) (tr_min s); mi_min : R (tr_min b) (tr_max s) }.

  Lemma mi_closedq (b s : trade F) : tr_closes b = tr_closes s -> closed_quantities b = closed_quantities s.
  Proof. intros E. unfold closed_quantities. now rewrite E. Qed.
  Lemma mi_openq (b s : trade F) : tr_oq b = tr_oq s -> tr_closes b = tr_closes s -> opened_quantities b = opened_quantities s.
  Proof. intros E1 E2. unfold opened_quantities. now rewrite E1, (mi_closedq b s). Qed.
  Lemma mi_closed (b s : trade F) : tr_oq b = tr_oq s -> tr_closes b = tr_closes s -> closed b = closed s.
  Proof. intros E1 E2. unfold closed. now rewrite (mi_openq b s). Qed.

  (** Only the prices, the quantities and the directions matter for the results. *)
  Lemma mi_opened_result (b s : trade F) : tr_dir b = BUY -> tr_dir s = SELL -> tr_oq b = tr_oq s -> tr_closes b = tr_closes s ->
    tr_ov b = tr_ov s -> tr_cv b = tr_cv s -> R (opened_result b) (opened_result s).
  Proof using HR.
    intros Db Ds E1 E2 E3 E4. unfold opened_result, opened_result_avg. rewrite Db, Ds, (mi_closed b s), (mi_openq b s), E3, E4 by auto.
    apply (sy_mul R HR). destruct (closed s); [apply (sy_0 R HR)|]. apply (sy_round R HR), (sy_swap R HR).
  Qed.
  Lemma mi_closed_result (b s : trade F) : tr_dir b = BUY -> tr_dir s = SELL -> tr_closes b = tr_closes s -> tr_ov b = tr_ov s ->
    R (closed_result b) (closed_result s).
  Proof using HR.
    intros Db Ds E2 E3. unfold closed_result, fsum. rewrite E2. assert (R f0 f0) as H0 by apply (sy_0 R HR). revert H0.
    generalize (@f0 F _) at 1 3. generalize (@f0 F _). clear E2. induction (tr_closes s) as [|c l IH]; simpl; intros x y Hxy; [auto|].
    apply IH. apply (sy_add R HR); [auto|]. unfold close_result, close_result_avg. rewrite Db, Ds, E3.
    apply (sy_round R HR), (sy_mul R HR), (sy_round R HR), (sy_swap R HR).
  Qed.
  Lemma mi_result (b s : trade F) : tr_dir b = BUY -> tr_dir s = SELL -> tr_oq b = tr_oq s -> tr_closes b = tr_closes s ->
    tr_ov b = tr_ov s -> tr_cv b = tr_cv s -> R (result b) (result s).
  Proof using HR. intros. apply (sy_add R HR); [now apply mi_opened_result|now apply mi_closed_result]. Qed.

  Lemma result_set_maxmin (t : trade F) a b : result (set_maxmin t a b) = result t. Proof. reflexivity. Qed.

  Lemma mirror_init q ov dt e cv st ref : mirror (trade_init BUY q ov dt e cv st ref) (trade_init SELL q ov dt e cv st ref).
  Proof using HR.
    unfold trade_init. constructor; cbn [set_maxmin tr_dir tr_oq tr_closes tr_ov tr_cv tr_max tr_min]; try reflexivity; now apply mi_result.
  Qed.
  Lemma mirror_update (b s : trade F) v : mirror b s -> mirror (update b v) (update s v).
  Proof using HR.
    intros M. destruct M as [Db Ds E1 E2 E3 E4 M1 M2]. unfold update. rewrite (mi_closed b s) by auto.
    destruct (closed s); [now constructor|].
    assert (R (result (set_cv b v)) (result (set_cv s v))) as HRs by (now apply mi_result).
    set (b1 := set_cv b v) in *. set (s1 := set_cv s v) in *.
    unfold update_min_max.
    assert (fltb (tr_max b1) (result b1) = fltb (result s1) (tr_min s1)) as L1 by (now apply (sy_lt R HR)).
    assert (fltb (result b1) (tr_min b1) = fltb (tr_max s1) (result s1)) as L2 by (now apply (sy_lt R HR)).
    rewrite L1. destruct (fltb (tr_max s1) (result s1)) eqn:A; destruct (fltb (result s1) (tr_min s1)) eqn:B;
      rewrite ?result_set_maxmin; cbn [set_maxmin tr_max tr_min]; rewrite ?L2, ?B;
      constructor; cbn [set_maxmin tr_dir tr_oq tr_closes tr_ov tr_cv tr_max tr_min]; auto.
  Qed.
  Lemma mirror_call (b s : trade F) c : mirror b s -> mirror (do_call b c) (do_call s c).
  Proof using HR.
    intros M. destruct c as [v|v d q ref]; simpl; [now apply mirror_update|]. unfold close. destruct d as [|a]; simpl; [auto|].
    destruct M as [Db Ds E1 E2 E3 E4 M1 M2].
    assert (close_quantity b q = close_quantity s q) as -> by (unfold close_quantity; now rewrite (mi_openq b s)).
    constructor; cbn [set_closes tr_dir tr_oq tr_closes tr_ov tr_cv tr_max tr_min]; auto. now rewrite E2.
  Qed.
  Lemma mirror_calls l (b s : trade F)  : mirror b s -> mirror (do_calls b l) (do_calls s l).
  Proof using HR. revert b s. induction l as [|c l IH]; simpl; intros b s M; [auto|]. apply IH. now apply mirror_call. Qed.
  Lemma mirror_run q ov dt e cv st ref l : let b := do_calls (trade_init BUY q ov dt e cv st ref) l in let s := do_calls (trade_init SELL q ov dt e cv st ref) l in
    tr_closes s = tr_closes b /\ opened_quantities s = opened_quantities b /\ closed_quantities s = closed_quantities b /\ closed s = closed b /\
    R (result b) (result s) /\ R (opened_result b) (opened_result s) /\ R (closed_result b) (closed_result s) /\
    R (tr_max b) (tr_min s) /\ R (tr_min b) (tr_max s).
  Proof using HR.
    intros b s. destruct (mirror_calls l _ _ (mirror_init q ov dt e cv st ref)) as [Db Ds E1 E2 E3 E4 M1 M2]. fold b s in Db, Ds, E1, E2, E3, E4, M1, M2.
    split; [auto|]. split; [symmetry; now apply mi_openq|]. split; [symmetry; now apply mi_closedq|]. split; [symmetry; now apply mi_closed|].
    split; [now apply mi_result|]. split; [now apply mi_opened_result|]. split; [now apply mi_closed_result|]. auto.
  Qed.
End mirror.

Open Scope Q_scope.
Lemma sym_Q : sym_laws (fun x y : Q => y == - x).
Proof.
  constructor.
  - reflexivity.
  - intros x y. rewrite !qsub. ring.
  - intros x y E. rewrite !qr2. rewrite <- Qround2_opp. now apply Qround2_proper.
  - intros x y z E. rewrite !qmul, E. ring.
  - intros x y x' y' E1 E2. rewrite !qadd, E1, E2. ring.
  - intros x y x' y' E1 E2. apply eq_iff_eq_true. rewrite !qltb, E1, E2. split; intros; lra.
Qed.

(** ** The quantity closed at each price determines the results *)
Lemma pnl_split u (p : Q) (l : list (tclose Q)) : (forall x y, x == y -> u x == u y) ->
  pnl u l == u p * inject_Z (booked_at p l) + pnl u (List.filter (fun c => negb (Qeq_bool (tc_value c) p)) l).
Proof.
  intros Hu. unfold booked_at. induction l as [|c l IH]; simpl; [ring|].
  destruct (Qeq_bool (tc_value c) p) eqn:E; simpl.
  - apply Qeq_bool_iff in E. rewrite IH, (Hu _ _ E), inject_Z_plus. ring.
  - rewrite IH. ring.
Qed.
Lemma booked_at_filter p p' l : booked_at p' (List.filter (fun c => negb (Qeq_bool (tc_value c) p)) l) = (if Qeq_bool p p' then 0 else booked_at p' l)%Z.
Proof.
  unfold booked_at. induction l as [|c l IH]; simpl; [now destruct (Qeq_bool p p')|].
  destruct (Qeq_bool (tc_value c) p) eqn:E; simpl.
  - rewrite IH. destruct (Qeq_bool p p') eqn:E2; [reflexivity|]. destruct (Qeq_bool (tc_value c) p') eqn:E3; [|reflexivity].
    exfalso. apply Qeq_bool_iff in E, E3. assert (p == p') as E4 by (now rewrite <- E). apply Qeq_bool_iff in E4. congruence.
  - destruct (Qeq_bool (tc_value c) p') eqn:E3; simpl; rewrite IH; destruct (Qeq_bool p p') eqn:E2; try reflexivity.
    exfalso. apply Qeq_bool_iff in E3, E2. assert (tc_value c == p) as E4 by (now rewrite E2). apply Qeq_bool_iff in E4. congruence.
Qed.
Lemma filter_length_le {A} (f : A -> bool) l : (length (List.filter f l) <= length l)%nat.
Proof. induction l as [|x l IH]; simpl; [lia|]. destruct (f x); simpl; lia. Qed.
Lemma pnl_booked u n (l k : list (tclose Q)) : (forall x y, x == y -> u x == u y) -> (length l + length k < n)%nat ->
  (forall p, booked_at p l = booked_at p k) -> pnl u l == pnl u k.
Proof.
  intros Hu. revert l k. induction n as [|n IH]; intros l k Hn Hb; [lia|].
  assert (forall c l' k', l ++ k = c :: l' -> k' = k -> pnl u l == pnl u k) as Hc.
  { intros c l' k' El _. rewrite (pnl_split u (tc_value c) l Hu), (pnl_split u (tc_value c) k Hu), Hb.
    enough (pnl u (List.filter (fun d => negb (Qeq_bool (tc_value d) (tc_value c))) l) == pnl u (List.filter (fun d => negb (Qeq_bool (tc_value d) (tc_value c))) k)) as -> by reflexivity.
    apply IH.
    - set (f := fun d : tclose Q => negb (Qeq_bool (tc_value d) (tc_value c))).
      assert (f c = false) as Hf. { unfold f. assert (Qeq_bool (tc_value c) (tc_value c) = true) as -> by (apply Qeq_bool_iff; reflexivity). reflexivity. }
      assert (length (List.filter f (l ++ k)) < length (l ++ k))%nat as H1.
      { rewrite El. simpl. rewrite Hf. pose proof (filter_length_le f l'). lia. }
      rewrite List.filter_app, !app_length in H1. lia.
    - intros p. rewrite !booked_at_filter. now rewrite Hb. }
  destruct (l ++ k) as [|c l'] eqn:E.
  - apply app_eq_nil in E as [-> ->]. reflexivity.
  - now apply (Hc c l' k).
Qed.
Lemma total_booked_n n (l k : list (tclose Q)) : (length l + length k < n)%nat -> (forall p, booked_at p l = booked_at p k) -> booked l = booked k.
Proof.
  intros Hn Hb. assert (pnl (fun _ => 1) l == pnl (fun _ => 1) k) as E by (apply (pnl_booked _ n); auto; reflexivity).
  assert (forall m : list (tclose Q), pnl (fun _ => 1) m == inject_Z (booked m)) as P.
  { unfold booked. induction m as [|c m IH]; simpl; [reflexivity|]. rewrite IH, inject_Z_plus. ring. }
  rewrite !P in E. now apply inject_Z_eq in E.
Qed.
Lemma unit_res_proper d ov ov' x y : ov == ov' -> x == y -> unit_res d ov x == unit_res d ov' y.
Proof. intros E1 E2. unfold unit_res. apply Qround2_proper. now rewrite E1, E2. Qed.
Lemma pnl_ext2 u u' (l : list (tclose Q)) : (forall x, u x == u' x) -> pnl u l == pnl u' l.
Proof. intros E. apply pnl_ext. auto. Qed.

Lemma result_by_price (t t' : trade Q) : tr_dir t = tr_dir t' -> tr_ov t == tr_ov t' -> tr_cv t == tr_cv t' -> tr_oq t = tr_oq t' ->
  (forall p, booked_at p (tr_closes t) = booked_at p (tr_closes t')) ->
  closed_quantities t = closed_quantities t' /\ opened_quantities t = opened_quantities t' /\ closed_result t == closed_result t' /\ result t == result t'.
Proof.
  intros Ed Eo Ec Eq Hb.
  assert (closed_quantities t = closed_quantities t') as E1 by (rewrite !closed_quantities_booked; eapply total_booked_n; eauto).
  assert (opened_quantities t = opened_quantities t') as E2 by (unfold opened_quantities; now rewrite E1, Eq).
  assert (pnl (unit_res (tr_dir t) (tr_ov t)) (tr_closes t) == pnl (unit_res (tr_dir t') (tr_ov t')) (tr_closes t')) as E3.
  { rewrite (pnl_ext2 _ (unit_res (tr_dir t') (tr_ov t'))) by (intros x; rewrite Ed; apply unit_res_proper; [auto|reflexivity]).
    eapply pnl_booked; eauto. intros x y E. apply unit_res_proper; [reflexivity|auto]. }
  split; [auto|]. split; [auto|]. split; [now rewrite !q_closed_result|].
  rewrite !q_result, E3, E2. rewrite (unit_res_proper (tr_dir t) (tr_ov t) (tr_ov t') (tr_cv t) (tr_cv t')), Ed by auto. reflexivity.
Qed.

(** ** Only price differences matter *)
Lemma result_moved d (t t' : trade Q) : tr_dir t' = tr_dir t -> tr_ov t' == tr_ov t + d -> tr_cv t' == tr_cv t + d -> tr_oq t' = tr_oq t ->
  Forall2 (moved d) (tr_closes t) (tr_closes t') -> closed_result t' == closed_result t /\ result t' == result t.
Proof.
  intros Ed Eo Ec Eq Hm.
  assert (booked (tr_closes t') = booked (tr_closes t)) as E1. { unfold booked. clear -Hm. induction Hm as [|c c' l l' [_ E] _ IH]; simpl; [auto|]. now rewrite E, IH. }
  assert (opened_quantities t' = opened_quantities t) as E2 by (unfold opened_quantities; now rewrite !closed_quantities_booked, E1, Eq).
  assert (forall v v', v' == v + d -> unit_res (tr_dir t') (tr_ov t') v' == unit_res (tr_dir t) (tr_ov t) v) as Hu.
  { intros v v' E. unfold unit_res. rewrite Ed. apply Qround2_proper. rewrite E, Eo. ring. }
  assert (pnl (unit_res (tr_dir t') (tr_ov t')) (tr_closes t') == pnl (unit_res (tr_dir t) (tr_ov t)) (tr_closes t)) as E3.
  { clear -Hm Hu. induction Hm as [|c c' l l' [E1 E2] _ IH]; simpl; [reflexivity|]. now rewrite (Hu _ _ E1), E2, IH. }
  rewrite !q_closed_result, !q_result, E3, E2, (Hu _ _ Ec). split; reflexivity.
Qed.

Record shifted (d : Q) (t t' : trade Q) : Prop := {
  sh_dir : tr_dir t' = tr_dir t; sh_ov : tr_ov t' == tr_ov t + d; sh_cv : tr_cv t' == tr_cv t + d; sh_oq : tr_oq t' = tr_oq t;
  sh_cl : Forall2 (moved d) (tr_closes t) (tr_closes t'); sh_max : tr_max t' == tr_max t; sh_min : tr_min t' == tr_min t }.
Lemma moved_closedq d (t t' : trade Q) : Forall2 (moved d) (tr_closes t) (tr_closes t') -> closed_quantities t' = closed_quantities t.
Proof. intros Hm. rewrite !closed_quantities_booked. unfold booked. induction Hm as [|c c' l l' [_ E] _ IH]; simpl; [auto|]. now rewrite E, IH. Qed.
Lemma moved_openq d (t t' : trade Q) : tr_oq t' = tr_oq t -> Forall2 (moved d) (tr_closes t) (tr_closes t') -> opened_quantities t' = opened_quantities t.
Proof. intros E Hm. unfold opened_quantities. now rewrite (moved_closedq d t t'), E. Qed.
Lemma moved_closed d (t t' : trade Q) : tr_oq t' = tr_oq t -> Forall2 (moved d) (tr_closes t) (tr_closes t') -> closed t' = closed t.
Proof. intros E Hm. unfold closed. now rewrite (moved_openq d t t'). Qed.
Lemma shifted_result d t t' : shifted d t t' -> result t' == result t.
Proof. intros []. now apply (result_moved d). Qed.
Lemma qltb_proper (x x' y y' : Q) : x == x' -> y == y' -> fltb x y = fltb x' y'.
Proof. intros E1 E2. apply eq_iff_eq_true. rewrite !qltb, E1, E2. reflexivity. Qed.
Lemma shifted_update d t t' v v' : v' == v + d -> shifted d t t' -> shifted d (update t v) (update t' v').
Proof.
  intros Ev S. unfold update. assert (closed t' = closed t) as E by (destruct S; now apply (moved_closed d)). rewrite E. clear E. destruct (closed t); [auto|].
  assert (shifted d (set_cv t v) (set_cv t' v')) as S1 by (destruct S; constructor; auto).
  revert S1. generalize (set_cv t v) as t1. generalize (set_cv t' v') as t1'. clear. intros t' t S.
  assert (shifted d (if fltb (tr_max t) (result t) then set_maxmin t (result t) (tr_min t) else t)
                    (if fltb (tr_max t') (result t') then set_maxmin t' (result t') (tr_min t') else t')) as S1.
  { rewrite (qltb_proper (tr_max t') (tr_max t) (result t') (result t)) by (first [apply (sh_max d t t' S)|now apply (shifted_result d)]).
    destruct (fltb _ _); [|auto]. pose proof (shifted_result d t t' S). destruct S; constructor; auto. }
  unfold update_min_max. revert S1. match goal with |- shifted _ ?a ?b -> _ => generalize a b end. clear. intros t t' S. cbv zeta.
  rewrite (qltb_proper (result t') (result t) (tr_min t') (tr_min t)) by (first [apply (sh_min d t t' S)|now apply (shifted_result d)]).
  destruct (fltb _ _); [|auto]. pose proof (shifted_result d t t' S). destruct S; constructor; auto.
Qed.
Lemma shifted_call d t t' c c' : moved_call d c c' -> shifted d t t' -> shifted d (do_call t c) (do_call t' c').
Proof.
  intros Hc S. destruct Hc as [v v' E|v v' dt q ref E]; simpl; [now apply shifted_update|].
  unfold close. destruct dt as [|a]; simpl; [auto|].
  assert (close_quantity t' q = close_quantity t q) as E1 by (unfold close_quantity; destruct S; now rewrite (moved_openq d t t')).
  destruct S. constructor; cbn [set_closes tr_dir tr_oq tr_closes tr_ov tr_cv tr_max tr_min]; auto.
  apply Forall2_app; [auto|]. constructor; [|constructor]. split; simpl; auto.
Qed.
Lemma shifted_init d dir q (ov cv ov' cv' : Q) dt e st ref : ov' == ov + d -> cv' == cv + d -> ~ cv == 0 -> ~ cv' == 0 ->
  shifted d (trade_init dir q ov dt e (Some cv) st ref) (trade_init dir q ov' dt e (Some cv') st ref).
Proof.
  intros Eo Ec N N'. apply qtruthy in N, N'. unfold trade_init. rewrite N, N'.
  match goal with |- shifted _ (set_maxmin ?t _ _) (set_maxmin ?t' _ _) => assert (result t' == result t) as E end.
  { apply (result_moved d); simpl; auto. }
  constructor; cbn [set_maxmin tr_dir tr_oq tr_closes tr_ov tr_cv tr_max tr_min]; auto.
Qed.
Lemma moved_run d dir q (ov cv ov' cv' : Q) dt e st ref l l' : ov' == ov + d -> cv' == cv + d -> ~ cv == 0 -> ~ cv' == 0 -> Forall2 (moved_call d) l l' ->
  let t := do_calls (trade_init dir q ov dt e (Some cv) st ref) l in let t' := do_calls (trade_init dir q ov' dt e (Some cv') st ref) l' in
  opened_quantities t' = opened_quantities t /\ closed_quantities t' = closed_quantities t /\ closed t' = closed t /\
  result t' == result t /\ opened_result t' == opened_result t /\ closed_result t' == closed_result t /\ tr_max t' == tr_max t /\ tr_min t' == tr_min t.
Proof.
  intros Eo Ec N N' Hl t t'. assert (shifted d t t') as S.
  { subst t t'. pose proof (shifted_init d dir q ov cv ov' cv' dt e st ref Eo Ec N N') as S. revert S. generalize (trade_init dir q ov dt e (Some cv) st ref).
    generalize (trade_init dir q ov' dt e (Some cv') st ref). unfold do_calls. induction Hl as [|c c' l l' Hc _ IH]; intros t' t S; simpl; [auto|]. apply IH. now apply shifted_call. }
  pose proof (shifted_result d t t' S) as Er. destruct S as [S1 S2 S3 S4 S5 S6 S7].
  destruct (result_moved d t t') as [E1 _]; auto.
  split; [now apply (moved_openq d)|]. split; [now apply (moved_closedq d)|]. split; [now apply (moved_closed d)|]. split; [auto|].
  split; [|auto]. assert (forall s : trade Q, opened_result s == result s - closed_result s) as A.
  { intros s. unfold result. rewrite qadd. ring. }
  rewrite !A, Er, E1. reflexivity.
Qed.
