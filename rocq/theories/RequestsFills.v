(** Results after an assignment by a request (exact arithmetic); requests that only assign a status. *)
From Coq Require Import QArith Lqa.
From Verif Require Export RequestsProofs.
Open Scope Z_scope.

Section built_in.
  Context {F : Type} `{Num F}.
  Lemma tweak_status_job (k : pkind) so sc (j : job) (l : list (trade F)) : k = PCustom so sc \/ k = PBacktests /\ so = CONFIRMED /\ sc = CONFIRMED ->
    tweak_job j (TwStatus (match j with JOpen _ => so | JClose _ _ => sc end)) l = job_effect k j l.
  Proof. intros [->|(-> & -> & ->)]; destruct j; reflexivity. Qed.
  Theorem answered (rq : requests F) (s : lstate F) pid k p th so sc : w_provs (l_w s) !! pid = Some p -> pv_threads p !! k = Some th -> th_done th = false ->
    pv_kind p = PCustom so sc \/ pv_kind p = PBacktests /\ so = CONFIRMED /\ sc = CONFIRMED ->
    (forall r, (pid, k, r) ∉ l_code s) -> (forall w, rq pid (th_job th) w = replies so sc (th_job th)) ->
    l_w (act rq (act rq s pid k) pid k) = run_thread (l_w s) pid k.
  Proof.
    intros Hp Hk Hd Hkind Hn Hr.
    assert (code rq s pid k (th_job th) = replies so sc (th_job th)) as Ec.
    { unfold code. destruct (List.find _ _) as [[[a b] r]|] eqn:E; [|apply Hr]. apply find_some in E as [E1 E2]. simpl in E2. apply andb_true_iff in E2 as [E2 E3].
      apply Nat.eqb_eq in E2, E3. subst. elim (Hn r). now apply elem_of_list_In. }
    set (a := match th_job th with JOpen _ => so | JClose _ _ => sc end).
    assert (replies so sc (th_job th) = (reply a : request F)) as Ea by (unfold a; now destruct (th_job th)). rewrite Ea in Ec. unfold reply in Ec.
    unfold act at 2. rewrite Hp. simpl. rewrite Hk. simpl. rewrite Hd, Ec. unfold act. cbn [l_w w_provs upd_trades]. rewrite Hp. simpl. rewrite Hk. simpl. rewrite Hd.
    unfold code at 1. simpl. rewrite !Nat.eqb_refl. simpl. unfold run_thread. rewrite Hp, Hk, Hd. unfold finish. simpl.
    rewrite (alter_is_insert _ _ _ _ Hp), (alter_is_insert _ _ _ _ Hk). unfold a. rewrite (tweak_status_job (pv_kind p) so sc (th_job th)) by auto. reflexivity.
  Qed.
End built_in.

Open Scope Q_scope.
Lemma pnl_shift (a b : Q) (l : list (tclose Q)) : pnl (fun v => v - b) l == pnl (fun v => v - a) l + (a - b) * inject_Z (booked l).
Proof.
  induction l as [|c l IH]; [unfold booked; simpl; ring|]. rewrite booked_cons, inject_Z_plus. cbn [pnl]. rewrite IH. ring.
Qed.
Lemma pnl_set u (f : tclose Q -> tclose Q) (l : list (tclose Q)) n c : l !! n = Some c ->
  pnl u (alter f n l) == pnl u l + (u (tc_value (f c)) * inject_Z (tc_qty (f c)) - u (tc_value c) * inject_Z (tc_qty c)).
Proof.
  revert n. induction l as [|x l IH]; intros [|n] E; simpl in E; [discriminate|discriminate| |].
  - injection E as ->. change (alter f 0%nat (c :: l)) with (f c :: l). cbn [pnl]. ring.
  - change (alter f (S n) (x :: l)) with (x :: alter f n l). cbn [pnl]. rewrite (IH n E). ring.
Qed.
Lemma pnl_of t : in_cents t -> result t == sgn (tr_dir t) * (pnl (fun v => v - tr_ov t) (tr_closes t) + (tr_cv t - tr_ov t) * inject_Z (opened_quantities t)).
Proof. intros (A & B & C). now apply pnl_exact. Qed.
Lemma inject_opened (t : trade Q) : inject_Z (opened_quantities t) == inject_Z (tr_oq t) - inject_Z (booked (tr_closes t)).
Proof. rewrite opened_booked. unfold Z.sub. rewrite inject_Z_plus, inject_Z_opp. ring. Qed.

Theorem fill_price (t t' : trade Q) v : in_cents t -> cents v -> opening_set (TwPrice v) t t' ->
  result t' == result t + sgn (tr_dir t) * (tr_ov t - v) * inject_Z (tr_oq t).
Proof.
  intros Hc Hv (K & E1 & E2 & E3 & E4). simpl in *.
  assert (in_cents t') as Hc' by (destruct Hc as (A & B & C); split; [now rewrite E3|split; [now rewrite (q_cv _ _ K)|now rewrite E1]]).
  rewrite (pnl_of t Hc), (pnl_of t' Hc'), (q_dir _ _ K), (q_cv _ _ K), !inject_opened, E1, E3, E4, (pnl_shift (tr_ov t) v). ring.
Qed.
Theorem fill_quantity (t t' : trade Q) q : in_cents t -> opening_set (TwQuantity q) t t' ->
  result t' == result t + sgn (tr_dir t) * (tr_cv t - tr_ov t) * (inject_Z q - inject_Z (tr_oq t)).
Proof.
  intros Hc (K & E1 & E2 & E3 & E4). simpl in *.
  assert (in_cents t') as Hc' by (destruct Hc as (A & B & C); split; [now rewrite E3|split; [now rewrite (q_cv _ _ K)|now rewrite E1]]).
  rewrite (pnl_of t Hc), (pnl_of t' Hc'), (q_dir _ _ K), (q_cv _ _ K), !inject_opened, E1, E3, E4. ring.
Qed.
Lemma closing_closes x n (t t' : trade Q) c : closing_set x n t t' -> tr_closes t !! n = Some c ->
  exists c', tr_closes t' = alter (fun _ => c') n (tr_closes t) /\ tc_value c' = match x with TwPrice v => v | _ => tc_value c end /\ tc_qty c' = match x with TwQuantity q => q | _ => tc_qty c end.
Proof.
  intros (_ & _ & _ & _ & L & Ho & Hn) Hc. destruct (Hn c Hc) as (c' & Hc' & _ & _ & _ & E1 & E2). exists c'. split; [|auto].
  apply list_eq. intros m. destruct (decide (n = m)) as [<-|Hm]; [now rewrite list_lookup_alter, Hc, Hc'|now rewrite list_lookup_alter_ne, Ho by auto].
Qed.
Theorem fill_close (t t' : trade Q) n c v : in_cents t -> cents v -> closing_set (TwPrice v) n t t' -> tr_closes t !! n = Some c ->
  result t' == result t + sgn (tr_dir t) * (v - tc_value c) * inject_Z (tc_qty c).
Proof.
  intros Hc Hv S Hn. destruct (closing_closes _ _ _ _ _ S Hn) as (c' & E & E1 & E2). destruct S as (K & E3 & E4 & E5 & _).
  assert (in_cents t') as Hc'.
  { destruct Hc as (A & B & C). split; [now rewrite E4|]. split; [now rewrite (q_cv _ _ K)|]. rewrite E. intros y Hy. apply elem_of_list_lookup in Hy as (m & Hy).
    destruct (decide (n = m)) as [<-|Hm]; [rewrite list_lookup_alter, Hn in Hy; simpl in Hy; injection Hy as <-; now rewrite E1|].
    rewrite list_lookup_alter_ne in Hy by auto. apply C. eapply elem_of_list_lookup_2; eauto. }
  rewrite (pnl_of t Hc), (pnl_of t' Hc'), (q_dir _ _ K), (q_cv _ _ K), !inject_opened, E4, E5, E, (pnl_set _ _ _ _ _ Hn), (booked_alter _ _ _ _ Hn), E1, E2.
  unfold Z.sub. rewrite !inject_Z_plus, inject_Z_opp. ring.
Qed.
Theorem fill_close_quantity (t t' : trade Q) n c q : in_cents t -> closing_set (TwQuantity q) n t t' -> tr_closes t !! n = Some c ->
  result t' == result t + sgn (tr_dir t) * (tc_value c - tr_cv t) * (inject_Z q - inject_Z (tc_qty c)).
Proof.
  intros Hc S Hn. destruct (closing_closes _ _ _ _ _ S Hn) as (c' & E & E1 & E2). destruct S as (K & E3 & E4 & E5 & _).
  assert (in_cents t') as Hc'.
  { destruct Hc as (A & B & C). split; [now rewrite E4|]. split; [now rewrite (q_cv _ _ K)|]. rewrite E. intros y Hy. apply elem_of_list_lookup in Hy as (m & Hy).
    destruct (decide (n = m)) as [<-|Hm]; [rewrite list_lookup_alter, Hn in Hy; simpl in Hy; injection Hy as <-; rewrite E1; apply C; eapply elem_of_list_lookup_2; eauto|].
    rewrite list_lookup_alter_ne in Hy by auto. apply C. eapply elem_of_list_lookup_2; eauto. }
  rewrite (pnl_of t Hc), (pnl_of t' Hc'), (q_dir _ _ K), (q_cv _ _ K), !inject_opened, E4, E5, E, (pnl_set _ _ _ _ _ Hn), (booked_alter _ _ _ _ Hn), E1, E2.
  unfold Z.sub. rewrite !inject_Z_plus, inject_Z_opp. ring.
Qed.
