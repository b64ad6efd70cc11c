(** Concrete trades and worlds on Python floats. *)
From Coq Require Import Reals.
From Flocq Require Import Core BinarySingleNaN.
From Verif Require Export FloatExamples FloatEnvelopeProofs FloatStrategyProofs FloatFrozenProofs.
From Verif Require Import SpecTrade TradeProofs World SpecWorld WorldExamples ProviderProofs.
From Coq Require Import Lra.
Open Scope Z_scope.

Lemma feq_decimal k (x : b64) : (Z.abs k <= 2 ^ 53)%Z -> feqb x (dec k) = true -> is_finite x = true -> decimal k x.
Proof. intros Hk E F. destruct (dec_decimal k Hk) as [Fd Ed]. split; [auto|]. apply feq_fin in E; auto. now rewrite E. Qed.
Lemma ftick_quotes b k j : Z.abs k <= b -> Z.abs j <= b -> b <= 2 ^ 53 -> cent_quotes b (ftick k j).
Proof. intros Hk Hj Hb. exists k, j. split; [apply dec_decimal; lia|]. split; [apply dec_decimal; lia|]. auto. Qed.
(** A BUY of 4 opened at 0.02, 3 of 4 closed at 0.85. *)
Definition ftrade_open : trade b64 := trade_init BUY 4 (tk_ask (ftick 1 2)) (tk_dt (ftick 1 2)) 0 (Some (tk_bid (ftick 1 2))) None "t".
Definition ftrade_closed : trade b64 := match close_from_tick ftrade_open (ftick 85 86) (Some 3) "c" with Ok (t, _) => t | Err _ => ftrade_open end.
Lemma fpriced : priced 100 4 ftrade_closed [result ftrade_closed; result (update_from_tick ftrade_open (ftick 85 86)); result ftrade_open].
Proof.
  eapply (priced_close 100 4 ftrade_open _ (ftick 85 86) (Some 3) "c" ftrade_closed); [apply ftick_quotes; lia|cbn; lia| |reflexivity].
  eapply (priced_open 100 4 (ftick 1 2) 0 BUY None "t"); [apply ftick_quotes; lia|reflexivity].
Qed.

(** The same trade closed at 0.85, and closed again at 0.86. *)
Definition ftrade_full : trade b64 := match close_from_tick ftrade_open (ftick 85 86) None "c" with Ok (t, _) => t | Err _ => ftrade_open end.
Definition ftrade_again : trade b64 := match close ftrade_full (dec 86) (DtAware (tk_dt (ftick 85 86))) (Some 2) "d" with Ok (t, _) => t | Err _ => ftrade_open end.
Lemma dec_within k : Z.abs k <= 100 * 2 ^ 30 -> within 1000 (dec k).
Proof. intros Hk. eapply bounded_weaken; [|eapply decimal_within; [|apply abs_cents; exact Hk|apply dec_decimal; lia]]; lia. Qed.
Lemma ftrade_full_ex : closed ftrade_full = true /\ is_finite (result ftrade_full) = true /\ rtc trade_call ftrade_full ftrade_again /\ length (tr_closes ftrade_again) = 2%nat /\
  Forall (fun c => within 1000 (tc_value c)) (tr_closes ftrade_again) /\ feqb (result ftrade_again) (dec 332) = true.
Proof.
  split; [vm_compute; reflexivity|]. split; [vm_compute; reflexivity|]. split.
  { apply rtc_once. eapply (call_close ftrade_full (dec 86) (DtAware (tk_dt (ftick 85 86))) (Some 2) "d"); [cbn; lia|reflexivity]. }
  split; [vm_compute; reflexivity|]. split; [|vm_compute; reflexivity].
  apply Forall_cons; split; [apply (dec_within 85); lia|]. apply Forall_cons; split; [apply (dec_within 86); lia|constructor].
Qed.

(** Decides [cent_pnl] on concrete trades. *)
Definition cents_of (x : b64) (k : Z) : bool := feqb x (dec k) && is_finite x && (Z.abs k <=? 100 * 2 ^ 30).
Definition pnl_check (t : trade b64) (ko kv : Z) (ks : list Z) : bool :=
  cents_of (tr_ov t) ko && cents_of (tr_cv t) kv && (length (tr_closes t) =? length ks)%nat && forallb (fun p => cents_of (tc_value (fst p)) (snd p)) (combine (tr_closes t) ks) &&
  (Z.abs (opened_quantities t) <=? 2 ^ 53) && forallb (fun c => Z.abs (tc_qty c) <=? 2 ^ 53) (tr_closes t).
Lemma cents_of_decimal x k : cents_of x k = true -> decimal k x /\ Z.abs k <= 100 * 2 ^ 30.
Proof. unfold cents_of. intros H. apply andb_prop in H as [H H3]. apply andb_prop in H as [H1 H2]. apply Z.leb_le in H3. split; [apply feq_decimal; auto; lia|auto]. Qed.
Lemma pnl_check_cents t ko kv ks : pnl_check t ko kv ks = true ->
  cent_pnl t (side (tr_dir t) * (SpecTrade.total (zip_with (fun c k => (k - ko) * tc_qty c) (tr_closes t) ks) + (kv - ko) * opened_quantities t))
    (SpecTrade.total (zip_with (fun c k => Z.abs ((k - ko) * tc_qty c)) (tr_closes t) ks) + Z.abs ((kv - ko) * opened_quantities t)).
Proof.
  unfold pnl_check. intros H. apply andb_prop in H as [H H6]. apply andb_prop in H as [H H5]. apply andb_prop in H as [H H4]. apply andb_prop in H as [H H3]. apply andb_prop in H as [H1 H2].
  apply cents_of_decimal in H1 as [D1 B1], H2 as [D2 B2]. apply Nat.eqb_eq in H3. apply Z.leb_le in H5. rewrite forallb_forall in H6.
  exists ko, kv, ks. split; [auto|]. split; [auto|].
  assert (Forall2 (fun c k => decimal k (tc_value c) /\ Z.abs k <= 100 * 2 ^ 30) (tr_closes t) ks) as HF.
  { revert H3 H4. clear. revert ks. induction (tr_closes t) as [|c l IH]; intros [|k ks] E H; try discriminate E; [constructor|]. cbn [combine forallb fst snd] in H. apply andb_prop in H as [H H']. constructor; [now apply cents_of_decimal|]. apply IH; [now injection E|auto]. }
  split; [eapply Forall2_impl; [exact HF|]; now intros ? ? [? ?]|]. split; [auto|]. split; [auto|]. split; [clear - HF; induction HF as [|? ? ? ? [_ ?] ? ?]; constructor; auto|]. split; [auto|].
  split; [apply Forall_forall; intros c Hc; apply Z.leb_le, H6; now apply elem_of_list_In|]. split; reflexivity.
Qed.

(** 1 unit then 2 units of the same trade closed at 0.85 and 0.86. *)
Definition ftrade_two : trade b64 :=
  match close_from_tick ftrade_open (ftick 85 86) (Some 1) "c" with
  | Ok (t, _) => match close_from_tick t (ftick 86 87) (Some 2) "d" with Ok (t', _) => t' | Err _ => t end
  | Err _ => ftrade_open
  end.
Lemma ftrade_two_ex : cent_pnl ftrade_two 335 335 /\ length (tr_closes ftrade_two) = 2%nat /\ map tc_qty (tr_closes ftrade_two) = [1; 2] /\
  match closed_result_avg ftrade_two with Ok v => feqb v (dec 84) = true | Err _ => False end.
Proof.
  split; [|split; [vm_compute; reflexivity|split; vm_compute; reflexivity]].
  pose proof (pnl_check_cents ftrade_two 2 86 [85; 86]) as H. assert (pnl_check ftrade_two 2 86 [85; 86] = true) as E by (vm_compute; reflexivity). specialize (H E). clear E.
  match type of H with cent_pnl _ ?a ?b => assert (a = 335) as Ea by (vm_compute; reflexivity); assert (b = 335) as Eb by (vm_compute; reflexivity); rewrite Ea, Eb in H; exact H end.
Qed.

(** One epic, one strategy: a BUY of 4 at 0.02 of which 3 are closed at 0.85, then a BUY of 7 at 0.87 valued at 1.05. *)
Definition fquiet : programs b64 := fun _ _ _ _ => SDone.
Definition fops : list (op b64) :=
  [ONewProvider PBacktests; ONewStrategy "s"; ONewEpic "A" (Some tz_UTC) 0 86399999999 None None (Some 0%nat);
   OTick 0 (fmin_tick 0 1 2); OCmd (COpen 0 (Dir BUY) 4 (Some 0%nat) "a"); OTick 0 (fmin_tick 1 85 87); OCmd (CClose 0 (Some 3) "c");
   OCmd (COpen 0 (Dir BUY) 7 (Some 0%nat) "b"); OTick 0 (fmin_tick 2 105 106)].
Definition fworld : world b64 := run fquiet empty_world fops.
Definition ftr (i : nat) : trade b64 := nth i (w_trades fworld) ftrade0.
Lemma fworld_len : length (w_trades fworld) = 2%nat. Proof. vm_compute. reflexivity. Qed.
Lemma ftr_lookup i : (i < 2)%nat -> w_trades fworld !! i = Some (ftr i).
Proof. intros Hi. unfold ftr. rewrite <- fworld_len in Hi. revert Hi. generalize (w_trades fworld). intros l Hi. destruct (lookup_lt_is_Some_2 l i Hi) as [t E]. rewrite E. f_equal. symmetry. rewrite <- (nth_lookup_Some l i ftrade0 t E). reflexivity. Qed.
Lemma fworld_ex : w_trades fworld !! 0%nat = Some (ftr 0) /\ w_trades fworld !! 1%nat = Some (ftr 1) /\ cent_pnl (ftr 0) 352 352 /\ cent_pnl (ftr 1) 126 126 /\
  feqb (result (ftr 0)) (dec 352) = false /\ match w_strats fworld with s :: _ => st_trades s = [0; 1]%nat /\ feqb (strategy_result fworld s TNone) (dec 478) = true | [] => False end.
Proof.
  split; [now apply ftr_lookup; lia|]. split; [now apply ftr_lookup; lia|]. split; [|split; [|split]].
  - pose proof (pnl_check_cents (ftr 0) 2 105 [85]) as H. assert (pnl_check (ftr 0) 2 105 [85] = true) as E by (vm_compute; reflexivity). specialize (H E). clear E.
    match type of H with cent_pnl _ ?a ?b => assert (a = 352) as Ea by (vm_compute; reflexivity); assert (b = 352) as Eb by (vm_compute; reflexivity); rewrite Ea, Eb in H; exact H end.
  - pose proof (pnl_check_cents (ftr 1) 87 105 []) as H. assert (pnl_check (ftr 1) 87 105 [] = true) as E by (vm_compute; reflexivity). specialize (H E). clear E.
    match type of H with cent_pnl _ ?a ?b => assert (a = 126) as Ea by (vm_compute; reflexivity); assert (b = 126) as Eb by (vm_compute; reflexivity); rewrite Ea, Eb in H; exact H end.
  - vm_compute. reflexivity.
  - assert (match w_strats fworld with s :: _ => bool_decide (st_trades s = [0; 1]%nat) && feqb (strategy_result fworld s TNone) (dec 478) | [] => false end = true) as E by (vm_compute; reflexivity).
    destruct (w_strats fworld) as [|s l]; [discriminate E|]. apply andb_prop in E as [E1 E2]. apply bool_decide_eq_true in E1. auto.
Qed.
