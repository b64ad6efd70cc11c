(** Examples for C64 and C65. *)
From Verif Require Export OwnRunProofs WorldExamples.
Open Scope Z_scope.

Section proofs.
  Context {F : Type} `{Num F}.
  Implicit Types (w : world F).
  Lemma own_ids_disjoint w s s' i : reach any_call w -> s <> s' -> i ∈ own_ids s w -> i ∉ own_ids s' w.
  Proof.
    intros R Hs Hi Hi'. pose proof (reach_wf _ _ R) as W. apply (ids_wf s w W) in Hi. apply (ids_wf s' w W) in Hi'. unfold mine in *.
    destruct (w_trades w !! i) as [t|]; [|discriminate]. apply bool_decide_eq_true in Hi, Hi'. congruence.
  Qed.
  Lemma twins_last sid ine inf w w' : own sid ine inf w = own sid ine inf w' -> match last (own_ids sid w), last (own_ids sid w') with Some i, Some i' => twins sid w w' i i' | None, None => True | _, _ => False end.
  Proof.
    intros E. pose proof (own_length _ _ _ _ _ E) as L. rewrite !last_lookup, L. destruct (own_ids sid w' !! pred _) as [i'|] eqn:E2.
    - destruct (own_ids sid w !! pred (length (own_ids sid w'))) as [i|] eqn:E1; [now exists (pred (length (own_ids sid w')))|]. apply lookup_ge_None in E1. apply lookup_lt_Some in E2. lia.
    - destruct (own_ids sid w !! pred (length (own_ids sid w'))) as [i|] eqn:E1; [|auto]. apply lookup_ge_None in E2. apply lookup_lt_Some in E1. lia.
  Qed.
End proofs.

(** A strategy that closes one unit of its newest trade while it is open, and buys 3 otherwise; another one that buys 4, or
    sells 9 when its newest trade is open. *)
Definition duo : programs Q := fun sid cb eid w =>
  match cb return script Q with
  | OnEveryTick =>
      match sid with
      | 0%nat => match last (own_ids 0 w) with
                 | Some i => if trade_open_b w i then SCall (CClose i (Some 1) "") (fun _ _ => SDone)
                             else SCall (COpen eid (Dir BUY) 3 (Some 0%nat) "") (fun _ _ => SDone)
                 | None => SCall (COpen eid (Dir BUY) 3 (Some 0%nat) "") (fun _ _ => SDone)
                 end
      | S _ => match last (own_ids sid w) with
             | Some i => if trade_open_b w i then SCall (COpen eid (Dir SELL) 9 (Some sid) "") (fun _ _ => SCall (CClose i None "") (fun _ _ => SDone))
                         else SCall (COpen eid (Dir BUY) 4 (Some sid) "") (fun _ _ => SDone)
             | None => SCall (COpen eid (Dir BUY) 4 (Some sid) "") (fun _ _ => SDone)
             end
      end
  | _ => SDone
  end.

Lemma duo_own ine inf : own_program 0 ine inf (duo 0%nat) (duo 0%nat).
Proof.
  intros cb eid w w' Hin R R' Wi E. unfold duo. destruct cb; try constructor. pose proof (twins_last 0 ine inf w w' E) as T.
  destruct (last (own_ids 0 w)) as [i|], (last (own_ids 0 w')) as [i'|]; try contradiction.
  - rewrite <- (twin_open _ _ _ _ _ _ _ E T). destruct (trade_open_b w i).
    + destruct (run_cmd (calling w 0 OnEveryTick eid) (CClose i (Some 1) "")) as [v r] eqn:Ev.
      eapply same_scall; [now apply same_close|exact Ev|reflexivity|]. intros _. constructor.
    + destruct (run_cmd (calling w 0 OnEveryTick eid) (COpen eid (Dir BUY) 3 (Some 0%nat) "")) as [v r] eqn:Ev.
      eapply same_scall; [now apply same_open|exact Ev|reflexivity|]. intros _. constructor.
  - destruct (run_cmd (calling w 0 OnEveryTick eid) (COpen eid (Dir BUY) 3 (Some 0%nat) "")) as [v r] eqn:Ev.
    eapply same_scall; [now apply same_open|exact Ev|reflexivity|]. intros _. constructor.
Qed.
Lemma duo_off : others_keep_off 0 duo.
Proof.
  intros s cb eid w Hs R. destruct s as [|s]; [congruence|]. unfold duo. destruct cb; try exact I.
  destruct (last (own_ids (S s) w)) as [i|] eqn:El.
  - assert (i ∈ own_ids (S s) w) as Hi by now apply last_Some_elem_of.
    destruct (trade_open_b w i).
    + cbn [keeps_off]. split; [discriminate|]. destruct (run_cmd (calling w (S s) OnEveryTick eid) _) as [v r] eqn:Ev. split; [|now destruct (run_cmd v (CClose i None ""))].
      assert (own_ids 0 v = own_ids 0 w) as Hids.
      { cbn [run_cmd] in Ev. destruct (epic_open_trade _ _ _ _ _ _) as [v' r'] eqn:Eo'. injection Ev as <- _. apply open_others in Eo' as (_ & O2 & _). unfold own_ids. now rewrite O2 by discriminate. }
      simpl. rewrite Hids. apply (own_ids_disjoint w (S s) 0 i R); auto.
    + cbn [keeps_off]. split; [discriminate|]. now destruct (run_cmd _ _).
  - cbn [keeps_off]. split; [discriminate|]. now destruct (run_cmd _ _).
Qed.

(** Five ticks for the two strategies on one backtest provider; request threads run in between. *)
Definition l64 : list (op Q) :=
  [ONewProvider PBacktests; ONewStrategy "s0"; ONewStrategy "s1"; ONewEpic "A" (Some tz_UTC) 0 86399999999 None None (Some 0%nat);
   OAddStrategy 0 1; OAddStrategy 0 0; OTick 0 (tk_s 1600000000 (100#1) (101#1)); OTick 0 (tk_s 1600000060 (103#1) (104#1));
   OCmd (CRun 0 0); buy 0 2 1; OTick 0 (tk_s 1600000120 (102#1) (103#1)); OTick 0 (tk_s 1600000180 (106#1) (107#1)); OTick 0 (tk_s 1600000240 (90#1) (91#1));
   OCmd (CCloseAll 0 None "")].
Definition shape (o : option (trade Q)) : Z * list Z := match o with Some t => (tr_oq t, map tc_qty (tr_closes t)) | None => (0, []) end.
(** The other strategy gets in first and raises: the first one is not called. *)
Definition rude : programs Q := fun sid cb eid w => match sid with 0%nat => duo 0%nat cb eid w | S _ => SRaise KeyError end.
Lemma l64_ok : Forall (fun o => own_op 0 everything everything o \/ other_op 0 everything o) l64.
Proof. repeat (apply Forall_cons; split; [simpl; first [left; reflexivity|left; intros; split; reflexivity|right; exact I|right; discriminate]|]). apply Forall_nil. exact I. Qed.

(** Two epics with their own backtest providers and candles; the first strategy runs on the first epic, the second on both. *)
Definition setup65 (pv : nat) : list (op Q) :=
  [ONewProvider PBacktests; ONewProvider PBacktests; ONewStrategy "s0"; ONewStrategy "s1";
   ONewEpic "A" (Some tz_UTC) 0 86399999999 None None (Some 0%nat); ONewEpic "B" (Some tz_UTC) 0 86399999999 None None (Some pv);
   ONewFrameSet MINUTE 1 "mA" 100; ONewFrameSet MINUTE 5 "mB" 100; OAddFrameSet 0 0; OAddFrameSet 1 1;
   OAddStrategy 0 1; OAddStrategy 0 0; OAddStrategy 1 1].
Definition l65 : list (op Q) :=
  [OTick 0 (tk_s 1600000000 (100#1) (101#1)); OTick 1 (tk_s 1600000030 (50#1) (51#1)); OTick 0 (tk_s 1600000060 (103#1) (104#1));
   OCmd (CRun 0 0); OTick 1 (tk_s 1600000090 (40#1) (41#1)); OTick 0 (tk_s 1600000120 (102#1) (103#1)); buy 1 2 1; OTick 1 (tk_s 1600000400 (45#1) (46#1))].
Definition first : nat -> bool := fun i => (i =? 0)%nat.
Lemma l65_ok : Forall (fun o => own_op 0 first first o \/ other_op 0 first o) l65.
Proof. repeat (apply Forall_cons; split; [simpl; first [left; reflexivity|right; reflexivity|right; exact I|right; discriminate]|]). apply Forall_nil. exact I. Qed.
Lemma setup65_reach pv : reach any_call (run duo empty_world (setup65 pv)).
Proof. apply run_reach; [apply any_programs|apply Forall_forall; intros; apply any_op|apply reach_empty]. Qed.
Lemma setup65_wired : wired 0 first first (run duo empty_world (setup65 1)).
Proof.
  set (w := run duo empty_world (setup65 1)). vm_compute in w. constructor.
  - intros [|[|e]] ep x He Hx; simpl in He; [| |discriminate He]; injection He as <-; simpl in Hx; apply elem_of_list_singleton in Hx as ->; reflexivity.
  - intros [|f] fs i Hf Hi Hfi; [|discriminate Hi]. simpl in Hf. injection Hf as <-. simpl in Hfi. injection Hfi as <-. reflexivity.
  - intros [|[|e]] ep x He Hx Hs; simpl in He; [reflexivity| |discriminate He]. injection He as <-. simpl in Hx. apply elem_of_list_singleton in Hx as ->. discriminate Hs.
  - intros [|[|e]] ep [|[|a]] ap He Ha Hp; simpl in He, Ha; try discriminate He; try discriminate Ha; try reflexivity; injection He as <-; injection Ha as <-; discriminate Hp.
  - intros i t Hi Ht. destruct i; discriminate Ht.
Qed.
