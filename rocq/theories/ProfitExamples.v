(** Examples for C66. *)
From Verif Require Export ProfitProofs ReentrantExamples.
Open Scope Z_scope.

(** Buys 2 at every tick, then sells 3 (2 of which close the first trade) and closes everything. *)
Definition churn : programs Q := fun sid cb eid w => match cb return script Q with
  | OnEveryTick => SCall (COpen eid (Dir BUY) 2 (Some sid) "") (fun _ _ => SCall (COpen eid (Dir SELL) 3 (Some sid) "") (fun _ _ => SCall (CCloseAll sid None "") (fun _ _ => SDone)))
  | _ => SDone
  end.
Lemma churn_ok : programs_ok market_call churn.
Proof.
  intros sid cb eid w. destruct cb; try exact I. split; [split; [exact I|simpl; lia]|]. intros _ _. split; [split; [exact I|simpl; lia]|]. intros _ _. split; [split; exact I|]. intros _ _. exact I.
Qed.
Definition ops66 : list (op Q) :=
  [ONewProvider PBacktests; ONewStrategy "s0"; ONewEpic "A" (Some tz_UTC) 0 86399999999 None None (Some 0%nat); OTick 0 (tk_s 1600000000 (100#1) (101#1)); OAddStrategy 0 0].
Definition w66 : world Q := run churn empty_world ops66.
Definition l66 : list (op Q) := [OTick 0 (tk_s 1600000060 (100#1) (101#1)); OTick 0 (tk_s 1600000120 (100#1) (101#1))].
Definition m66 : list (op Q) := [OTick 0 (tk_s 1600000060 (100#1) (101#1)); buy 0 4 0; OTick 0 (tk_s 1600000120 (105#1) (106#1))].
Definition s66 (l : list (op Q)) : strategy := strat_of (run churn w66 l) 0.
Lemma flat_book_b (w : world Q) s : forallb (fun i => match w_trades w !! i with Some t => closed t | None => true end) (st_trades s) = true -> flat_book w s.
Proof. intros Hb i t Hi Ht. rewrite forallb_forall in Hb. apply elem_of_list_In, Hb in Hi. now rewrite Ht in Hi. Qed.
Lemma w66_reach : reach market_call w66.
Proof. apply run_reach; [exact churn_ok| |apply reach_empty]. repeat constructor. Qed.
Lemma w66_quoted e ep : w_epics w66 !! e = Some ep -> quoted (100#1) (100#1) (101#1) (101#1) (ep_last ep).
Proof.
  set (w := w66). vm_compute in w. subst w. destruct e as [|e]; [|intros E; discriminate E]. intros E. apply (inj Some) in E. subst ep. cbn [ep_last]. split; split; vm_compute; discriminate.
Qed.
Lemma accepted_cents (pr : programs Q) l w e : Forall (fun o => match o with OTick _ tk => cent_quotes tk | _ => True end) l -> Forall cent_quotes (accepted pr w l e).
Proof.
  intros Hl. revert w. induction Hl as [|o l Ho Hl IH]; intros w; simpl; [constructor|]. apply Forall_app. split; [|apply IH].
  unfold accepts. destruct o; try constructor. destruct (decide _); [|constructor]. destruct (w_epics w !! _); [|constructor]. destruct (decide _); [constructor|]. constructor; [exact Ho|constructor].
Qed.
Lemma cent_s s (b a : Z) : cent_quotes (tk_s s (b#1) (a#1)).
Proof. split; [exists (b * 100)|exists (a * 100)]; unfold Qeq; simpl; lia. Qed.
(** Bought before the first tick of the epic, at 0. *)
Definition early66 : list (op Q) := [buy 0 1 0] ++ [OTick 0 (tk_s 1600000000 (100#1) (101#1)); OCmd (CCloseAll 0 None "")].
Definition first66 : list (op Q) := [ONewProvider PBacktests; ONewStrategy "s0"; ONewEpic "A" (Some tz_UTC) 0 86399999999 None None (Some 0%nat)].
