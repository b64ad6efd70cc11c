(** Cases for C78. *)
From Verif Require Export SpecPreempt PreemptSimProofs WorldExamples.
Open Scope Z_scope.

Definition show (w : world Q) := map (fun t => (tr_status t, tr_oq t, map (fun c => (tc_qty c, tc_status c)) (tr_closes t))) (w_trades w).
Definition ops_net : list (op Q) := ops_base ++ [buy 0 5 0; buy 0 3 0; sell 0 7 0].
Lemma quiet_heedless : heedless_programs quiet.
Proof. intros sid cb eid w w' _. constructor. Qed.
Lemma net_case : heedless_programs quiet /\ Forall heedless_op ops_net /\
  show (fst (irun quiet (empty_world, repeat [] 21 ++ [[(0, 2); (0, 0)]%nat]) ops_net)) =
    [(CONFIRMED, 5, [(4, CREATED)]); (CREATED, 3, [(3, CONFIRMED)]); (CREATED, 0, [])] /\
  show (run quiet empty_world (ops_net ++ threads_run [(0, 2); (0, 0)]%nat)) = show (fst (irun quiet (empty_world, repeat [] 21 ++ [[(0, 2); (0, 0)]%nat]) ops_net)) /\
  show (fst (irun quiet (empty_world, []) ops_net)) = show (run quiet empty_world ops_net).
Proof. split; [exact quiet_heedless|]. split; [unfold ops_net, ops_base; simpl; repeat constructor|].
  split; [vm_compute; reflexivity|]. split; vm_compute; reflexivity. Qed.

(** Opens once, then closes a part. *)
Definition dealer : programs Q := fun sid cb eid w =>
  match cb with
  | OnEveryTick => SCall (COpen eid (Dir BUY) 3 (Some sid) "") (fun _ _ => SCall (CClose (length (w_trades w)) (Some 1) "") (fun _ _ => SDone))
  | _ => SDone
  end.
Definition ops_deal : list (op Q) := ops_base ++ [OAddStrategy 0 0; OTick 0 (tk_s 1600000001 (102#1) (103#1))].
Lemma dealer_heedless : heedless_programs dealer.
Proof.
  intros sid cb eid w w' E. apply (f_equal (fun w => length (w_trades w))) in E. simpl in E. rewrite !fmap_length in E.
  destruct cb; [|constructor..]. simpl. rewrite E. constructor; [exact I|]. intros _ _ _ _. constructor; [exact I|]. intros _ _ _ _. constructor.
Qed.
Lemma deal_case : heedless_programs dealer /\ Forall heedless_op ops_deal /\
  show (fst (irun dealer (empty_world, repeat [] 15 ++ repeat [(0, 1); (0, 0)]%nat 20) ops_deal)) = [(CONFIRMED, 3, [(1, CONFIRMED)])] /\
  (is_alive <$> w_provs (fst (irun dealer (empty_world, repeat [] 15 ++ repeat [(0, 1); (0, 0)]%nat 20) ops_deal)) !! 0%nat) = Some false.
Proof. split; [exact dealer_heedless|]. split; [unfold ops_deal, ops_base; simpl; repeat constructor|]. split; vm_compute; reflexivity. Qed.

(** Opens a trade; opens another one if the first is CONFIRMED already. *)
Definition watcher : programs Q := fun sid cb eid w =>
  match cb with
  | OnEveryTick => SCall (COpen eid (Dir BUY) 3 (Some sid) "") (fun w' _ =>
      match w_trades w' !! 0%nat with
      | Some t => match tr_status t with CONFIRMED => SCall (COpen eid (Dir BUY) 3 (Some sid) "") (fun _ _ => SDone) | _ => SDone end
      | None => SDone
      end)
  | _ => SDone
  end.
Lemma watching : exists (pr : programs Q) l sch, Forall heedless_op l /\ programs_ok not_run pr /\
  forall b, fst (irun pr (empty_world, sch) l) <> run pr empty_world (l ++ threads_run b).
Proof.
  exists watcher, ops_deal, (repeat [(0, 0)%nat] 40). split; [unfold ops_deal, ops_base; simpl; repeat constructor|]. split.
  - intros sid cb eid w. destruct cb; simpl; auto. split; [exact I|]. intros w' _. destruct (w_trades w' !! 0%nat) as [t|]; [|exact I]. destruct (tr_status t); simpl; auto.
  - intros b E. apply (f_equal (fun w => length (w_trades w))) in E. rewrite threads_keep_trades in E. vm_compute in E. discriminate E.
Qed.
