(** A program with two charts of one epic in a zone whose clock is put forward (Paris, 2020-03-29). *)
From Verif Require Export ProgramNestProofs SkipExamples EpicExamples.
Open Scope Z_scope.

Lemma spring_instants : instants_exist tz_spring.
Proof.
  intros u. unfold SpecSkip.kept. rewrite spring_resolve. cbn [tz_wall tz_spring]. destruct (Z.ltb_spec u (spring - US_HOUR)).
  - destruct (Z.leb_spec spring (u + US_HOUR)); [us; lia|reflexivity].
  - destruct (Z.ltb_spec (u + 2 * US_HOUR) (spring + US_HOUR)); [us; lia|]. now rewrite andb_false_r.
Qed.
(** Minutes after 2020-03-29 00:00 UTC. *)
Definition at_m (m : Z) (b : Q) : op Q := OTick 0 (tk_s (1585440000 + 60 * m) b b).
Definition nest_l1 : list (op Q) := [ONewEpic "A" (Some tz_spring) 0 86399000000 None None None; ONewFrameSet MINUTE 15 "M15" 2; ONewFrameSet HOUR 1 "H1" 9].
(** 01:20, 01:10 (refused), 01:50, 03:40 on the clock. *)
Definition nest_l2 : list (op Q) := [at_m 20 (10#1); at_m 10 (7#1); at_m 50 (12#1); at_m 100 (11#1)].
Definition nest_ops : list (op Q) := nest_l1 ++ OAddFrameSet 0 0 :: OAddFrameSet 0 1 :: nest_l2.
Notation nest_w0 := (run quiet empty_world nest_l1).
Notation nest_w1 := (fst (step quiet nest_w0 (OAddFrameSet 0 0))).
Notation nest_w2 := (fst (step quiet nest_w1 (OAddFrameSet 0 1))).
Notation nest_end := (run quiet empty_world nest_ops).
Definition nest_ts : list (tick Q) := accepted quiet nest_w2 nest_l2 0.

Lemma nest_lookup0 : w_fsets nest_end !! 0%nat = Some (fset_of nest_end 0).
Proof. apply fset_of_lookup. vm_compute. lia. Qed.
Lemma nest_lookup1 : w_fsets nest_end !! 1%nat = Some (fset_of nest_end 1).
Proof. apply fset_of_lookup. vm_compute. lia. Qed.
Lemma nest_minutes : charted quiet nest_ops 0 0 tz_spring MINUTE 15 2 nest_ts (fset_of nest_end 0).
Proof.
  refine (chart quiet nest_ops 0 0 _ _ _ _ _ _ nest_l1 (OAddFrameSet 0 1 :: nest_l2) (epic_of nest_w0 0) (fset_of nest_w0 0) eq_refl _ _ _ _ _ _ _ _ _ _ _).
  - repeat constructor; simpl; lia.
  - apply epic_of_lookup. vm_compute. lia.
  - reflexivity.
  - apply fset_of_lookup. vm_compute. lia.
  - vm_compute. reflexivity.
  - vm_compute. reflexivity.
  - vm_compute. reflexivity.
  - vm_compute. reflexivity.
  - apply clean_charts, clean_b_ok. vm_compute. reflexivity.
  - reflexivity.
  - exact nest_lookup0.
Qed.
Lemma nest_hours : charted quiet nest_ops 1 0 tz_spring HOUR 1 9 nest_ts (fset_of nest_end 1).
Proof.
  refine (chart quiet nest_ops 1 0 _ _ _ _ _ _ (nest_l1 ++ [OAddFrameSet 0 0]) nest_l2 (epic_of nest_w1 0) (fset_of nest_w1 1) eq_refl _ _ _ _ _ _ _ _ _ _ _).
  - repeat constructor; simpl; lia.
  - apply (epic_of_lookup nest_w1). vm_compute. lia.
  - reflexivity.
  - apply (fset_of_lookup nest_w1). vm_compute. lia.
  - vm_compute. reflexivity.
  - vm_compute. reflexivity.
  - vm_compute. reflexivity.
  - vm_compute. reflexivity.
  - apply clean_charts, clean_b_ok. vm_compute. reflexivity.
  - reflexivity.
  - exact nest_lookup1.
Qed.
(** The same program before its last tick. *)
Definition nest_before : list (op Q) := nest_l1 ++ OAddFrameSet 0 0 :: OAddFrameSet 0 1 :: take 3 nest_l2.
Definition nest_ts3 : list (tick Q) := accepted quiet nest_w2 (take 3 nest_l2) 0.
Lemma nest_lookup3 : w_fsets (run quiet empty_world nest_before) !! 0%nat = Some (fset_of (run quiet empty_world nest_before) 0).
Proof. apply fset_of_lookup. vm_compute. lia. Qed.
Lemma nest_minutes3 : charted quiet nest_before 0 0 tz_spring MINUTE 15 2 nest_ts3 (fset_of (run quiet empty_world nest_before) 0).
Proof.
  refine (chart quiet nest_before 0 0 _ _ _ _ _ _ nest_l1 (OAddFrameSet 0 1 :: take 3 nest_l2) (epic_of nest_w0 0) (fset_of nest_w0 0) eq_refl _ _ _ _ _ _ _ _ _ _ _).
  - repeat constructor; simpl; lia.
  - apply epic_of_lookup. vm_compute. lia.
  - reflexivity.
  - apply fset_of_lookup. vm_compute. lia.
  - vm_compute. reflexivity.
  - vm_compute. reflexivity.
  - vm_compute. reflexivity.
  - vm_compute. reflexivity.
  - apply clean_charts, clean_b_ok. vm_compute. reflexivity.
  - reflexivity.
  - exact nest_lookup3.
Qed.
Lemma accepted_app pr l1 l2 : forall (w : world Q) eid, accepted pr w (l1 ++ l2) eid = accepted pr w l1 eid ++ accepted pr (run pr w l1) l2 eid.
Proof. induction l1 as [|o l1 IH]; intros w eid; [reflexivity|]. cbn [accepted app]. rewrite IH, app_assoc. reflexivity. Qed.
Lemma nest_ts_split : exists t, nest_ts = nest_ts3 ++ [t].
Proof.
  unfold nest_ts. change nest_l2 with (take 3 nest_l2 ++ [at_m 100 (11#1)]). rewrite accepted_app. fold nest_ts3.
  destruct (accepted quiet (run quiet nest_w2 (take 3 nest_l2)) [at_m 100 (11#1)] 0) as [|t [|t' r]] eqn:E.
  - apply (f_equal length) in E. vm_compute in E. discriminate.
  - now exists t.
  - apply (f_equal length) in E. vm_compute in E. discriminate.
Qed.
