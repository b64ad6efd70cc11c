(** The charts of programs whose strategies raise, caught by the program or not (C33, C34, C71): estrade/epic.py:206-259. *)
From Verif Require Import ProgramNestExamples FineProofs EpicExamples.
From Verif Require Import SpecFine.
From Coq Require Import QArith.
Open Scope Z_scope.

(** The programs in which no tick raises are among those of [charted] and [listening]. *)
Theorem C33_no_raise_charts : forall {F} `{Num F} pr l (w : world F), clean pr w l -> charts_fine pr w l.
Proof. exact @clean_charts. Qed.
Print Assumptions C33_no_raise_charts.

(** C71: with built-in indicators the hypothesis of [charted] and [listening] on frame sets holds after any attachment, whatever the strategies do. *)
Theorem C71_charted : forall N zone cls (pr : programs Q) l1 o l2, 1 <= N -> (forall f, resolves_forward (zone f)) ->
  plain_charts N zone cls any_quote any_number pr empty_world (l1 ++ o :: l2) -> charts_fine pr (fst (step pr (run pr empty_world l1) o)) l2.
Proof. intros N zone cls pr l1 o l2 HN Hz Hp. exact (proj2 (charts_fine_app pr l1 (o :: l2) empty_world (charts_Q N zone cls pr _ HN Hz Hp))). Qed.
Print Assumptions C71_charted.

(** Every callback raises: the ticks do, the frames are those of a program without strategies. *)
Definition angry : programs Q := fun _ _ _ _ => SRaise KeyError.
Definition angry_l1 : list (op Q) := [ONewStrategy "s0"; ONewEpic "A" (Some tz_UTC) 28800000000 57600000000 None None None; OAddStrategy 0 0; ONewFrameSet HOUR 2 "H2" 2].
Definition angry_l2 : list (op Q) := [at_h 9; at_h 10; at_h 13].
Definition angry_ops : list (op Q) := angry_l1 ++ OAddFrameSet 0 0 :: angry_l2.
Notation angry_w1 := (run angry empty_world angry_l1).
Definition angry_ts : list (tick Q) := accepted angry (fst (step angry angry_w1 (OAddFrameSet 0 0))) angry_l2 0.
Example C34_ex_raising : charted angry angry_ops 0 0 tz_UTC HOUR 2 2 angry_ts (fset_of (run angry empty_world angry_ops) 0) /\ length angry_ts = 3%nat /\
  map (fun k => snd (step angry (run angry empty_world (take k angry_ops)) (at_h 14))) [5; 6; 7; 8]%nat = [Err KeyError; Err KeyError; Err KeyError; Err KeyError] /\
  map (fun f => (ar_wall (fr_start f) / 3600000000 mod 24, fr_nb f)) (fs_heap (fset_of (run angry empty_world angry_ops) 0)) = [(8, 1); (10, 1); (12, 1)].
Proof.
  split; [|split; [vm_compute; reflexivity|split; vm_compute; reflexivity]].
  refine (chart angry angry_ops 0 0 _ _ _ _ _ _ angry_l1 angry_l2 (epic_of angry_w1 0) (fset_of angry_w1 0) eq_refl _ _ _ _ _ _ _ _ _ _ _).
  - repeat constructor; simpl; lia.
  - apply epic_of_lookup. vm_compute. lia.
  - reflexivity.
  - apply fset_of_lookup. vm_compute. lia.
  - vm_compute. reflexivity.
  - vm_compute. reflexivity.
  - vm_compute. reflexivity.
  - vm_compute. reflexivity.
  - split; [vm_compute; reflexivity|]. split; [vm_compute; reflexivity|]. split; [vm_compute; reflexivity|]. exact I.
  - reflexivity.
  - apply fset_of_lookup. vm_compute. lia.
Qed.
