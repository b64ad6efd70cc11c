(** C77: indicator objects registered with several frame sets. *)
From Verif Require Import NumQProofs SharedProofs EpicExamples.
Open Scope Z_scope.

(** A program that registers its indicator objects with several frame sets (of any epics, at any time) leads to the same state, charts and trades
    included, as the one that creates an object for each registration, when each RSI object is used with one unit_quantity. *)
Theorem C77_shared : forall {F} `{Num F} (pr : programs F) l, one_quantity pr l -> s_w (srun pr l) = run pr empty_world (unshared [] l).
Proof. exact @shared_program. Qed.
Print Assumptions C77_shared.
(** Its calls raise the same exceptions. *)
Theorem C77_results : forall {F} `{Num F} (pr : programs F) l x o, one_quantity pr (l ++ [x]) -> unshared (new_inds l) [x] = [o] ->
  snd (sstep pr (srun pr l) x) = snd (step pr (run pr empty_world (unshared [] l)) o).
Proof. exact @shared_results. Qed.
Print Assumptions C77_results.
(** [indicator.epic] is the epic of the frame set it was registered with last, whatever the quantities. *)
Theorem C77_epic : forall {F} `{Num F} (pr : programs F) l f o l' fs, (o < length (new_inds l))%nat -> w_fsets (s_w (srun pr l)) !! f = Some fs ->
  (forall g, ~ In (g, o) (registrations (length (new_inds l)) l')) ->
  indicator_epic (srun pr (l ++ XAdd f o :: l')) o = match w_fsets (s_w (srun pr (l ++ XAdd f o :: l'))) !! f with Some fs' => fs_epic fs' | None => None end.
Proof. exact @last_epic. Qed.
Print Assumptions C77_epic.

(** Two epics, frame sets of one and [q] minutes, one RSI object of two periods and one moving average for both. *)
Definition rsi77 : indicator Q := {| in_ref := "rsi"; in_mopen := false; in_kind := KRSI 2 None |}.
Definition sma77 : indicator Q := {| in_ref := "sma"; in_mopen := false; in_kind := KSMA 2 |}.
Definition t77 (e : nat) (s : Z) (b : Q) : sop Q := XOp (OTick e {| tk_dt := arrow_of_utc tz_UTC (s * 1000000); tk_bid := b; tk_ask := (b + 1)%Q |}).
Definition desk77 (q : Z) : list (sop Q) := XNew rsi77 :: XNew sma77 :: map XOp [ONewEpic "A" (Some tz_UTC) 0 86399999999 None None None;
  ONewEpic "B" (Some tz_UTC) 0 86399999999 None None None; ONewFrameSet MINUTE 1 "a" 10; ONewFrameSet MINUTE q "b" 10; OAddFrameSet 0 0; OAddFrameSet 1 1].
Definition ticks77 : list (sop Q) := [t77 0 1600086400 (100#1); t77 1 1600086400 (50#1); t77 0 1600086460 (104#1); t77 1 1600086460 (40#1); t77 0 1600086520 (102#1);
  t77 1 1600086520 (45#1)].
Definition prog77 (q : Z) : list (sop Q) := desk77 q ++ [XAdd 0 0; XAdd 0 1; XAdd 1 0; XAdd 1 1] ++ ticks77.
Definition rsis (w : world Q) : list (list (option Q)) :=
  map (fun fs => map (fun fr => match dict_get (fr_inds fr) "rsi" with Some (Some iv) => match iv_data iv with DRSI _ _ v => Qred <$> v | _ => None end | _ => None end) (fs_heap fs)) (w_fsets w).
Example C77_ex : one_quantity quiet (prog77 1) /\ length (s_objs (srun quiet (prog77 1))) = 2%nat /\
  rsis (s_w (srun quiet (prog77 1))) = [[None; None; Some (6667#100)%Q]; [None; None; Some (3333#100)%Q]] /\
  rsis (run quiet empty_world (unshared [] (prog77 1))) = rsis (s_w (srun quiet (prog77 1))).
Proof.
  split; [apply (equal_quantities _ _ 1); vm_compute; reflexivity|].
  split; [vm_compute; reflexivity|]. split; vm_compute; reflexivity.
Qed.
(** The epic of a registered object. *)
Example C77_ex_epic : w_fsets (s_w (srun quiet (desk77 1))) !! 1%nat <> None /\ (0 < length (new_inds (desk77 1)))%nat /\
  indicator_epic (srun quiet (desk77 1 ++ XAdd 1 0 :: ticks77)) 0 = Some 1%nat.
Proof. split; [vm_compute; discriminate|]. split; [vm_compute; lia|vm_compute; reflexivity]. Qed.

(** An RSI object registered with a frame set of another unit_quantity: the RSI of the first chart is then computed over the periods of the other. *)
Theorem C77_periods_refuted : exists l : list (sop Q), rsis (s_w (srun quiet l)) <> rsis (run quiet empty_world (unshared [] l)).
Proof. exists (prog77 5). vm_compute. discriminate. Qed.
Print Assumptions C77_periods_refuted.
(** A registration that raises (not enough frames in memory) has changed the object, and so the chart of the frame set that holds it already. *)
Theorem C77_failed_refuted : exists (l : list (sop Q)) x l', snd (sstep quiet (srun quiet l) x) <> Ok () /\
  hd [] (rsis (s_w (srun quiet (l ++ x :: l')))) <> hd [] (rsis (s_w (srun quiet (l ++ l')))).
Proof. exists (desk77 10 ++ [XAdd 0 0]), (XAdd 1 0), ticks77. split; vm_compute; discriminate. Qed.
Print Assumptions C77_failed_refuted.
(** The epic of an object is not the epic of every chart that shows it. *)
Theorem C77_epic_refuted : exists (l : list (sop Q)) f o e, In (f, o) (registrations 0 l) /\ indicator_epic (srun quiet l) o = Some e /\
  exists e', e' <> e /\ (w_fsets (s_w (srun quiet l)) !! f ≫= fs_epic) = Some e'.
Proof. exists (prog77 1), 0%nat, 0%nat, 1%nat. split; [left; reflexivity|]. split; [vm_compute; reflexivity|]. exists 0%nat. split; [discriminate|vm_compute; reflexivity]. Qed.
Print Assumptions C77_epic_refuted.
