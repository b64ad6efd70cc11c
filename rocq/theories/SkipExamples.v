(** Runs in a zone whose clock is put forward (Paris, 2020-03-29, 02:00 becomes 03:00). *)
From Verif Require Export FrameExamples NestSkipProofs.
Open Scope Z_scope.

Definition spring : Z := days_from_civil 2020 3 29 * US_DAY + 2 * US_HOUR.
Definition tz_spring : tzinfo :=
  {| tz_id := 9; tz_wall u := if u <? spring - US_HOUR then u + US_HOUR else u + 2 * US_HOUR;
     tz_utc w := if w <? spring then w - US_HOUR else w - 2 * US_HOUR;
     tz_resolve w := if (spring <=? w) && (w <? spring + US_HOUR) then w + US_HOUR else w |}.
Definition spring_only (a n : Z) : Prop := a = spring /\ n = US_HOUR.
Lemma spring_resolve w : tz_resolve tz_spring w = if (spring <=? w) && (w <? spring + US_HOUR) then w + US_HOUR else w.
Proof. reflexivity. Qed.
Lemma spring_changes : changes tz_spring spring_only.
Proof.
  split.
  - intros w. unfold kept. rewrite spring_resolve. destruct (Z.leb_spec spring w), (Z.ltb_spec w (spring + US_HOUR)); simpl; auto. right. exists spring, US_HOUR. split; [split; auto|lia].
  - intros a n [-> ->]. split; [us; lia|]. split.
    + unfold kept. rewrite spring_resolve, Z.ltb_irrefl, andb_false_r. reflexivity.
    + intros w Hw. rewrite spring_resolve. destruct (Z.leb_spec spring w), (Z.ltb_spec w (spring + US_HOUR)); simpl; lia.
Qed.
Lemma spring_forward : resolves_forward tz_spring.
Proof. intros w. rewrite spring_resolve. us. destruct (_ && _); lia. Qed.
Lemma spring_minutes q : aligned tz_spring MINUTE q.
Proof.
  apply (whole_hours_aligned _ spring_only); [exact spring_changes| |auto]. intros a n [-> ->]. split; [|exists 1; reflexivity].
  exists (days_from_civil 2020 3 29 * 24 + 2). vm_compute. reflexivity.
Qed.
Lemma spring_hours : aligned tz_spring HOUR 1.
Proof.
  apply (whole_hours_aligned _ spring_only); [exact spring_changes| |auto]. intros a n [-> ->]. split; [|exists 1; reflexivity].
  exists (days_from_civil 2020 3 29 * 24 + 2). vm_compute. reflexivity.
Qed.
Lemma spring_days q : aligned tz_spring DAY q.
Proof.
  apply (no_midnight_aligned _ spring_only); [exact spring_changes| |auto]. intros a n d [-> ->] [H1 H2].
  unfold spring in *. us. change (days_from_civil 2020 3 29) with 18350 in *. lia.
Qed.
(** Ticks at 01:20, 01:50, 03:40. *)
Definition ticks_spring : list (tick Q) :=
  [tk_at tz_spring (spring - 40 * US_MIN) 1000; tk_at tz_spring (spring - 10 * US_MIN) 1002; tk_at tz_spring (spring + 100 * US_MIN) 1001].
Lemma spring_order : in_order_kept tz_spring ticks_spring.
Proof.
  split; [split; [repeat constructor|]|].
  - unfold ticks_spring. repeat (constructor; [|repeat constructor; unfold tk_wall; simpl; us; lia]). constructor.
  - unfold ticks_spring. repeat constructor.
Qed.
Lemma spring_run : fs_run MINUTE 15 9 ticks_spring (fed MINUTE 15 9 ticks_spring).
Proof. apply fed_run; vm_compute; reflexivity. Qed.
Lemma spring_run_hours : fs_run HOUR 1 9 ticks_spring (fed HOUR 1 9 ticks_spring).
Proof. apply fed_run; vm_compute; reflexivity. Qed.
(** Per frame: start and end in minutes from 02:00, first and last values, number of ticks. *)
Definition sview (f : frame Q) : Z * option Z * (Q * Q) * Z :=
  ((ar_wall (fr_start f) - spring) / US_MIN, option_map (fun e => (ar_wall e - spring) / US_MIN) (fr_end f), (tk_value (fr_first f), tk_value (fr_last f)), fr_nb f).
Lemma spring_view : map sview (fs_heap (fed MINUTE 15 9 ticks_spring)) =
  [(-45, Some (-30), (10 # 1, 10 # 1)%Q, 1); (-30, Some (-15), (10 # 1, 10 # 1)%Q, 1); (-15, Some 60, (501 # 50, 501 # 50)%Q, 1);
   (60, Some 75, (501 # 50, 501 # 50)%Q, 1); (75, Some 90, (501 # 50, 501 # 50)%Q, 1); (90, Some 105, (1001 # 100, 1001 # 100)%Q, 1)].
Proof. vm_compute. reflexivity. Qed.
Lemma spring_view_hours : map sview (fs_heap (fed HOUR 1 9 ticks_spring)) =
  [(-60, Some 60, (10 # 1, 501 # 50)%Q, 2); (60, Some 120, (1001 # 100, 1001 # 100)%Q, 1)].
Proof. vm_compute. reflexivity. Qed.

(** Frames of two hours: the boundary 02:00 does not exist, 03:00 is not a boundary. *)
Lemma two_hours_overlap : exists (fs : fset Q) f g e, fs_run HOUR 2 9 ticks_spring fs /\ fs_heap fs !! 0%nat = Some f /\ fs_heap fs !! 1%nat = Some g /\
  fr_end f = Some e /\ ar_wall (fr_start g) < ar_wall e.
Proof.
  set (fs := fed HOUR 2 9 ticks_spring).
  assert (exists f g e, fs_heap fs !! 0%nat = Some f /\ fs_heap fs !! 1%nat = Some g /\ fr_end f = Some e /\ ar_wall (fr_start g) < ar_wall e)
    as (f & g & e & H1 & H2 & H3 & H4).
  { assert (match fs_heap fs !! 0%nat, fs_heap fs !! 1%nat with
            | Some f, Some g => match fr_end f with Some e => ar_wall (fr_start g) <? ar_wall e | None => false end | _, _ => false end = true) as Hc
      by (vm_compute; reflexivity).
    destruct (fs_heap fs !! 0%nat) as [f|]; [|discriminate]. destruct (fs_heap fs !! 1%nat) as [g|]; [|discriminate].
    destruct (fr_end f) as [e|] eqn:Ee; [|discriminate]. apply Z.ltb_lt in Hc. eauto 10. }
  exists fs, f, g, e. split; [apply fed_run; vm_compute; reflexivity|]. auto.
Qed.

(** The quarters that start between the last two ticks. *)
Definition quarters : list Z := [spring + 60 * US_MIN; spring + 75 * US_MIN; spring + 90 * US_MIN].
Lemma quarter_boundary x : boundary MINUTE 15 x <-> (900000000 | x).
Proof.
  split.
  - intros Hb. inversion Hb as [|q n m Hm (k & ->)| | | | |]; subst. exists (n * 4 + k). ring.
  - intros (k & ->). replace (k * 900000000) with ((k / 4) * 3600000000 + (k mod 4 * 15) * 60000000).
    + pose proof (Z.mod_pos_bound k 4). constructor; [lia|apply Z.divide_factor_r].
    + rewrite (Z.div_mod k 4) at 3 by lia. ring.
Qed.
Lemma quarters_elapsed : elapsed_kept tz_spring MINUTE 15 (spring - 10 * US_MIN) (spring + 100 * US_MIN) quarters.
Proof.
  assert (spring = 1761608 * 900000000) as Es by (vm_compute; reflexivity). split.
  - apply (bool_decide_unpack _). vm_compute. exact I.
  - intros x. unfold quarters, kept. rewrite quarter_boundary, spring_resolve, !elem_of_cons, elem_of_nil, Es. us. split.
    + intros Hx. split; [destruct Hx as [->|[->|[->|[]]]]; [exists 1761612|exists 1761613|exists 1761614]; lia|].
      destruct (Z.leb_spec (1761608 * 900000000) x), (Z.ltb_spec x (1761608 * 900000000 + US_HOUR)); simpl; lia.
    + intros ((k & ->) & Hk & Hx).
      destruct (Z.leb_spec (1761608 * 900000000) (k * 900000000)), (Z.ltb_spec (k * 900000000) (1761608 * 900000000 + US_HOUR)); simpl in Hk; lia.
Qed.
Lemma surjective_pairing_ok {A} (p : A * res unit) : snd p = Ok () -> p = (fst p, Ok ()).
Proof. destruct p as [a r]. simpl. now intros ->. Qed.
