(** Concrete runs of frame sets used as non-vacuity examples and refutation witnesses. *)
From Verif Require Export NumQProofs FrameFinalProofs.
From Coq Require Export QArith.
Open Scope Z_scope.

(** Ticks given to a frame set one after the other. *)
Fixpoint feed (fs : fset Q) (ts : list (tick Q)) : fset Q * res unit :=
  match ts with
  | [] => (fs, Ok ())
  | t :: ts' => match fs_on_new_tick (gap_fuel fs t) fs t true (Some (tk_dt t)) with
                | (fs', Ok _) => feed fs' ts'
                | r => r
                end
  end.
Lemma feed_run u q mx ts ts0 fs fs' : fs_run u q mx ts0 fs -> feed fs ts = (fs', Ok ()) -> fs_run u q mx (ts0 ++ ts) fs'.
Proof.
  revert ts0 fs. induction ts as [|t ts IH]; intros ts0 fs Hr; simpl.
  - intros E. injection E as <-. now rewrite app_nil_r.
  - destruct (fs_on_new_tick _ _ _ _ _) as [fs1 [[]|]] eqn:E1; [|discriminate]. intros E2.
    replace (ts0 ++ t :: ts) with ((ts0 ++ [t]) ++ ts) by now rewrite <- app_assoc. apply (IH _ fs1); auto. eapply run_tick; eauto.
Qed.
Lemma feed_run_epic u q mx ts ts0 fs fs' : fs_run_epic u q mx ts0 fs -> feed fs ts = (fs', Ok ()) -> fs_run_epic u q mx (ts0 ++ ts) fs'.
Proof.
  revert ts0 fs. induction ts as [|t ts IH]; intros ts0 fs Hr; simpl.
  - intros E. injection E as <-. now rewrite app_nil_r.
  - destruct (fs_on_new_tick _ _ _ _ _) as [fs1 [[]|]] eqn:E1; [|discriminate]. intros E2.
    replace (ts0 ++ t :: ts) with ((ts0 ++ [t]) ++ ts) by now rewrite <- app_assoc. apply (IH _ fs1); auto. eapply rep_tick; eauto.
Qed.
Definition fs0 (u : unit_) (q mx : Z) : fset Q :=
  {| fs_ref := "fs"; fs_unit := u; fs_q := q; fs_max := mx; fs_epic := None; fs_heap := []; fs_frames := []; fs_inds := [] |}.
Definition fed (u : unit_) (q mx : Z) (ts : list (tick Q)) : fset Q := fst (feed (fs0 u q mx) ts).
Lemma fed_run u q mx ts : check_unit u q = Ok () -> snd (feed (fs0 u q mx) ts) = Ok () -> fs_run u q mx ts (fed u q mx ts).
Proof.
  intros Hc Hs. apply (feed_run u q mx ts [] (fs0 u q mx)).
  - apply (run_init u q mx "fs"). unfold fset_init. now rewrite Hc.
  - unfold fed. destruct (feed _ _) as [a r]. simpl in *. now subst r.
Qed.
Lemma fed_run_epic u q mx ts : check_unit u q = Ok () -> snd (feed (fs0 u q mx) ts) = Ok () -> fs_run_epic u q mx ts (fed u q mx ts).
Proof.
  intros Hc Hs. apply (feed_run_epic u q mx ts [] (fs0 u q mx)).
  - apply (rep_init u q mx "fs"). unfold fset_init. now rewrite Hc.
  - unfold fed. destruct (feed _ _) as [a r]. simpl in *. now subst r.
Qed.
Lemma run_reach u q mx ts (fs : fset Q) : fs_run u q mx ts fs -> fs_reach mx fs.
Proof.
  intros Hr. induction Hr as [ref fs E|ts fs i Hr IH|ts fs e Hr IH|ts fs fuel tk mo lst fs' Hr IH E].
  - eapply reach_init; eauto.
  - now apply reach_indicator.
  - now apply reach_epic.
  - change fs' with (fst (fs', Ok () : res unit)). rewrite <- E. now apply reach_tick.
Qed.

(** A tick at a wall-clock time of zone [z] with a value in cents. *)
Definition tk_at (z : tzinfo) (w v : Z) : tick Q := {| tk_dt := arrow_of_wall z w; tk_bid := v # 100; tk_ask := v # 100 |}.
(** 2020-02-29 13:47:11 *)
Definition w_leap : Z := days_from_civil 2020 2 29 * US_DAY + 13 * US_HOUR + 47 * US_MIN + 11 * US_SEC.
(** Four ticks in two quarters of an hour, a gap of two quarters, one tick. *)
Definition ticks_ex : list (tick Q) :=
  [tk_at tz_UTC w_leap 1000; tk_at tz_UTC (w_leap + US_MIN) 1003; tk_at tz_UTC (w_leap + 2 * US_MIN) 1003;
   tk_at tz_UTC (w_leap + 3 * US_MIN) 999; tk_at tz_UTC (w_leap + 48 * US_MIN) 1010].
Lemma ticks_ex_order : in_order tz_UTC ticks_ex.
Proof.
  split; [repeat constructor|]. unfold ticks_ex.
  repeat (constructor; [|repeat constructor; unfold tk_wall; simpl; us; lia]). constructor.
Qed.
Lemma ex_run : fs_run MINUTE 15 3 ticks_ex (fed MINUTE 15 3 ticks_ex).
Proof. apply fed_run; vm_compute; reflexivity. Qed.
(** Per frame: minute of the start, minute of the end, first / high / low / last values in cents, number of ticks. *)
Definition view (f : frame Q) : Z * option Z * (Q * Q * Q * Q) * Z :=
  (w_minute (ar_wall (fr_start f)), option_map (fun e => w_minute (ar_wall e)) (fr_end f),
   (tk_value (fr_first f), tk_value (fr_high f), tk_value (fr_low f), tk_value (fr_last f)), fr_nb f).
Lemma ex_view : map view (fs_heap (fed MINUTE 15 3 ticks_ex)) =
  [(45, Some 0, (10 # 1, 1003 # 100, 999 # 100, 999 # 100)%Q, 4); (0, Some 15, (999 # 100, 999 # 100, 999 # 100, 999 # 100)%Q, 1);
   (15, Some 30, (999 # 100, 999 # 100, 999 # 100, 999 # 100)%Q, 1); (30, Some 45, (101 # 10, 101 # 10, 101 # 10, 101 # 10)%Q, 1)].
Proof. vm_compute. reflexivity. Qed.
Lemma ex_frames : fs_frames (fed MINUTE 15 3 ticks_ex) = [1; 2; 3]%nat.
Proof. vm_compute. reflexivity. Qed.

(** ** Witnesses of refutations *)
Lemma closed_refuted : exists mx (fs : fset Q) i f, 1 <= mx /\ fs_reach mx fs /\ fs_heap fs !! i = Some f /\
  fs_current_id fs <> Some i /\ frame_closed f = false.
Proof.
  exists 3, (fed MINUTE 15 3 ticks_ex), 0%nat. destruct (fs_heap (fed MINUTE 15 3 ticks_ex) !! 0%nat) as [f|] eqn:E.
  - exists f. split; [lia|]. split; [eapply run_reach, ex_run|]. split; [auto|]. split; [vm_compute; discriminate|].
    assert (option_map frame_closed (fs_heap (fed MINUTE 15 3 ticks_ex) !! 0%nat) = Some false) as E' by (vm_compute; reflexivity).
    rewrite E in E'. simpl in E'. congruence.
  - exfalso. assert (option_map frame_closed (fs_heap (fed MINUTE 15 3 ticks_ex) !! 0%nat) = Some false) as E' by (vm_compute; reflexivity).
    rewrite E in E'. discriminate.
Qed.
Lemma max_zero_refuted : exists (fs : fset Q) tk, fset_init MINUTE 15 "fs" 0 = Ok fs /\
  snd (fs_on_new_tick (gap_fuel fs tk) fs tk true None) = Err IndexError.
Proof. exists (fs0 MINUTE 15 0), (tk_at tz_UTC w_leap 1000). split; vm_compute; reflexivity. Qed.

(** Overlapping frames in a zone that skips a midnight. *)
Definition skip_at : Z := days_from_civil 2018 11 4 * US_DAY.
Definition tz_skip : tzinfo :=
  {| tz_id := 7; tz_wall u := if u <? skip_at then u else u + US_HOUR;
     tz_utc w := if w <? skip_at + US_HOUR then w else w - US_HOUR;
     tz_resolve w := if (skip_at <=? w) && (w <? skip_at + US_HOUR) then w + US_HOUR else w |}.
Definition ticks_skip : list (tick Q) := [tk_at tz_skip (skip_at - US_HOUR) 1000; tk_at tz_skip (skip_at + US_HOUR) 1001].
Lemma skip_forward : resolves_forward tz_skip.
Proof. intros w. unfold tz_skip, tz_resolve. us. destruct (_ && _); lia. Qed.
Lemma overlap_refuted : exists z ts (fs : fset Q) f g e, resolves_forward z /\ fs_run DAY 1 10 ts fs /\ in_order z ts /\
  fs_heap fs !! 0%nat = Some f /\ fs_heap fs !! 1%nat = Some g /\ fr_end f = Some e /\ ar_wall (fr_start g) < ar_wall e.
Proof.
  set (fs := fed DAY 1 10 ticks_skip).
  assert (exists f g e, fs_heap fs !! 0%nat = Some f /\ fs_heap fs !! 1%nat = Some g /\ fr_end f = Some e /\ ar_wall (fr_start g) < ar_wall e)
    as (f & g & e & H1 & H2 & H3 & H4).
  { assert (match fs_heap fs !! 0%nat, fs_heap fs !! 1%nat with
            | Some f, Some g => match fr_end f with Some e => ar_wall (fr_start g) <? ar_wall e | None => false end | _, _ => false end = true) as Hc
      by (vm_compute; reflexivity).
    destruct (fs_heap fs !! 0%nat) as [f|]; [|discriminate]. destruct (fs_heap fs !! 1%nat) as [g|]; [|discriminate].
    destruct (fr_end f) as [e|] eqn:Ee; [|discriminate]. apply Z.ltb_lt in Hc. eauto 10. }
  exists tz_skip, ticks_skip, fs, f, g, e. split; [exact skip_forward|]. split; [apply fed_run; vm_compute; reflexivity|].
  split; [|auto]. split; [repeat constructor|]. repeat constructor. unfold tk_wall. simpl. us. lia.
Qed.

(** Tick frames are not split at a change of day. *)
Definition ticks_days : list (tick Q) :=
  [tk_at tz_UTC w_leap 1000; tk_at tz_UTC (w_leap + US_DAY) 1001; tk_at tz_UTC (w_leap + 2 * US_DAY) 1002].
Lemma days_run : fs_run_epic TICK 2 10 ticks_days (fed TICK 2 10 ticks_days).
Proof. apply fed_run_epic; vm_compute; reflexivity. Qed.
Lemma day_split_refuted : exists ts (fs : fset Q) f, fs_run_epic TICK 2 10 ts fs /\ in_order tz_UTC ts /\
  fs_heap fs !! 0%nat = Some f /\ arrow_date (tk_dt (fr_first f)) < arrow_date (tk_dt (fr_last f)).
Proof.
  set (fs := fed TICK 2 10 ticks_days).
  assert (exists f, fs_heap fs !! 0%nat = Some f /\ arrow_date (tk_dt (fr_first f)) < arrow_date (tk_dt (fr_last f))) as (f & H1 & H2).
  { assert (match fs_heap fs !! 0%nat with Some f => arrow_date (tk_dt (fr_first f)) <? arrow_date (tk_dt (fr_last f)) | None => false end = true) as Hc
      by (vm_compute; reflexivity).
    destruct (fs_heap fs !! 0%nat) as [f|]; [|discriminate]. apply Z.ltb_lt in Hc. eauto. }
  exists ticks_days, fs, f. split; [apply days_run|]. split; [|auto]. split; [repeat constructor|].
  unfold ticks_days. repeat (constructor; [|repeat constructor; unfold tk_wall; simpl; us; lia]). constructor.
Qed.

(** A quantity of -15 minutes: the second tick is never processed. *)
Lemma negative_refuted : exists t1 t2 (fs : fset Q), check_unit MINUTE (-15) = Ok () /\ fs_run MINUTE (-15) 10 [t1] fs /\
  in_order tz_UTC [t1; t2] /\
  (forall fuel mo lst, snd (fs_on_new_tick fuel fs t2 mo lst) <> Ok ()) /\
  (forall mo, exists fuel0, forall fuel lst, (fuel0 <= fuel)%positive -> snd (fs_on_new_tick fuel fs t2 mo lst) = Err OverflowError).
Proof.
  set (t1 := tk_at tz_UTC w_leap 1000). set (t2 := tk_at tz_UTC (w_leap + US_MIN) 1001). set (fs := fed MINUTE (-15) 10 [t1]).
  assert (fs_run MINUTE (-15) 10 [t1] fs) as Hr by (apply fed_run; vm_compute; reflexivity).
  destruct (fs_run_wf MINUTE (-15) 10 [t1] fs ltac:(lia) Hr) as (W1 & W2 & W3 & W4 & _).
  assert (exists cur e start, fs_current fs = Some cur /\ fr_end cur = Some e /\ ar_tz e = tz_UTC /\ ar_tz start = tz_UTC /\
    ar_wall e < ar_wall start /\ arrow_ltb (tk_dt t2) e = false /\ get_frame_start MINUTE (-15) (tk_dt t2) = Ok start /\
    is_ok (get_frame_end MINUTE (-15) start) = true) as (cur & e & start & C1 & C2 & C3 & C4 & C5 & C6 & C7 & C8).
  { destruct (fs_current fs) as [cur|] eqn:Ecur; [|vm_compute in Ecur; discriminate].
    assert (exists e, fr_end cur = Some e /\ ar_tz e = tz_UTC /\ ar_wall e = w_leap - 11 * US_SEC - 2 * US_MIN) as (e & E1 & E2 & E3).
    { vm_compute in Ecur. injection Ecur as <-. simpl. eexists. split; [reflexivity|]. split; reflexivity. }
    assert (exists start, get_frame_start MINUTE (-15) (tk_dt t2) = Ok start /\ ar_tz start = tz_UTC /\ ar_wall start = w_leap - 11 * US_SEC + 13 * US_MIN)
      as (start & S1 & S2 & S3) by (eexists; split; [vm_compute; reflexivity|split; reflexivity]).
    exists cur, e, start. split; [auto|]. split; [auto|]. split; [auto|]. split; [auto|]. rewrite E3, S3. split; [us; lia|].
    split; [rewrite arrow_ltb_same by auto; rewrite E3; apply Z.ltb_ge; simpl; us; lia|]. split; [auto|].
    vm_compute in S1. injection S1 as <-. vm_compute. reflexivity. }
  exists t1, t2, fs. split; [reflexivity|]. split; [auto|].
  split; [split; [repeat constructor|]; repeat constructor; unfold tk_wall; simpl; us; lia|].
  assert (forall mo, (forall fuel lst, snd (fs_on_new_tick fuel fs t2 mo lst) <> Ok ()) /\
    (fs_inds fs = [] -> is_ok (get_frame_end MINUTE (-15) start) = true ->
       exists fuel0, forall fuel lst, (fuel0 <= fuel)%positive -> snd (fs_on_new_tick fuel fs t2 mo lst) = Err OverflowError)) as Hn.
  { intros mo. eapply (negative_never MINUTE (-15) tz_UTC fs t2 mo cur e start); auto; try lia. intros w. reflexivity. }
  split.
  - intros fuel mo lst. apply (Hn mo).
  - intros mo. apply (Hn mo); auto.
Qed.
