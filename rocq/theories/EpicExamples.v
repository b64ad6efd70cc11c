(** Concrete programs for the epic properties. *)
From Verif Require Export StrategyExamples.
Open Scope Z_scope.

Definition epic_of (w : world Q) (k : nat) : epic Q :=
  nth k (w_epics w) {| ep_ref := ""; ep_tz := tz_UTC; ep_open := 0; ep_close := 0; ep_days := []; ep_holidays := []; ep_prov := 0; ep_last := fake_tick;
                       ep_fsets := []; ep_strats := []; ep_mopen := false |}.
Lemma epic_of_lookup w k : (k < length (w_epics w))%nat -> w_epics w !! k = Some (epic_of w k).
Proof. intros Hk. destruct (lookup_lt_is_Some_2 _ _ Hk) as [s Hs]. rewrite Hs. unfold epic_of. f_equal. symmetry. now apply nth_lookup_Some. Qed.
Definition fset_of (w : world Q) (k : nat) : fset Q :=
  nth k (w_fsets w) {| fs_ref := ""; fs_unit := TICK; fs_q := 1; fs_max := 1; fs_epic := None; fs_heap := []; fs_frames := []; fs_inds := [] |}.
Lemma fset_of_lookup w k : (k < length (w_fsets w))%nat -> w_fsets w !! k = Some (fset_of w k).
Proof. intros Hk. destruct (lookup_lt_is_Some_2 _ _ Hk) as [s Hs]. rewrite Hs. unfold fset_of. f_equal. symmetry. now apply nth_lookup_Some. Qed.

(** A zone whose clock goes back one hour at the instant [T]. *)
Definition fall_at : Z := 1603587600000000.
Definition tz_fall : tzinfo :=
  {| tz_id := 8; tz_wall u := if u <? fall_at then u + 3600000000 else u; tz_utc w := if w <? fall_at + 3600000000 then w - 3600000000 else w; tz_resolve w := w |}.
Definition w_zone (z : tzinfo) : world Q := run quiet empty_world [ONewEpic "A" (Some z) 0 86399999999 None None None].
Lemma run_quiet_reach (P : cmd Q -> Prop) l : Forall (op_ok P) l -> reach P (run quiet empty_world l).
Proof. intros Hl. apply (run_reach P quiet l empty_world); [apply quiet_ok|auto|constructor]. Qed.

(** [w] after the operations [l], quietly. *)
Lemma run_app (pr : programs Q) w l k : run pr w (l ++ k) = run pr (run pr w l) k.
Proof. apply fold_left_app. Qed.

(** Strategy 0 raises in on_market_open. *)
Definition raiser : programs Q := fun sid cb _ _ => match sid, cb with 0%nat, OnMarketOpen => SRaise KeyError | _, _ => SDone end.
Lemma raiser_ok P : programs_ok P raiser.
Proof. intros sid cb eid w. unfold raiser. destruct sid, cb; exact I. Qed.

(** Decidable check that a run is clean. *)
Fixpoint clean_b (pr : programs Q) (w : world Q) (l : list (op Q)) : bool :=
  match l with
  | [] => true
  | o :: l' => (match o with
                | OTick a tk => match snd (step pr w o) with Ok _ => true | Err _ => match w_epics w !! a with Some e => bool_decide (refused e tk) | None => true end end
                | _ => true
                end) && clean_b pr (fst (step pr w o)) l'
  end.
Lemma clean_b_ok pr w l : clean_b pr w l = true -> clean pr w l.
Proof.
  revert w. induction l as [|o l IH]; intros w Hc; [exact I|]. cbn [clean_b] in Hc. apply andb_prop in Hc as [H1 H2]. split; [|now apply IH].
  destruct o as [| | | | | | |a tk|]; auto. destruct (snd (step pr w (OTick a tk))) as [[]|x]; [now left|]. right. intros e He. rewrite He in H1. now apply bool_decide_eq_true in H1.
Qed.

(** An epic open 08:00-16:00 with a frame set of 2-hour frames, two in memory. *)
Definition ops_frames : list (op Q) :=
  [ONewEpic "A" (Some tz_UTC) 28800000000 57600000000 None None None; ONewFrameSet HOUR 2 "H2" 2; OAddFrameSet 0 0].
Definition w_frames (l : list (op Q)) : world Q := run quiet empty_world (ops_frames ++ l).
Lemma w_frames_reach l : Forall (op_ok any_call) l -> reach any_call (w_frames l).
Proof. intros Hl. apply run_quiet_reach. apply Forall_app. split; [repeat constructor|auto]. Qed.

(** Two epics, each with its own backtest provider, one strategy. *)
Definition ops_two : list (op Q) :=
  [ONewStrategy "s0"; ONewEpic "A" (Some tz_UTC) 0 86399999999 None None None; ONewEpic "B" (Some tz_UTC) 0 86399999999 None None None;
   OAddStrategy 0 0; OAddStrategy 1 0; ONewFrameSet HOUR 2 "H2" 2; OAddFrameSet 1 0; OTick 0 (tk_s 1600000000 (100#1) (101#1)); OTick 1 (tk_s 1600000000 (200#1) (201#1));
   buy 0 1 0; buy 1 1 0].

Lemma w_zone_tick z tk : arrow_ltb (arrow_to z (tk_dt tk)) (tk_dt (fake_tick (F:=Q))) = false ->
  exists e, w_epics (run quiet (w_zone z) [OTick 0 tk]) !! 0%nat = Some e /\ ep_tz e = z /\ ep_last e = tick_to z tk /\ has_ticked e.
Proof.
  intros Hz. assert (exists e0, w_epics (w_zone z) !! 0%nat = Some e0 /\ ep_tz e0 = z /\ ep_last e0 = fake_tick) as (e0 & E0 & Z0 & L0).
  { eexists. split; [reflexivity|]. split; reflexivity. }
  assert (~ refused e0 tk) as Hn by (unfold refused; rewrite Z0, L0, Hz; discriminate).
  exists (accepted_epic e0 tk). cbn [run fold_left step]. rewrite (tick_epics quiet (w_zone z) 0 e0 tk E0 Hn). rewrite list_lookup_insert by (eapply lookup_lt_Some; eauto).
  split; [auto|]. split; [exact Z0|]. split; [now rewrite <- Z0|apply accepted_has_ticked].
Qed.
