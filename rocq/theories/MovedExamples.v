(** A program and the same program a week later (C74). *)
From Verif Require Export MovedReads WorldExamples.
Open Scope Z_scope.

Definition a_minute_later (a : arrow) : arrow := {| ar_utc := ar_utc a + US_MIN; ar_wall := ar_wall a + US_MIN; ar_tz := ar_tz a |}.
(** A strategy that buys when the candle of the current frame is green, and otherwise pauses for a minute. *)
Definition chaser : programs Q := fun sid cb eid w =>
  match cb, w_fsets w !! 0%nat with
  | OnEveryTickMarketOpen, Some s =>
      match fs_current s with
      | Some f => if fltb (tk_value (fr_first f)) (tk_value (fr_last f)) then SCall (COpen eid (Dir BUY) 1 (Some sid) "up") (fun _ _ => SDone)
                  else SCall (CPause sid (Some (a_minute_later (tk_dt (fr_last f))))) (fun _ _ => SDone)
      | None => SDone
      end
  | _, _ => SDone
  end.
Lemma chaser_moved d : programs_moved d chaser chaser.
Proof.
  intros sid cb eid w w' R. unfold chaser. destruct cb; try constructor. pose proof (wm_fset d w w' 0 R) as Hf. destruct (w_fsets w !! 0%nat) as [s|], (w_fsets w' !! 0%nat) as [s'|]; try easy; [|constructor].
  destruct (moved_current d s s' Hf) as [_ Hc]. destruct (fs_current s) as [f|], (fs_current s') as [f'|]; try easy; [|constructor]. rewrite (tm_value d _ _ (fm_first _ _ _ Hc)), (tm_value d _ _ (fm_last _ _ _ Hc)).
  assert (forall c0 c0', cmd_moved d c0 c0' -> alongside (world_moved d) (fun _ => cmd_moved d) (at_callback w sid OnEveryTickMarketOpen eid) (at_callback w' sid OnEveryTickMarketOpen eid)
    (SCall c0 (fun _ _ => SDone)) (SCall c0' (fun _ _ => SDone))) as Hs.
  { intros c0 c0' H0. destruct (run_cmd (at_callback w sid OnEveryTickMarketOpen eid) c0) as [v r] eqn:E, (run_cmd (at_callback w' sid OnEveryTickMarketOpen eid) c0') as [v' r'] eqn:E'.
    apply (al_call _ _ _ _ _ _ _ _ v v' r r'); [exact H0|exact E|exact E'|]. intros _ _. constructor. }
  destruct (fltb _ _); apply Hs; [now constructor|]. constructor. constructor. destruct (km_dt _ _ _ (fm_last _ _ _ Hc)). constructor; simpl; auto; lia.
Qed.

(** From Monday 6 January 2020, 12:00:00 UTC; Wednesday 8 January is a holiday. *)
Definition monday : Z := 1578312000.
Definition a_week : Z := 7 * US_DAY.
(** The program [k] days later. *)
Definition history (k : Z) (u : unit_) : list (op Q) :=
  [ONewStrategy "s"; ONewEpic "A" (Some tz_UTC) 0 86399999999 None (days_moved (k * US_DAY) <$> Some [18269]) None; OAddStrategy 0 0; ONewFrameSet u 1 "fs" 100; OAddFrameSet 0 0;
   OAddIndicator 0 {| in_ref := "c"; in_mopen := true; in_kind := KCandle true |}] ++
  imap (fun (_ : nat) x => OTick 0 (tk_s (monday + x.1 + k * 86400) x.2 x.2))
    [(0, 100#1); (60, 101#1); (7200, 102#1); (7230, 104#1); (2 * 86400, 99#1); (3 * 86400, 103#1); (3 * 86400 + 7200, 105#1); (3 * 86400 + 10800, 106#1); (3 * 86400 + 10860, 107#1)].
Lemma tk_s_moved k s (b a : Q) : tick_moved (k * US_DAY) (tk_s (s + 0 * 86400) b a) (tk_s (s + k * 86400) b a).
Proof. constructor; [|reflexivity|reflexivity]. constructor; [| |apply zone_utc]; unfold tk_s, dt_s, US_DAY, US_HOUR, US_MIN, US_SEC; simpl; lia. Qed.
