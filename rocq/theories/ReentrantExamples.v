(** Concrete re-entrant strategies. *)
From Verif Require Export EpicExamples ReentrantProofs.
Open Scope Z_scope.

(** Epic 0 open 08:00-16:00 with strategies 0 and 1, no tick yet. *)
Definition w55 : world Q := run quiet empty_world ops_hours.
Lemma w55_reach P : reach P w55.
Proof. apply run_quiet_reach. repeat constructor. Qed.
(** Strategy 0, told at 09:00 that the market opened, buys, sends the ticks of 10:00 and 08:00 (too late, caught), creates a
    frame set, registers it and sells. *)
Definition hour_of (w : world Q) : Z := ar_utc (tk_dt (ep_last (epic_of w 0))) / 3600000000 - 444480.
Definition feeder : rprograms Q := fun sid cb eid w =>
  match sid, cb with
  | 0%nat, OnMarketOpen =>
      RCall (buy eid 5 0) (fun _ _ => RCall (at_h 10) (fun _ _ => RCall (at_h 8) (fun _ r =>
        match r with
        | Err EpicException => RCall (ONewFrameSet HOUR 1 "H1" 10) (fun w _ => RCall (OAddFrameSet eid 0) (fun _ _ => RCall (sell eid 3 0) (fun _ _ => RDone)))
        | _ => RRaise KeyError
        end)))
  | _, _ => RDone
  end.
Lemma feeder_ok : rprograms_ok sane_call feeder.
Proof. intros sid cb eid w. unfold feeder. destruct sid, cb; try exact I. simpl. repeat split; auto; try lia. intros _ [[]|[]]; simpl; repeat split; auto; lia. Qed.
(** Strategy 0 sends the tick of 17:00 when told that the market opened. *)
Definition skipper : rprograms Q := fun sid cb _ _ => match sid, cb with 0%nat, OnMarketOpen => RCall (at_h 17) (fun _ _ => RDone) | _, _ => RDone end.
Lemma skipper_ok P : rprograms_ok P skipper.
Proof. intros sid cb eid w. unfold skipper. destruct sid, cb; simpl; auto. Qed.
(** Strategy 0 registers a new strategy with the epic calling it. *)
Definition recruiter : rprograms Q := fun sid cb eid w =>
  match sid, cb with 0%nat, OnEveryTick => RCall (ONewStrategy "s2") (fun _ _ => RCall (OAddStrategy eid (length (w_strats w))) (fun _ _ => RDone)) | _, _ => RDone end.
Lemma recruiter_ok P : rprograms_ok P recruiter.
Proof. intros sid cb eid w. unfold recruiter. destruct sid, cb; simpl; auto. Qed.
