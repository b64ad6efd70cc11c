(** Concrete programs in two systems of units (C69, C70). *)
From Verif Require Export UnitsProofs ChartFreeProofs WorldExamples.
Open Scope Z_scope.

(** A strategy that opens a trade at its first tick and closes a part of it later. *)
Definition trader (d : dir) (q c : Z) : programs Q := fun sid cb eid w =>
  match cb with
  | OnEveryTick => match w_trades w with
                   | [] => SCall (COpen eid (Dir d) q (Some sid) "a") (fun _ _ => SDone)
                   | _ => if (Z.of_nat (length (w_log w)) =? 2) then SCall (CClose 0 (Some c) "c") (fun _ _ => SDone) else SDone
                   end
  | _ => SDone
  end.
Lemma trader_in u d q c : programs_in u (trader d q c) (trader (dir_in u d) (u_size u * q) (u_size u * c)).
Proof.
  intros sid cb eid w w' R Hq. unfold trader. destruct cb; try constructor. pose proof (co_trades _ _ _ R) as Ht. rewrite (co_log _ _ _ R).
  assert (forall c0 c0', call_in u (at_callback w sid OnEveryTick eid) c0 c0' -> alongside (converted u) (call_in u) (at_callback w sid OnEveryTick eid) (at_callback w' sid OnEveryTick eid) (SCall c0 (fun _ _ => SDone)) (SCall c0' (fun _ _ => SDone))) as Hc.
  { intros c0 c0' Hc. destruct (run_cmd (at_callback w sid OnEveryTick eid) c0) as [v r] eqn:E, (run_cmd (at_callback w' sid OnEveryTick eid) c0') as [v' r'] eqn:E'.
    apply (al_call _ _ _ _ _ _ _ _ v v' r r'); [exact Hc|exact E|exact E'|]. intros _ _. constructor. }
  destruct Ht as [|t t' l l' _ _].
  - apply Hc. split; [|exact Hq]. exact (ci_open u eid (Dir d) q (Some sid) "a").
  - destruct (_ =? 2); [|constructor]. apply Hc. split; [|exact I]. exact (ci_close u 0 (Some c) "c").
Qed.
Lemma trader_blind d q c : chart_blind (trader d q c).
Proof.
  intros sid cb eid w w' E. unfold trader. destruct cb; try constructor. pose proof (f_equal w_trades E) as Et. pose proof (f_equal w_log E) as El. simpl in Et, El. rewrite Et, El.
  assert (forall c0, alongside (fun v v' => no_charts v = no_charts v') (fun _ c c' => c' = c) (at_callback w sid OnEveryTick eid) (at_callback w' sid OnEveryTick eid) (SCall c0 (fun _ _ => SDone)) (SCall c0 (fun _ _ => SDone))) as Hc.
  { intros c0. destruct (run_cmd (at_callback w sid OnEveryTick eid) c0) as [v r] eqn:E1, (run_cmd (at_callback w' sid OnEveryTick eid) c0) as [v' r'] eqn:E1'.
    apply (al_call _ _ _ _ _ _ _ _ v v' r r'); [reflexivity|exact E1|exact E1'|]. intros _ _. constructor. }
  destruct (w_trades w'); [apply Hc|]. destruct (_ =? 2); [apply Hc|constructor].
Qed.

Definition stage : list (op Q) := [ONewStrategy "s"; ONewEpic "A" (Some tz_UTC) 0 86399999999 None None None; OAddStrategy 0 0].
Definition charted : list (op Q) := stage ++ [ONewFrameSet MINUTE 5 "fs" 3; OAddFrameSet 0 0; OAddIndicator 0 {| in_ref := "c"; in_mopen := false; in_kind := KCandle true |};
  OAddIndicator 0 {| in_ref := "rsi"; in_mopen := false; in_kind := KRSI 1 None |}].
Definition feed (l : list (Q * Q)) : list (op Q) := imap (fun i p => OTick 0 (tk_s (1600000000 + 400 * Z.of_nat i) p.1 p.2)) l.
Definition quotes : list (Q * Q) := [(100#1, 10050#100); (101#1, 10125#100); (103#1, 1035#10); (102#1, 1025#10)].
(** Three points down for one up, from 1000; five times the quantities. *)
Definition upturned : unit_change := {| u_price := -3#1; u_offset := 1000#1; u_size := 5 |}.
Definition quotes' : list (Q * Q) := [(6985#10, 700#1); (69625#100, 697#1); (6895#10, 691#1); (6925#10, 694#1)].
Lemma stage_in u pr w l l' : ops_in u pr (run pr w stage) l l' -> ops_in u pr w (stage ++ l) (stage ++ l').
Proof. intros Ho. unfold stage. simpl. do 3 (apply oi_same; [exact I|]). exact Ho. Qed.

(** Both results are sums of halves: 1/2 and -1/2. *)
Definition halves (q : Z) : list (op Q) :=
  [ONewStrategy "s"; ONewEpic "A" (Some tz_UTC) 0 86399999999 None None None; OTick 0 (tk_s 1600000000 (100#1) (100#1)); OCmd (COpen 0 (Dir BUY) q (Some 0%nat) "");
   OTick 0 (tk_s 1600000001 (1005#10) (1005#10)); OCmd (CClose 0 None ""); OCmd (COpen 0 (Dir BUY) q (Some 0%nat) ""); OTick 0 (tk_s 1600000002 (100#1) (100#1)); OCmd (CClose 1 None "")].
(** One unit of an instrument quoted with four decimals. *)
Definition pips (k : Q) : list (op Q) :=
  [ONewStrategy "s"; ONewEpic "A" (Some tz_UTC) 0 86399999999 None None None; OTick 0 (tk_s 1600000000 (Qred (k * (11000#10000))) (Qred (k * (11000#10000)))); OCmd (COpen 0 (Dir BUY) 1 (Some 0%nat) "");
   OTick 0 (tk_s 1600000001 (Qred (k * (11040#10000))) (Qred (k * (11040#10000)))); OCmd (CClose 0 None "")].
