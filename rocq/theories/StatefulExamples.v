(** A concrete program with private data. *)
From Verif Require Export ReentrantExamples StatefulProofs.
Open Scope Z_scope.

(** The data is the number of ticks seen by strategy 0, which buys 2 at the second one and raises at the third one. *)
Definition counter : pprograms Q nat := fun sid cb eid n w =>
  match sid, cb with
  | 0%nat, OnEveryTick =>
      match n with
      | 1%nat => PCall 2%nat (buy eid 2 0) (fun n' _ _ => PDone n')
      | 2%nat => PRaise 3%nat KeyError
      | _ => PDone (S n)
      end
  | _, _ => PDone n
  end.
(** The main program sends the ticks of 9:00, 10:00, ... until strategy 0 counted [stop] ticks. *)
Fixpoint feed (stop fuel : nat) (h : Z) (n : nat) : pscript Q nat :=
  match fuel with
  | O => PDone n
  | S f => if (n =? stop)%nat then PDone n else PCall n (at_h h) (fun n' _ _ => feed stop f (h + 1) n')
  end.
Lemma counter_ok : pprograms_ok (only_calls no_toggle) counter.
Proof. intros sid cb eid n w. unfold counter. destruct sid, cb; try exact I. destruct n as [|[|[|n]]]; simpl; auto. Qed.
Lemma counter_sane : pprograms_ok (op_ok sane_call) counter.
Proof. intros sid cb eid n w. unfold counter. destruct sid, cb; try exact I. destruct n as [|[|[|n]]]; simpl; auto. split; [lia|auto]. Qed.
Lemma feed_ok P stop fuel h n : pscript_ok (op_ok P) (feed stop fuel h n).
Proof. revert h n. induction fuel as [|f IH]; intros h n; simpl; [auto|]. destruct (n =? stop)%nat; simpl; auto. Qed.
