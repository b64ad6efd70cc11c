(** C71 on Python floats. *)
From Verif Require Import ChartFreeProofs FineProofs FloatRsiProofs.
From Verif Require Import SpecFine.
Open Scope Z_scope.
Lemma charts_b64 N zone cls (pr : programs b64) l : 1 <= N -> (forall f, resolves_forward (zone f)) ->
  plain_charts N zone cls (quotes_within 800) (fun n => n < 2 ^ 53) pr empty_world l -> charts_fine pr empty_world l.
Proof.
  intros HN Hz. apply (charts_raise_nothing N zone cls HN Hz (quotes_within 800) change_ok (fun n => n < 2 ^ 53)).
  - intros z t Ht. exact Ht.
  - intros a b Ha Hb. apply value_ok in Ha, Hb. now apply sub_change.
  - right. intros [|x l0] Hn Hl; [exists (fofZ 100); reflexivity|]. destruct (build_rsi_b64 (Z.of_nat (length (x :: l0))) (x :: l0)) as (v & E & _); [simpl length in *; lia|auto|auto|eauto].
Qed.
Lemma charts_removed_b64 N zone cls (pr : programs b64) l : 1 <= N -> (forall f, resolves_forward (zone f)) -> chart_blind pr ->
  plain_charts N zone cls (quotes_within 800) (fun n => n < 2 ^ 53) pr empty_world l -> no_charts (run pr empty_world l) = no_charts (run pr empty_world (without_charts l)).
Proof. intros HN Hz Hb Hp. apply charts_removed; [auto|]. exact (charts_b64 N zone cls pr l HN Hz Hp). Qed.
