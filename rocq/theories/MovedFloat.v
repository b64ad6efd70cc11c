(** Programs moved to other dates, on Python floats (C74). *)
From Verif Require Export MovedReads FineFloatProofs FloatProofs.
Open Scope Z_scope.
Lemma plain_moved_b64 d N zone cls N' zone' cls' (pr pr' : programs b64) l l' : whole_weeks d -> programs_moved d pr pr' -> ops_moved d pr empty_world l l' ->
  1 <= N -> (forall f, resolves_forward (zone f)) -> plain_charts N zone cls (quotes_within 800) (fun n => n < 2 ^ 53) pr empty_world l ->
  1 <= N' -> (forall f, resolves_forward (zone' f)) -> plain_charts N' zone' cls' (quotes_within 800) (fun n => n < 2 ^ 53) pr' empty_world l' ->
  world_moved d (run pr empty_world l) (run pr' empty_world l') /\ endings pr' empty_world l' = endings pr empty_world l.
Proof. intros Hd Hp Ho HN Hz Hl HN' Hz' Hl'. apply run_moved; [exact Hd|exact Hp|exact Ho|exact (charts_b64 N zone cls pr l HN Hz Hl)|exact (charts_b64 N' zone' cls' pr' l' HN' Hz' Hl')]. Qed.
