(** Property C71 (the whole program): charts of built-in indicators raise nothing. *)
From Verif Require Import FineFloatProofs FineProofs UnitsExamples FloatProofs.
From Verif Require Import SpecFine.
From Coq Require Import QArith Reals.
From Flocq Require Import Core.
Open Scope Z_scope.

(** C71 on exact numbers: no tick of the program is interrupted by a frame set. *)
Theorem C71_charts_raise_nothing : forall N zone cls (pr : programs Q) l, 1 <= N -> (forall f, resolves_forward (zone f)) ->
  plain_charts N zone cls any_quote any_number pr empty_world l -> charts_fine pr empty_world l.
Proof. exact charts_Q. Qed.
Print Assumptions C71_charts_raise_nothing.
(** On Python floats: finite quotes up to 2^800, RSI over fewer than 2^53 frames. *)
Theorem C71_charts_raise_nothing_b64 : forall N zone cls (pr : programs b64) l, 1 <= N -> (forall f, resolves_forward (zone f)) ->
  plain_charts N zone cls (quotes_within 800) (fun n => n < 2 ^ 53) pr empty_world l -> charts_fine pr empty_world l.
Proof. exact charts_b64. Qed.
Print Assumptions C71_charts_raise_nothing_b64.
(** On all numbers (NaN and infinities among the floats), without RSI. *)
Theorem C71_without_rsi : forall {F} `{Num F} N zone cls (pr : programs F) l, 1 <= N -> (forall f, resolves_forward (zone f)) -> (forall f r, cls f r <> Strength) ->
  plain_charts N zone cls any_quote any_number pr empty_world l -> charts_fine pr empty_world l.
Proof. exact @charts_any. Qed.
Print Assumptions C71_without_rsi.
(** With C70: such charts change nothing for strategies that do not look at them. *)
Theorem C71_removed : forall N zone cls (pr : programs Q) l, 1 <= N -> (forall f, resolves_forward (zone f)) -> chart_blind pr ->
  plain_charts N zone cls any_quote any_number pr empty_world l -> no_charts (run pr empty_world l) = no_charts (run pr empty_world (without_charts l)).
Proof. exact charts_removed_Q. Qed.
Print Assumptions C71_removed.
Theorem C71_removed_b64 : forall N zone cls (pr : programs b64) l, 1 <= N -> (forall f, resolves_forward (zone f)) -> chart_blind pr ->
  plain_charts N zone cls (quotes_within 800) (fun n => n < 2 ^ 53) pr empty_world l -> no_charts (run pr empty_world l) = no_charts (run pr empty_world (without_charts l)).
Proof. exact charts_removed_b64. Qed.
Print Assumptions C71_removed_b64.

Ltac plain_step := match goal with
  | |- plain_charts _ _ _ _ _ _ _ [] => exact I
  | |- plain_charts _ _ _ _ _ _ _ (_ :: _) => split; [cbv beta iota delta [plain_op]|]
  | |- forall x, w_epics _ !! _ = Some x -> ep_tz _ = _ => intros x Hx; apply (f_equal (option_map ep_tz)) in Hx; vm_compute in Hx; injection Hx as Hx; exact (eq_sym Hx)
  | |- forall x, w_epics _ !! _ = Some x -> _ => intros x Hx; assert (ep_tz x = tz_UTC) as -> by (apply (f_equal (option_map ep_tz)) in Hx; vm_compute in Hx; injection Hx as Hx; exact (eq_sym Hx)); split; vm_compute; discriminate
  | |- forall x, w_fsets _ !! _ = Some x -> _ => intros x Hx; first [exact I|assert (fs_q x = 5) as -> by (apply (f_equal (option_map fs_q)) in Hx; vm_compute in Hx; injection Hx as Hx; exact (eq_sym Hx)); vm_compute; reflexivity]
  | |- True => exact I
  | |- match in_kind _ with _ => _ end => cbn [in_kind]
  | |- any_quote _ /\ _ => split; [exact I|]
  | |- _ /\ _ => split
  | |- class_of _ = _ => reflexivity
  | |- _ <= _ => lia
  | |- _ <> _ => discriminate
  | |- _ -> _ => discriminate
  end.
Definition cls_ex (f : nat) (r : string) : chart_class := if String.eqb r "rsi" then Strength else Candles.
Example C71_ex : (forall f : nat, resolves_forward tz_UTC) /\ plain_charts 1 (fun _ => tz_UTC) cls_ex any_quote any_number (trader BUY 2 1) empty_world (charted ++ feed quotes) /\
  length (w_fsets (run (trader BUY 2 1) empty_world (charted ++ feed quotes))) = 1%nat.
Proof.
  split; [intros _ w; simpl; lia|]. split; [|vm_compute; reflexivity]. unfold charted, stage, feed, quotes. cbv [app imap compose].
  repeat plain_step.
Qed.
(** Floats. *)
Definition quiet64 : programs b64 := fun _ _ _ _ => SDone.
Definition ops64 : list (op b64) := [ONewEpic "A" (Some tz_UTC) 0 86399999999 None None None; ONewFrameSet MINUTE 5 "fs" 3; OAddFrameSet 0 0;
  OAddIndicator 0 {| in_ref := "rsi"; in_mopen := false; in_kind := KRSI 1 None |}; OTick 0 {| tk_dt := dt_s 1600000000; tk_bid := fofZ 100; tk_ask := fofZ 101 |};
  OTick 0 {| tk_dt := dt_s 1600000600; tk_bid := fofZ 99; tk_ask := fofZ 101 |}].
Example C71_ex_b64 : plain_charts 1 (fun _ => tz_UTC) cls_ex (quotes_within 800) (fun n => n < 2 ^ 53) quiet64 empty_world ops64.
Proof.
  assert (forall n, Z.abs n <= 2 ^ 53 -> within 800 (fofZ n)) as Hq. { intros n Hn. destruct (ofZ_fin n Hn) as [E Hf]. split; [exact Hf|]. rewrite E, <- abs_IZR.
    apply Rle_trans with (IZR (2 ^ 53)); [now apply IZR_le|]. change (IZR (2 ^ 53)) with (bpow radix2 53). apply bpow_le. lia. }
  assert (forall t n m, Z.abs n <= 2 ^ 53 -> Z.abs m <= 2 ^ 53 -> quotes_within 800 {| tk_dt := t; tk_bid := fofZ n; tk_ask := fofZ m |}) as Hqs.
  { intros t n m Hn Hm. split; now apply Hq. }
  unfold ops64. repeat match goal with |- quotes_within _ _ => apply Hqs; [lia|lia] | _ => plain_step end.
Qed.

(** The reference of a candle set given to a moving average in the course of the run: the next frame raises (AttributeError), at every tick from then on. *)
Theorem C71_reused_reference_refuted : exists (l : list (op Q)) eid tk, let w := run quiet empty_world l in
  (forall f i, OAddIndicator f i ∈ l -> class_of (in_kind i) <> None) /\ snd (step quiet w (OTick eid tk)) = Err AttributeError /\
  snd (step quiet (fst (step quiet w (OTick eid tk))) (OTick eid tk)) = Err AttributeError.
Proof.
  exists (stage ++ [ONewFrameSet MINUTE 5 "fs" 3; OAddFrameSet 0 0; OAddIndicator 0 {| in_ref := "i"; in_mopen := false; in_kind := KCandle true |}; OTick 0 (tk_s 1600000000 (100#1) (100#1));
    OAddIndicator 0 {| in_ref := "i"; in_mopen := false; in_kind := KSMA 5 |}]), 0%nat, (tk_s 1600000400 (100#1) (100#1)).
  cbv zeta. split; [|split; vm_compute; reflexivity]. intros f i Hi. unfold stage in Hi. cbn [app] in Hi.
  repeat (apply elem_of_cons in Hi as [Hi|Hi]; [try discriminate Hi; injection Hi as -> ->; discriminate|]). now apply elem_of_nil in Hi.
Qed.
