(** Concrete runs on Python floats. *)
From Coq Require Import Reals.
From Flocq Require Import Core BinarySingleNaN.
From Verif Require Export FloatAverageProofs.
From Verif Require Import SpecTrade TradeProofs.
From Coq Require Import Lra.
Open Scope Z_scope.

(** The float Python reads for the literal [k / 100]. *)
Definition dec (k : Z) : b64 := fdiv (fofZ k) (fofZ 100).
Lemma dec_decimal k : (Z.abs k <= 2 ^ 53)%Z -> decimal k (dec k).
Proof.
  intros Hk. destruct (ofZ_fin k Hk) as [Vk Fk]. destruct (ofZ_fin 100 ltac:(lia)) as [V F].
  destruct (div_fin (fofZ k) (fofZ 100) 53) as [E W]; [lia|auto|rewrite V; lra| |split; [apply W|]].
  - rewrite V, Vk. unfold Rdiv. rewrite Rabs_mult, (Rabs_pos_eq (/ 100)%R) by lra. rewrite <- abs_IZR. apply IZR_le in Hk. change (IZR (2 ^ 53)) with (bpow radix2 53) in Hk. pose proof (bpow_gt_0 radix2 53). lra.
  - rewrite V, Vk in E. exact E.
Qed.
Lemma dec_within k e : (0 <= e)%Z -> (Z.abs k <= 100 * 2 ^ 30)%Z -> (30 <= e)%Z -> within e (dec k).
Proof. intros He Hk H30. eapply bounded_weaken; [exact H30|]. apply (decimal_within k); [lia|now apply abs_cents|apply dec_decimal; lia]. Qed.

Definition utc0 : arrow := arrow_of_utc tz_UTC 1600000000000000.
Definition ftick (b a : Z) : tick b64 := {| tk_dt := utc0; tk_bid := dec b; tk_ask := dec a |}.
(** A tick [n] minutes later. *)
Definition fmin_tick (n : Z) (b a : Z) : tick b64 := {| tk_dt := arrow_of_utc tz_UTC (1600000000000000 + n * US_MIN); tk_bid := dec b; tk_ask := dec a |}.

Fixpoint ffeed (fs : fset b64) (ts : list (tick b64)) : fset b64 * res unit :=
  match ts with
  | [] => (fs, Ok ())
  | t :: ts' => match fs_on_new_tick (gap_fuel fs t) fs t true (Some (tk_dt t)) with (fs', Ok _) => ffeed fs' ts' | r => r end
  end.
Lemma ffeed_hist (I : indicator b64 -> Prop) (P : tick b64 -> Prop) fs1 ts fs fs' : Forall P ts -> fs_hist I (fun t r => P t /\ r = Ok ()) fs1 fs -> ffeed fs ts = (fs', Ok ()) -> fs_hist I (fun t r => P t /\ r = Ok ()) fs1 fs'.
Proof.
  intros Hts. revert fs. induction Hts as [|t ts Ht Hts IH]; intros fs Hh; cbn [ffeed]; [now intros [= <-]|].
  destruct (fs_on_new_tick _ _ _ _ _) as [fs2 [[]|]] eqn:E; [|discriminate]. apply IH. eapply hist_tick; eauto.
Qed.
Definition ffs0 (q mx : Z) : fset b64 :=
  {| fs_ref := "fs"; fs_unit := MINUTE; fs_q := q; fs_max := mx; fs_epic := None; fs_heap := []; fs_frames := []; fs_inds := [] |}.
Lemma ffs0_init q mx : check_unit MINUTE q = Ok () -> fset_init MINUTE q "fs" mx = Ok (ffs0 q mx).
Proof. intros Hc. unfold fset_init. now rewrite Hc. Qed.
Definition fha : indicator b64 := {| in_ref := "ha"; in_mopen := false; in_kind := KCandle true |}.
Definition frsi : indicator b64 := {| in_ref := "rsi"; in_mopen := false; in_kind := KRSI 2 None |}.
Definition fts : list (tick b64) := [fmin_tick 0 1000 1002; fmin_tick 1 1030 1031; fmin_tick 2 1015 1016].
Definition frun (i : indicator b64) : fset b64 * res unit := ffeed (fst (add_indicator (ffs0 1 5) i)) fts.
Lemma fts_within e : (30 <= e)%Z -> Forall (quotes_within e) fts.
Proof.
  intros He. repeat (constructor; [split; apply dec_within; lia|]). constructor.
Qed.
Lemma frun_hist e i : (30 <= e)%Z -> snd (frun i) = Ok () -> fs_hist (only i) (fun t r => quotes_within e t /\ r = Ok ()) (ffs0 1 5) (fst (frun i)).
Proof.
  intros He E. apply (ffeed_hist _ _ _ fts (fst (add_indicator (ffs0 1 5) i))); [now apply fts_within|apply hist_indicator; [apply hist_start|intros _; reflexivity]|]. fold (frun i). destruct (frun i) as [g r]. simpl in *. now subst r.
Qed.
Lemma dec_small k e : (0 <= e <= 30)%Z -> (Z.abs k <= 100 * 2 ^ e)%Z -> within e (dec k).
Proof.
  intros He Hk. assert (100 * 2 ^ e <= 2 ^ 53)%Z as H53. { assert (2 ^ e <= 2 ^ 30)%Z by (apply Z.pow_le_mono_r; lia). lia. }
  apply (decimal_within k); [lia| |apply dec_decimal; lia]. apply IZR_le in Hk. rewrite abs_IZR, mult_IZR, <- bpow_IZR in Hk by lia. unfold Rdiv. rewrite Rabs_mult, (Rabs_pos_eq (/ 100)%R) by lra. lra.
Qed.
Lemma frun_small e i : (4 <= e <= 30)%Z -> snd (frun i) = Ok () -> fs_hist (only i) (fun t r => quotes_within e t /\ r = Ok ()) (ffs0 1 5) (fst (frun i)).
Proof.
  intros He E. assert (2 ^ 4 <= 2 ^ e)%Z as H4 by (apply Z.pow_le_mono_r; lia). apply (ffeed_hist _ _ _ fts (fst (add_indicator (ffs0 1 5) i))).
  - repeat (constructor; [split; apply dec_small; lia|]). constructor.
  - apply hist_indicator; [apply hist_start|intros _; reflexivity].
  - fold (frun i). destruct (frun i) as [g r]. simpl in *. now subst r.
Qed.
Definition frun2 (i : indicator b64) : fset b64 * res unit := ffeed (fst (add_indicator (ffs0 2 5) i)) fts.
Lemma frun2_small e i : (4 <= e <= 30)%Z -> snd (frun2 i) = Ok () -> fs_hist (only i) (fun t r => quotes_within e t /\ r = Ok ()) (ffs0 2 5) (fst (frun2 i)).
Proof.
  intros He E. assert (2 ^ 4 <= 2 ^ e)%Z as H4 by (apply Z.pow_le_mono_r; lia). apply (ffeed_hist _ _ _ fts (fst (add_indicator (ffs0 2 5) i))).
  - repeat (constructor; [split; apply dec_small; lia|]). constructor.
  - apply hist_indicator; [apply hist_start|intros _; reflexivity].
  - fold (frun2 i). destruct (frun2 i) as [g r]. simpl in *. now subst r.
Qed.
Definition fsma : indicator b64 := {| in_ref := "sma"; in_mopen := false; in_kind := KSMA 2 |}.
Definition fpiv : indicator b64 := {| in_ref := "pv"; in_mopen := false; in_kind := KPivot false |}.
Definition folhc : indicator b64 := {| in_ref := "pv"; in_mopen := false; in_kind := KPivot true |}.
Definition fblank : tick b64 := ftick 0 0.
Definition fframe_at (fs : fset b64) (k : nat) : frame b64 := nth k (fs_heap fs) (frame_new fblank utc0 None None).
Definition fprices (fs : fset b64) (ref : string) (k : nat) : res (list b64) :=
  match value_at fs ref k with
  | Some iv => let f := fframe_at fs k in let! o := c_open (fs_heap fs) f iv in let! h := c_high (fs_heap fs) f iv in let! l := c_low (fs_heap fs) f iv in let! c := candle_last iv in Ok [o; h; l; c]
  | None => Err Dangling
  end.
(** The prices are the floats of these numbers of cents. *)
Definition prices_are (r : res (list b64)) (ks : list Z) : bool :=
  match r with Ok l => forallb (fun p => feqb (fst p) (dec (snd p))) (combine l ks) && (length l =? length ks)%nat | Err _ => false end.
Definition fsma_val (fs : fset b64) (p : Z) (k : nat) : res (list b64) :=
  match value_at fs "sma" k with
  | Some iv => match iv_data iv with DSMA lc => let! v := sma_value (fframe_at fs k) lc p in Ok (match v with Some x => [x] | None => [] end) | _ => Err Dangling end
  | None => Err Dangling
  end.
Definition flevels (fs : fset b64) (k : nat) : res (list b64) :=
  match value_at fs "pv" k with
  | Some iv =>
      let f := fframe_at fs k in
      let get g := let! v := g (fs_heap fs) f iv in Ok (match v with Some x => [x] | None => [] end) in
      let! a := get support3 in let! b := get support2 in let! c := get support1 in let! d := get pivot in
      let! x := get resistance1 in let! y := get resistance2 in let! z := get resistance3 in Ok (a ++ b ++ c ++ d ++ x ++ y ++ z)
  | None => Err Dangling
  end.
Definition frsi_val (fs : fset b64) (k : nat) : option b64 :=
  match value_at fs "rsi" k with Some iv => match iv_data iv with DRSI _ _ v => v | _ => None end | None => None end.

(** A BUY of 4 at 0.02, updated at 0.85, 3 of 4 closed at 0.85. *)
Definition ftrade0 : trade b64 := trade_init BUY 4 (dec 2) utc0 0 (Some (dec 1)) None "t".
Definition ftrade1 : trade b64 := update_from_tick ftrade0 (ftick 85 86).
Lemma ftrade_ex : exists t c, close_from_tick ftrade1 (ftick 85 86) (Some 3) "c" = Ok (t, c) /\ decimal 2 (tr_ov t) /\ decimal 85 (tr_cv t) /\
  Forall2 (fun c k => decimal k (tc_value c)) (tr_closes t) [85%Z] /\ opened_quantities t = 1%Z.
Proof.
  assert (decimal 85 (dec 85)) as D by (apply dec_decimal; discriminate). assert (decimal 2 (dec 2)) as D2 by (apply dec_decimal; discriminate).
  set (t2 := update_from_tick ftrade1 (ftick 85 86)).
  assert (closed ftrade1 = false) as Ec by reflexivity.
  assert (tr_cv t2 = dec 85) as E1 by exact (update_cv ftrade1 (dec 85) Ec).
  assert (tr_ov t2 = dec 2) as E2 by reflexivity. assert (tr_closes t2 = []) as E3 by reflexivity. assert (tr_oq t2 = 4) as E4 by reflexivity.
  do 2 eexists. split; [reflexivity|]. fold t2. clearbody t2. unfold opened_quantities, closed_quantities, close_quantity, set_closes. cbn [tr_ov tr_cv tr_closes tr_oq]. rewrite E1, E2, E3, E4.
  split; [auto|]. split; [auto|]. split; [constructor; [exact D|constructor]|]. unfold opened_quantities, closed_quantities. rewrite E3, E4. reflexivity.
Qed.
Lemma ftrade1_observed : exists l, observed ftrade1 l.
Proof. eexists. eapply obs_tick, obs_created. apply (created_init 4). Qed.
Lemma envelope_b64 : exists (t : trade b64) l, observed t l /\ fltb (tr_max t) (result t) = true.
Proof.
  destruct ftrade1_observed as [l Hl]. eexists. exists (result (update_from_tick ftrade1 (ftick 85 86)) :: l). split; [eapply (obs_close ftrade1 l (ftick 85 86) (Some 3) "c"); [exact Hl|reflexivity]|]. vm_compute. reflexivity.
Qed.
Lemma close_moves_b64 : exists (t t' : trade b64) tk q c, close_from_tick t tk q "c" = Ok (t', c) /\ feqb (result t') (result (update_from_tick t tk)) = false.
Proof. exists ftrade1. eexists. exists (ftick 85 86), (Some 3). eexists. split; [reflexivity|]. vm_compute. reflexivity. Qed.
