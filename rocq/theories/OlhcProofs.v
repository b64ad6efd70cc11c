(** OLHC pivots (C43). *)
From Coq Require Import Lqa.
From Verif Require Import StrategyProofs.
From Verif Require Export PivotProofs.
From Verif Require Import FramesProofs.
Open Scope Q_scope.

Lemma olhc_eval {F} `{Num F} (h : heap F) f iv j pv : iv_data iv = DPivot true -> previous h f (iv_ref iv) = Ok (Some (j, pv)) ->
  let hi := tk_value (iv_high pv) in let lo := tk_value (iv_low pv) in
  let p := round2 (fdiv (fadd (fadd (fadd hi lo) (tk_value (iv_last pv))) (tk_value (iv_first iv))) (fofZ 4)) in
  pivot h f iv = Ok (Some p) /\
  (ftruthy p = false -> pivot_levels h f iv None None None None None None) /\
  (ftruthy p = true -> pivot_levels h f iv
     (Some (round2 (fsub lo (fmul (fsub hi p) (fofZ 2))))) (Some (round2 (fsub p (fsub hi lo)))) (Some (round2 (fsub (fmul p (fofZ 2)) hi)))
     (Some (round2 (fsub (fmul p (fofZ 2)) lo))) (Some (round2 (fadd p (fsub hi lo)))) (Some (round2 (fadd hi (fmul (fsub p lo) (fofZ 2)))))).
Proof.
  intros Ed E. cbn zeta. unfold pivot_levels, support1, support2, support3, resistance1, resistance2, resistance3, pivot, pivot_level, pivot_with_prev. rewrite E, Ed. cbn.
  split; [auto|]. split; intros ->; auto 10.
Qed.

Lemma levels_exact (p h l : Q) : cents p -> cents h -> cents l ->
  let s1 := @round2 Q NumQ (fsub (fmul p (fofZ 2)) h) in let s2 := @round2 Q NumQ (fsub p (fsub h l)) in
  let s3 := @round2 Q NumQ (fsub l (fmul (fsub h p) (fofZ 2))) in let r1 := @round2 Q NumQ (fsub (fmul p (fofZ 2)) l) in
  let r2 := @round2 Q NumQ (fadd p (fsub h l)) in let r3 := @round2 Q NumQ (fadd h (fmul (fsub p l) (fofZ 2))) in
  s1 == 2 * p - h /\ s2 == p - (h - l) /\ s3 == l - 2 * (h - p) /\ r1 == 2 * p - l /\ r2 == p + (h - l) /\ r3 == h + 2 * (p - l) /\
  (s3 <= s2 /\ s2 <= s1 /\ s1 <= p /\ p <= r1 /\ r1 <= r2 /\ r2 <= r3 <-> l <= p <= h).
Proof.
  intros Hp4 Ch Cl. cbn zeta.
  assert (@round2 Q NumQ (fsub (fmul p (fofZ 2)) h) == 2 * p - h) as S1.
  { apply r2_cents; [rewrite qsub, qmul, qofZ; change (inject_Z 2) with 2; ring|]. apply cents_sub; [|auto]. destruct Hp4 as [z Hz]. exists (2 * z)%Z. rewrite Hz. unfold Qeq. simpl. lia. }
  assert (@round2 Q NumQ (fsub (fmul p (fofZ 2)) l) == 2 * p - l) as R1.
  { apply r2_cents; [rewrite qsub, qmul, qofZ; change (inject_Z 2) with 2; ring|]. apply cents_sub; [|auto]. destruct Hp4 as [z Hz]. exists (2 * z)%Z. rewrite Hz. unfold Qeq. simpl. lia. }
  assert (@round2 Q NumQ (fsub p (fsub h l)) == p - (h - l)) as S2.
  { apply r2_cents; [rewrite !qsub; ring|]. apply cents_sub; [auto|now apply cents_sub]. }
  assert (@round2 Q NumQ (fadd p (fsub h l)) == p + (h - l)) as R2.
  { apply r2_cents; [rewrite qadd, qsub; ring|]. apply cents_add; [auto|now apply cents_sub]. }
  assert (@round2 Q NumQ (fsub l (fmul (fsub h p) (fofZ 2))) == l - 2 * (h - p)) as S3.
  { apply r2_cents; [rewrite !qsub, qmul, qofZ; change (inject_Z 2) with 2; ring|]. apply cents_sub; [auto|]. destruct (cents_sub _ _ Ch Hp4) as [z Hz]. exists (2 * z)%Z. rewrite Hz. unfold Qeq. simpl. lia. }
  assert (@round2 Q NumQ (fadd h (fmul (fsub p l) (fofZ 2))) == h + 2 * (p - l)) as R3.
  { apply r2_cents; [rewrite qadd, qmul, !qsub, qofZ; change (inject_Z 2) with 2; ring|]. apply cents_add; [auto|]. destruct (cents_sub _ _ Hp4 Cl) as [z Hz]. exists (2 * z)%Z. rewrite Hz. unfold Qeq. simpl. lia. }
  do 6 (split; [assumption|]). rewrite S1, S2, S3, R1, R2, R3. split; [intros (? & ? & ? & ? & ? & ?); split; lra|intros [? ?]; repeat split; lra].
Qed.

Lemma olhc_pivot (h l c o : Q) : cents h -> cents l -> l <= c -> c <= h ->
  let p := @round2 Q NumQ (fdiv (fadd (fadd (fadd h l) c) o) (fofZ 4)) in
  round_cent ((h + l + c + o) / 4) p /\ cents p /\ (l <= o <= h -> l <= p <= h).
Proof.
  intros Ch Cl H1 H2 p. assert (fdiv (fadd (fadd (fadd h l) c) o) (fofZ 4) == (h + l + c + o) / 4) as E by (rewrite qdiv, !qadd, qofZ; reflexivity).
  split; [|split; [apply Qround2_cents|intros [H3 H4]; split]].
  - eapply round_cent_proper; [exact E|reflexivity|]. apply round_cent_Qround2.
  - unfold p. rewrite qr2. apply Qround2_ge; [auto|]. rewrite E. apply Qle_shift_div_l; lra.
  - unfold p. rewrite qr2. apply Qround2_le; [auto|]. rewrite E. apply Qle_shift_div_r; lra.
Qed.

Lemma hist_olhc u q ref mx i T fs0 (fs : fset Q) k f iv : (1 <= mx)%Z -> in_kind i = KPivot true ->
  fset_init u q ref mx = Ok fs0 -> fs_hist (only i) T fs0 fs -> fs_heap fs !! k = Some f -> value_at fs (in_ref i) k = Some iv ->
  exists r, previous_value fs (in_ref i) k r /\
    match r with
    | None => pivot (fs_heap fs) f iv = Ok None /\ pivot_levels (fs_heap fs) f iv None None None None None None
    | Some (j, pv) =>
        let h := tk_value (iv_high pv) in let l := tk_value (iv_low pv) in let c := tk_value (iv_last pv) in let o := tk_value (iv_first iv) in
        exists p, pivot (fs_heap fs) f iv = Ok (Some p) /\ round_cent ((h + l + c + o) / 4) p /\
          (p == 0 -> pivot_levels (fs_heap fs) f iv None None None None None None) /\
          (~ p == 0 -> exists s3 s2 s1 r1 r2 r3, pivot_levels (fs_heap fs) f iv (Some s3) (Some s2) (Some s1) (Some r1) (Some r2) (Some r3) /\
             s1 == 2 * p - h /\ s2 == p - (h - l) /\ s3 == l - 2 * (h - p) /\ r1 == 2 * p - l /\ r2 == p + (h - l) /\ r3 == h + 2 * (p - l) /\
             (s3 <= s2 /\ s2 <= s1 /\ s1 <= p /\ p <= r1 /\ r1 <= r2 /\ r2 <= r3 <-> l <= p <= h)) /\
          (l <= o <= h -> l <= p <= h)
    end.
Proof.
  intros Hmx Hi E0 Hh Ef Hv. pose proof (fset_init_wf _ _ _ _ _ E0) as (_ & Hn & _). pose proof (base_init _ _ _ _ _ E0) as B0.
  assert (registered q i fs0) as R0 by (left; now rewrite (init_inds _ _ _ _ _ E0)).
  destruct (hist_kind mx q i T fs0 fs Hmx B0 Hn R0 Hh) as (B & R & K). pose proof B as (W & M & _).
  destruct (hist_ord (fun _ : Q => True) ord_laws_Q mx q (only i) fs0 fs Hmx B0 Hn) as [_ V]; [eapply hist_weaken; [|exact Hh]; intros; exact Logic.I|].
  assert (vals (in_ref i) fs !! k = Some (Some iv)) as Ek.
  { unfold value_at in Hv. rewrite Ef in Hv. unfold vals. rewrite list_lookup_fmap, Ef. simpl. f_equal. exact Hv. }
  destruct (K k iv Ek) as (K1 & _ & K3). unfold kind_data in K3. rewrite Hi in K3.
  destruct (previous_at fs k f (in_ref i) ltac:(lia) W Ef) as (r & Ep & Hp). exists r. split; [auto|].
  rewrite <- K1 in Ep. destruct r as [[j pv]|]; [|now apply pivot_eval_none].
  pose proof (olhc_eval _ _ _ _ _ K3 Ep) as Hev. cbn zeta in Hev |- *.
  destruct Hp as (P1 & P2 & P3). rewrite value_at_vals in P2. destruct (vals (in_ref i) fs !! j) as [v|] eqn:Ej; [|discriminate]. subst v.
  destruct (V _ _ _ Ej) as [_ _ _ _ _ O2 _ O4 _]. apply qleb in O2, O4.
  pose proof (cents_value (iv_high pv)) as Ch. pose proof (cents_value (iv_low pv)) as Cl. revert Hev Ch Cl O2 O4.
  generalize (@tk_value Q NumQ (iv_high pv)) (@tk_value Q NumQ (iv_low pv)) (@tk_value Q NumQ (iv_last pv)) (@tk_value Q NumQ (iv_first iv)).
  intros h l c o Hev Ch Cl O2 O4. pose proof (olhc_pivot h l c o Ch Cl O2 O4) as Hpo. cbn zeta in Hpo. revert Hev Hpo.
  generalize (@round2 Q NumQ (fdiv (fadd (fadd (fadd h l) c) o) (fofZ 4))). intros p (V1 & V2 & V3) (Hp1 & Hp2 & Hp3).
  exists p. split; [exact V1|]. split; [exact Hp1|]. split; [intros Ez; apply V2; now apply qtruthy_false|]. split; [|exact Hp3]. intros Ez. apply qtruthy in Ez. specialize (V3 Ez).
  destruct (levels_exact p h l Hp2 Ch Cl) as (A1 & A2 & A3 & A4 & A5 & A6 & A). do 6 eexists. split; [exact V3|]. auto 10.
Qed.
