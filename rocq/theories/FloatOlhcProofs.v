(** OLHC pivots on Python floats (C43). *)
From Coq Require Import Reals.
From Flocq Require Import Core BinarySingleNaN Relative.
From Verif Require Export FloatAverageProofs OlhcProofs.
From Verif Require Import SpecTrade.
From Coq Require Import Lra Psatz.
Open Scope R_scope.

Lemma olhc_b64 u q ref mx i (T : tick b64 -> res unit -> Prop) fs0 (fs : fset b64) k f iv : (1 <= mx)%Z -> in_kind i = KPivot true -> (forall t r, T t r -> quotes_within 27 t) ->
  fset_init u q ref mx = Ok fs0 -> fs_hist (only i) T fs0 fs -> fs_heap fs !! k = Some f -> value_at fs (in_ref i) k = Some iv ->
  exists r, previous_value fs (in_ref i) k r /\
    match r with
    | None => pivot (fs_heap fs) f iv = Ok None /\ pivot_levels (fs_heap fs) f iv None None None None None None
    | Some (j, pv) => exists ch cl cc co m p,
        decimal ch (tk_value (iv_high pv)) /\ decimal cl (tk_value (iv_low pv)) /\ decimal cc (tk_value (iv_last pv)) /\ decimal co (tk_value (iv_first iv)) /\ (cl <= cc <= ch)%Z /\
        pivot (fs_heap fs) f iv = Ok (Some p) /\ decimal m p /\ (Z.abs (4 * m - (ch + cl + cc + co)) <= 2)%Z /\
        if (m =? 0)%Z then pivot_levels (fs_heap fs) f iv None None None None None None
        else exists s3 s2 s1 r1 r2 r3, pivot_levels (fs_heap fs) f iv (Some s3) (Some s2) (Some s1) (Some r1) (Some r2) (Some r3) /\
          decimal (cl - 2 * (ch - m)) s3 /\ decimal (m - (ch - cl)) s2 /\ decimal (2 * m - ch) s1 /\
          decimal (2 * m - cl) r1 /\ decimal (m + (ch - cl)) r2 /\ decimal (ch + 2 * (m - cl)) r3 /\
          ((cl <= co <= ch)%Z ->
             real s3 <= real s2 /\ real s2 <= real s1 /\ real s1 <= real p /\ real p <= real r1 /\ real r1 <= real r2 /\ real r2 <= real r3)
    end.
Proof.
  intros Hmx Hi HT E0 Hh Ef Hv. pose proof (fset_init_wf _ _ _ _ _ E0) as (_ & Hn & _). pose proof (base_init _ _ _ _ _ E0) as B0.
  assert (registered q i fs0) as R0 by (left; now rewrite (init_inds _ _ _ _ _ E0)).
  destruct (hist_kind mx q i T fs0 fs Hmx B0 Hn R0 Hh) as (B & R & K). pose proof B as (W & M & _).
  assert (fs_hist (only i) (fun tk _ => P_tick (within 28) tk) fs0 fs) as Hh'. { apply (hist_tick_weaken _ T); [|auto]. intros t r Ht. apply HT in Ht. change 28%Z with (27 + 1)%Z. apply value_within; auto. lia. }
  assert (fs_hist (only i) (fun tk _ => quotes_within 27 tk) fs0 fs) as Hh2 by (apply (hist_tick_weaken _ T); [intros t r H; eauto|auto]).
  destruct (hist_ord (within 28) (ord_laws_b64 28 ltac:(lia)) mx q (only i) fs0 fs Hmx B0 Hn Hh') as [_ V].
  destruct (hist_all_vals (only i) (quotes_within 27) mx q (quoted 27) fs0 fs) as (_ & Q1 & _); auto; [intros; now split|intros; now apply quoted_tick|].
  assert (vals (in_ref i) fs !! k = Some (Some iv)) as Ek.
  { unfold value_at in Hv. rewrite Ef in Hv. unfold vals. rewrite list_lookup_fmap, Ef. simpl. f_equal. exact Hv. }
  destruct (K k iv Ek) as (K1 & _ & K3). unfold kind_data in K3. rewrite Hi in K3.
  destruct (previous_at fs k f (in_ref i) ltac:(lia) W Ef) as (r & Ep & Hp). exists r. split; [auto|].
  rewrite <- K1 in Ep. destruct r as [[j pv]|]; [|now apply pivot_eval_none].
  pose proof (olhc_eval _ _ _ _ _ K3 Ep) as Hev. cbn zeta in Hev.
  destruct Hp as (P1 & P2 & P3). rewrite value_at_vals in P2. destruct (vals (in_ref i) fs !! j) as [v|] eqn:Ej; [|discriminate]. subst v.
  destruct (V _ _ _ Ej) as [_ _ _ _ _ O2 _ O4 _]. destruct (Q1 _ _ _ Ej) as (_ & Qh & Ql & Qc). destruct (Q1 _ _ _ Ek) as (Qo & _).
  destruct (value_cents 27 _ ltac:(lia) Qh) as (ch & Dh & Bh), (value_cents 27 _ ltac:(lia) Ql) as (cl & Dl & Bl), (value_cents 27 _ ltac:(lia) Qc) as (cc & Dc & Bc), (value_cents 27 _ ltac:(lia) Qo) as (co & Do & Bo).
  change (27 + 1)%Z with 28%Z in *. revert Hev Dh Dl Dc Do O2 O4.
  generalize (@tk_value b64 NumB64 (iv_high pv)) (@tk_value b64 NumB64 (iv_low pv)) (@tk_value b64 NumB64 (iv_last pv)) (@tk_value b64 NumB64 (iv_first iv)). intros h l c o Hev Dh Dl Dc Do O2 O4.
  assert (forall z, (Z.abs z <= 100 * 2 ^ 28)%Z -> Rabs (IZR z / 100) <= bpow radix2 32) as B32.
  { intros z Hz. eapply Rle_trans; [apply abs_cents; lia|apply bpow_le; lia]. }
  assert (forall a b x y, (Z.abs a <= 100 * 2 ^ 28)%Z -> (Z.abs b <= 100 * 2 ^ 28)%Z -> decimal a x -> decimal b y -> fleb x y = true -> (a <= b)%Z) as Hle.
  { intros a b x y Ba Bb Ha Hb H. apply fle_fin in H; [|apply Ha|apply Hb]. destruct (Z_lt_le_dec b a) as [C|C]; [|auto]. apply (decimal_lt _ _ _ _ Hb Ha (B32 _ Bb) (B32 _ Ba)) in C. lra. }
  assert (cl <= cc)%Z as L1 by exact (Hle _ _ _ _ Bl Bc Dl Dc O2). assert (cc <= ch)%Z as L2 by exact (Hle _ _ _ _ Bc Bh Dc Dh O4).
  set (p := round2 (fdiv (fadd (fadd (fadd h l) c) o) (fofZ 4))) in *.
  assert (exists m, decimal m p /\ (2 * Z.abs (m * 4 - (ch + cl + cc + co)) <= 4)%Z) as (m & Dm & Nm).
  { pose proof (near_decimal ch h ltac:(lia) Dh) as [Fh Nh].
    destruct (sum_decimal [l; c; o] [cl; cc; co] h ch 1) as [Fs Bs];
      [constructor; [auto|constructor; [auto|constructor; [auto|constructor]]]|cbn [length]; lia|cbn [map total]; lia|auto|change (INR 1) with 1; lra|].
    cbn [fold_left total length Nat.add] in Fs, Bs. replace (ch + (cl + (cc + (co + 0))))%Z with (ch + cl + cc + co)%Z in Bs by lia.
    apply (mean_decimal 4 (ch + cl + cc + co) _ (/ 2 ^ 21)); [lia|lia|auto|lra|]. eapply Rle_trans; [exact Bs|]. right. f_equal. cbn. lra. }
  exists ch, cl, cc, co, m, p. do 4 (split; [assumption|]). split; [lia|]. destruct Hev as (E1 & E2 & E3). split; [exact E1|]. split; [auto|]. split; [lia|].
  assert (Z.abs m <= 100 * 2 ^ 28)%Z as Bm by lia.
  pose proof (truthy_decimal _ _ Dm (B32 _ Bm)) as Ht. destruct (m =? 0)%Z; [apply E2; now rewrite Ht|]. specialize (E3 Ht).
  do 6 eexists. split; [exact E3|]. destruct (levels_b64 m ch cl p h l Bm Bh Bl Dm Dh Dl) as (A1 & A2 & A3 & A4 & A5 & A6).
  do 6 (split; [assumption|]). intros Hin. assert (cl <= m <= ch)%Z as Lm by lia.
  split; [eapply decimal_le; [exact A1|exact A2|lia]|]. split; [eapply decimal_le; [exact A2|exact A3|lia]|]. split; [eapply decimal_le; [exact A3|exact Dm|lia]|].
  split; [eapply decimal_le; [exact Dm|exact A4|lia]|]. split; [eapply decimal_le; [exact A4|exact A5|lia]|eapply decimal_le; [exact A5|exact A6|lia]].
Qed.
