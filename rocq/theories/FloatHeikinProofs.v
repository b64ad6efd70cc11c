(** Heikin Ashi candles on Python floats (C40). *)
From Coq Require Import Reals.
From Flocq Require Import Core BinarySingleNaN Relative.
From Verif Require Export FloatAverageProofs.
From Verif Require Import SpecTrade.
From Coq Require Import Lra Psatz.
Open Scope R_scope.

Lemma rounded_cents e o : (0 <= e <= 31)%Z -> rounded (within e) o -> exists k, decimal k o /\ (Z.abs k <= 100 * 2 ^ e)%Z.
Proof.
  intros He (x & [Fx Bx] & ->). exists (cent (real x)). split; [now apply decimal_round2|]. rewrite bpow_IZR in Bx by lia. apply Rabs_le_inv in Bx.
  assert (- (100 * 2 ^ e) <= cent (real x) <= 100 * 2 ^ e)%Z; [|lia]. apply cent_range. rewrite opp_IZR, mult_IZR. lra.
Qed.
Lemma Ok_inv {A} (x y : A) : Ok x = Ok y -> x = y. Proof. now intros [= ->]. Qed.
Lemma round_decimal k x : (Z.abs k <= 100 * 2 ^ 30)%Z -> decimal k x -> decimal k (round2 x).
Proof. intros Hk Hd. apply near_round. eapply near_weaken; [|apply near_decimal; [exact Hk|exact Hd]]. lra. Qed.

Lemma heikin_b64 u q ref mx i (T : tick b64 -> res unit -> Prop) fs0 (fs : fset b64) k f iv : (1 <= mx)%Z -> in_kind i = KCandle true -> (forall t r, T t r -> quotes_within 27 t) ->
  fset_init u q ref mx = Ok fs0 -> fs_hist (only i) T fs0 fs -> fs_heap fs !! k = Some f -> value_at fs (in_ref i) k = Some iv ->
  exists o la r cf ch cl cc co ca, c_open (fs_heap fs) f iv = Ok o /\ candle_last iv = Ok la /\ previous_value fs (in_ref i) k r /\
    decimal cf (tk_value (iv_first iv)) /\ decimal ch (tk_value (iv_high iv)) /\ decimal cl (tk_value (iv_low iv)) /\ decimal cc (tk_value (iv_last iv)) /\
    decimal co o /\ decimal ca la /\ (Z.abs (4 * ca - (cf + ch + cl + cc)) <= 2)%Z /\
    match r with
    | None => co = cf
    | Some (j, pv) => exists pf po pl cpo cpl, fs_heap fs !! j = Some pf /\ c_open (fs_heap fs) pf pv = Ok po /\ candle_last pv = Ok pl /\
        decimal cpo po /\ decimal cpl pl /\ (Z.abs (2 * co - (cpo + cpl)) <= 1)%Z
    end.
Proof.
  intros Hmx Hi HT E0 Hh Ef Hv.
  destruct (hist_ha_open u q ref mx i T fs0 fs k f iv Hmx Hi E0 Hh Ef Hv) as (o & Eo & r & Hp & Hr).
  assert (forall j jf jv, fs_heap fs !! j = Some jf -> value_at fs (in_ref i) j = Some jv -> candle_last jv = Ok (ha_last jv)) as Hl.
  { intros j jf jv Ej Ejv. destruct (hist_candle u q ref mx i true T fs0 fs j jf jv Hmx Hi E0 Hh Ej Ejv) as (Ed & _). unfold candle_last. now rewrite Ed. }
  pose proof (fset_init_wf _ _ _ _ _ E0) as (_ & Hn & _). pose proof (base_init _ _ _ _ _ E0) as B0.
  assert (fs_hist (only i) (fun tk _ => quotes_within 27 tk) fs0 fs) as Hh2 by (apply (hist_tick_weaken _ T); [intros t r' H; eauto|auto]).
  destruct (hist_all_vals (only i) (quotes_within 27) mx q (quoted 27) fs0 fs) as (_ & Q1 & _); auto; [intros; now split|intros; now apply quoted_tick|].
  assert (vals (in_ref i) fs !! k = Some (Some iv)) as Ek.
  { unfold value_at in Hv. rewrite Ef in Hv. unfold vals. rewrite list_lookup_fmap, Ef. simpl. f_equal. exact Hv. }
  destruct (Q1 _ _ _ Ek) as (Qf & Qh & Ql & Qc).
  destruct (value_cents 27 _ ltac:(lia) Qf) as (cf & Df & Bf), (value_cents 27 _ ltac:(lia) Qh) as (ch & Dh & Bh), (value_cents 27 _ ltac:(lia) Ql) as (cl & Dl & Bl), (value_cents 27 _ ltac:(lia) Qc) as (cc & Dc & Bc).
  change (27 + 1)%Z with 28%Z in *.
  assert (forall j jf jv, fs_heap fs !! j = Some jf -> value_at fs (in_ref i) j = Some jv -> exists po cpo cpl, c_open (fs_heap fs) jf jv = Ok po /\ decimal cpo po /\ decimal cpl (ha_last jv) /\ (Z.abs cpo <= 100 * 2 ^ 28)%Z /\ (Z.abs cpl <= 100 * 2 ^ 28)%Z) as Hall.
  { intros j jf jv Ej Ejv. destruct (candle_prices_b64 27 u q ref mx i true T fs0 fs j jf jv ltac:(lia) Hmx Hi HT E0 Hh Ej Ejv) as (po & hi & lo & la & C1 & _ & _ & C4 & (R1 & _ & _ & R4) & _).
    rewrite (Hl j jf jv Ej Ejv) in C4. apply Ok_inv in C4. subst la. change (27 + 1)%Z with 28%Z in *.
    destruct (rounded_cents 28 _ ltac:(lia) R1) as (cpo & D1 & B1), (rounded_cents 28 _ ltac:(lia) R4) as (cpl & D4 & B4). exists po, cpo, cpl. auto. }
  assert (exists m, decimal m (ha_last iv) /\ (2 * Z.abs (m * 4 - (cf + ch + cl + cc)) <= 4)%Z) as (ca & Da & Na).
  { unfold ha_last. revert Df Dh Dl Dc. generalize (@tk_value b64 NumB64 (iv_first iv)) (@tk_value b64 NumB64 (iv_high iv)) (@tk_value b64 NumB64 (iv_low iv)) (@tk_value b64 NumB64 (iv_last iv)).
    intros xf xh xl xc Df Dh Dl Dc. pose proof (near_decimal cf xf ltac:(lia) Df) as [Ff Nf].
    destruct (sum_decimal [xh; xl; xc] [ch; cl; cc] xf cf 1) as [Fs Bs];
      [constructor; [auto|constructor; [auto|constructor; [auto|constructor]]]|cbn [length]; lia|cbn [map total]; lia|auto|change (INR 1) with 1; lra|].
    cbn [fold_left total length Nat.add] in Fs, Bs. replace (cf + (ch + (cl + (cc + 0))))%Z with (cf + ch + cl + cc)%Z in Bs by lia.
    apply (mean_decimal 4 (cf + ch + cl + cc) _ (/ 2 ^ 21)); [lia|lia|auto|lra|]. eapply Rle_trans; [exact Bs|]. right. f_equal. cbn. lra. }
  destruct r as [[j pv]|].
  - destruct Hr as (pf & po & E1 & E2 & Eor). destruct Hp as (P1 & P2 & P3). destruct (Hall _ _ _ E1 P2) as (po' & cpo & cpl & E3 & D1 & D2 & B1 & B2). rewrite E2 in E3. apply Ok_inv in E3. subst po'.
    assert (exists m, decimal m o /\ (2 * Z.abs (m * 2 - (cpo + cpl)) <= 2)%Z) as (co & Do & No).
    { rewrite Eor. pose proof (near_decimal cpo po ltac:(lia) D1) as Np. pose proof (near_decimal cpl (ha_last pv) ltac:(lia) D2) as Nl.
      assert (near (/ 2 ^ 22 + / 2 ^ 22 + / 2 ^ 21) (cpo + cpl) (fadd po (ha_last pv))) as [Fs Ns] by (apply near_add; [lia|lia|lra|lra|auto|auto]).
      apply (mean_decimal 2 (cpo + cpl) _ (/ 2 ^ 21)); [lia|lia|auto|lra|lra]. }
    exists o, (ha_last iv), (Some (j, pv)), cf, ch, cl, cc, co, ca. split; [auto|]. split; [eauto|]. split; [split; auto|]. do 6 (split; [assumption|]). split; [lia|].
    exists pf, po, (ha_last pv), cpo, cpl. do 2 (split; [assumption|]). split; [eauto|]. split; [auto|]. split; [auto|lia].
  - exists o, (ha_last iv), None, cf, ch, cl, cc, cf, ca. split; [auto|]. split; [eauto|]. split; [auto|]. do 4 (split; [assumption|]). split; [rewrite Hr; apply round_decimal; [lia|auto]|]. split; [auto|]. split; [lia|reflexivity].
Qed.
