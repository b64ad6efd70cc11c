(** Final forms of the indicator properties. *)
From Coq Require Import Lqa.
From Verif Require Export PivotProofs RsiProofs LogProofs.
From Verif Require Import NumQProofs StrategyProofs FramesProofs.
Open Scope Z_scope.

Lemma hist_from {F} `{Num F} (I : indicator F -> Prop) T (fs0 : fset F) i fs : I i -> fs_hist I T (fst (add_indicator fs0 i)) fs -> fs_hist I T fs0 fs.
Proof.
  intros Hi Hh. induction Hh as [|fs j Hh IH Hj|fs e Hh IH|fs fuel tk mo lst fs' r Hh IH E HT].
  - apply hist_indicator; [apply hist_start|auto].
  - now apply hist_indicator.
  - now apply hist_epic.
  - eapply hist_tick; eauto.
Qed.
Lemma valued_from_unique {F} (fs : fset F) ref s s' k : valued_from fs ref s -> valued_from fs ref s' -> (s <= k)%nat -> (k < length (fs_heap fs))%nat -> (s' <= s)%nat.
Proof.
  intros H1 H2 Hs Hk. assert (value_at fs ref s <> None) as Hv by (apply H1; lia). apply H2 in Hv. lia.
Qed.

Section exact.
  Open Scope Q_scope.
  Lemma candle_prices u q ref mx i ha T fs0 (fs : fset Q) k f iv : (1 <= mx)%Z -> in_kind i = KCandle ha ->
    fset_init u q ref mx = Ok fs0 -> fs_hist (only i) T fs0 fs -> fs_heap fs !! k = Some f -> value_at fs (in_ref i) k = Some iv ->
    exists o hi lo la, c_open (fs_heap fs) f iv = Ok o /\ c_high (fs_heap fs) f iv = Ok hi /\ c_low (fs_heap fs) f iv = Ok lo /\ candle_last iv = Ok la /\
      lo <= o /\ lo <= la /\ o <= hi /\ la <= hi.
  Proof.
    intros Hmx Hi E0 Hh Ef Hv. destruct (hist_candle u q ref mx i ha T fs0 fs k f iv Hmx Hi E0 Hh Ef Hv) as (_ & o & hi & lo & la & E1 & E2 & E3 & E4).
    exists o, hi, lo, la. split; [auto|]. split; [auto|]. split; [auto|]. split; [auto|]. exact (hist_candle_order_Q u q ref mx (only i) T fs0 fs k f (in_ref i) iv o hi lo la Hmx E0 Hh Ef Hv E1 E2 E3 E4).
  Qed.
  Lemma candle_geometry u q ref mx (I : indicator Q -> Prop) T fs0 (fs : fset Q) k f r iv o hi lo la : (1 <= mx)%Z ->
    fset_init u q ref mx = Ok fs0 -> fs_hist I T fs0 fs -> fs_heap fs !! k = Some f -> value_at fs r k = Some iv ->
    c_open (fs_heap fs) f iv = Ok o -> c_high (fs_heap fs) f iv = Ok hi -> c_low (fs_heap fs) f iv = Ok lo -> candle_last iv = Ok la ->
    (~ o == 0 -> ~ la == 0 ->
      (exists hd bd tl, candle_head o hi la = Some hd /\ candle_body o la = Some bd /\ candle_tail o lo la = Some tl /\
         0 <= hd /\ 0 <= bd /\ 0 <= tl /\ hd + bd + tl == candle_height hi lo) /\
      (candle_color o la = Some GREEN <-> o < la) /\ (candle_color o la = Some RED <-> la < o) /\ (candle_color o la = Some BLACK <-> o == la)) /\
    (o == 0 \/ la == 0 -> candle_head o hi la = None /\ candle_body o la = None /\ candle_tail o lo la = None /\ candle_color o la = None).
  Proof.
    intros Hmx E0 Hh Ef Hv E1 E2 E3 E4. destruct (hist_candle_order_Q u q ref mx I T fs0 fs k f r iv o hi lo la Hmx E0 Hh Ef Hv E1 E2 E3 E4) as (O1 & O2 & O3 & O4).
    destruct (price_cents _ _ _ _ _ _ _ E1 E2 E3 E4) as (C1 & C2 & C3 & C4). split; [|apply geometry_none]. intros Ho Hl. split; [now apply geometry|]. now apply color_spec.
  Qed.

  Lemma ha_recurrence u q ref mx i T fs0 (fs : fset Q) k f iv : (1 <= mx)%Z -> in_kind i = KCandle true ->
    fset_init u q ref mx = Ok fs0 -> fs_hist (only i) T fs0 fs -> fs_heap fs !! k = Some f -> value_at fs (in_ref i) k = Some iv ->
    exists o la r, c_open (fs_heap fs) f iv = Ok o /\ candle_last iv = Ok la /\ previous_value fs (in_ref i) k r /\
      round_cent ((tk_value (iv_first iv) + tk_value (iv_high iv) + tk_value (iv_low iv) + tk_value (iv_last iv)) / 4) la /\
      match r with
      | None => round_cent (tk_value (iv_first iv)) o
      | Some (j, pv) => exists pf po pl, fs_heap fs !! j = Some pf /\ c_open (fs_heap fs) pf pv = Ok po /\ candle_last pv = Ok pl /\ round_cent ((po + pl) / 2) o
      end.
  Proof.
    intros Hmx Hi E0 Hh Ef Hv. destruct (hist_ha_open u q ref mx i T fs0 fs k f iv Hmx Hi E0 Hh Ef Hv) as (o & Eo & r & Hp & Hr).
    assert (forall j jf jv, fs_heap fs !! j = Some jf -> value_at fs (in_ref i) j = Some jv -> candle_last jv = Ok (ha_last jv)) as Hl.
    { intros j jf jv Ej Ejv. destruct (hist_candle u q ref mx i true T fs0 fs j jf jv Hmx Hi E0 Hh Ej Ejv) as (Ed & _). unfold candle_last. now rewrite Ed. }
    exists o, (ha_last iv), r. split; [auto|]. split; [eauto|]. split; [auto|]. split.
    - unfold ha_last. rewrite qr2. eapply round_cent_proper; [|reflexivity|apply round_cent_Qround2]. rewrite qdiv, !qadd, qofZ. reflexivity.
    - destruct r as [[j pv]|].
      + destruct Hr as (pf & po & E1 & E2 & ->). exists pf, po, (ha_last pv). split; [auto|]. split; [auto|]. split; [destruct Hp as (_ & Hp & _); eauto|].
        rewrite qr2. eapply round_cent_proper; [|reflexivity|apply round_cent_Qround2]. rewrite qdiv, qadd, qofZ. reflexivity.
      + rewrite Hr, qr2. apply round_cent_Qround2.
  Qed.

  (** Registered before the first tick, every frame has a value. *)
  Lemma sma_first u q ref mx i mp T fs0 (fs : fset Q) k f p : (1 <= mx)%Z -> in_kind i = KSMA mp -> in_mopen i = false ->
    fset_init u q ref mx = Ok fs0 -> fs_hist (only i) T (fst (add_indicator fs0 i)) fs -> fs_heap fs !! k = Some f -> (1 <= p <= mp)%Z ->
    exists iv lc, value_at fs (in_ref i) k = Some iv /\ iv_data iv = DSMA lc /\
      ((Z.of_nat (S k) < p)%Z -> sma_value f lc p = Ok None) /\
      ((p <= Z.of_nat (S k))%Z -> exists v, sma_value f lc p = Ok (Some v) /\ round_cent (mean (window (Z.to_nat p) k (closes fs))) v).
  Proof.
    intros Hmx Hi Hmo E0 Hh Ef Hp. pose proof (all_valued u q ref mx i T fs0 fs Hmx Hmo E0 Hh) as Ha. pose proof (lookup_lt_Some _ _ _ Ef) as Hk.
    destruct (value_at fs (in_ref i) k) as [iv|] eqn:Hv; [|exfalso; apply (proj2 (Ha k)); [lia|auto]].
    assert (fs_hist (only i) T fs0 fs) as Hh0 by (eapply hist_from; [intros _; reflexivity|exact Hh]).
    destruct (sma_hist_Q u q ref mx i mp T fs0 fs k f iv p Hmx Hi Hmo E0 Hh0 Ef Hv Hp) as (s & lc & H1 & H2 & H3 & H4).
    assert (s = 0)%nat as -> by (pose proof (valued_from_unique fs _ 0 s k Ha H1 ltac:(lia) Hk); lia). rewrite Nat.sub_0_r in H4. exists iv, lc. split; [auto|]. split; [auto|].
    destruct (Z.ltb_spec (Z.of_nat (S k)) p); split; intros; try lia; auto.
  Qed.
  Lemma rsi_first u q ref mx i p o (fs0 fs : fset Q) k : (2 <= mx)%Z -> (2 <= p * q)%Z -> in_kind i = KRSI p o -> in_mopen i = false ->
    fset_init u q ref mx = Ok fs0 -> fs_hist (only i) no_exn (fst (add_indicator fs0 i)) fs -> (k < length (fs_heap fs))%nat ->
    exists iv lc v, value_at fs (in_ref i) k = Some iv /\ iv_data iv = DRSI (p * q) lc v /\
      ((Z.of_nat k < p * q)%Z -> v = None) /\
      ((p * q <= Z.of_nat k)%Z -> exists x, v = Some x /\ rsi_of (window (S (Z.to_nat (p * q))) k (closes fs)) x /\ 0 <= x <= 100).
  Proof.
    intros Hmx Hn Hi Hmo E0 Hh Hk. pose proof (all_valued u q ref mx i no_exn fs0 fs ltac:(lia) Hmo E0 Hh) as Ha.
    destruct (value_at fs (in_ref i) k) as [iv|] eqn:Hv; [|exfalso; apply (proj2 (Ha k)); [lia|auto]].
    assert (fs_hist (only i) no_exn fs0 fs) as Hh0 by (eapply hist_from; [intros _; reflexivity|exact Hh]).
    destruct (rsi_hist_Q u q ref mx i p o fs0 fs k iv Hmx Hn Hi Hmo E0 Hh0 Hv) as (s & lc & v & H1 & H2 & H3 & H4).
    assert (s = 0)%nat as -> by (pose proof (valued_from_unique fs _ 0 s k Ha H1 ltac:(lia) Hk); lia). exists iv, lc, v. split; [auto|]. split; [auto|].
    destruct (Nat.leb_spec (S k - (0 - 1)) (Z.to_nat (p * q))); split; intros; try lia; auto.
  Qed.
End exact.

(** Registration of an indicator. *)
Lemma rsi_refused {F} `{Num F} pr (w : world F) fid fs i : w_fsets w !! fid = Some fs ->
  (forall p o, in_kind i = KRSI p o ->
    (p * fs_q fs <= fs_max fs -> snd (step pr w (OAddIndicator fid i)) = Ok ()) /\
    (fs_max fs < p * fs_q fs -> snd (step pr w (OAddIndicator fid i)) = Err BaseIndicatorException)) /\
  ((forall p o, in_kind i <> KRSI p o) -> snd (step pr w (OAddIndicator fid i)) = Ok ()).
Proof.
  intros Hf. cbn [step]. rewrite Hf. unfold add_indicator. split.
  - intros p o E. rewrite E. cbn [snd]. destruct (Z.ltb_spec (fs_max fs) (p * fs_q fs)); split; intros; auto; lia.
  - intros E. destruct (in_kind i) as [| | |p o|]; auto. now destruct (E p o).
Qed.
