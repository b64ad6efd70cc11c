(** Stability of Heikin Ashi candles (C40), candle geometry (C39) and pivots (C43). *)
From Coq Require Import Lqa.
From Verif Require Import StrategyProofs.
From Verif Require Export CandleProofs.
From Verif Require Import FramesProofs.
Open Scope Z_scope.

Section stability.
  Context {F : Type} `{Num F}.
  Implicit Types (fs : fset F) (f fr : frame F) (i : indicator F) (iv : ivalue F).

  (** ** Closed frames keep their values *)
  Lemma estep_closed mx q fs fs' tk mo ref : 1 <= mx -> base mx q fs -> estep tk mo fs fs' ->
    (length (fs_heap fs) <= length (fs_heap fs'))%nat /\
    forall k, (S k < length (fs_heap fs))%nat -> vals ref fs' !! k = vals ref fs !! k.
  Proof.
    intros Hmx (W & M & _ & O) Hs. assert (1 <= fs_max fs) as Hm by lia.
    assert (forall tk' s e, create_new_frame fs tk' s e mo = (fs', Ok ()) -> (length (fs_heap fs) <= length (fs_heap fs'))%nat /\
      forall k, (S k < length (fs_heap fs))%nat -> vals ref fs' !! k = vals ref fs !! k) as Hcr.
    { intros tk' s e E. destruct (create_vals _ _ _ _ _ _ ref Hm W O E) as (v0 & Ev & _). split.
      - rewrite <- !(vals_length ref), Ev, app_length. lia.
      - intros k Hk. rewrite Ev, lookup_app_l; [auto|]. rewrite vals_length. lia. }
    destruct Hs as [fs cur s e fs' Ec E|fs s e fs' E|fs fs' rr E]; eauto.
    pose proof (add_vals _ _ _ _ _ ref Hm W O E) as Hv. destruct (length (fs_heap fs)) as [|n] eqn:En; [subst; split; [lia|auto]|].
    destruct Hv as (cur & v0 & v' & Ecur & Ev & Evs & Hv). split.
    - rewrite <- (vals_length ref), Evs, app_length, take_length, vals_length. simpl. lia.
    - intros k Hk. rewrite Evs, lookup_app_l by (rewrite take_length, vals_length; lia). now rewrite lookup_take by lia.
  Qed.
  Lemma hist_closed mx q (I : indicator F -> Prop) (T : tick F -> res unit -> Prop) fs0 fs ref : 1 <= mx -> base mx q fs0 -> fs_hist I T fs0 fs ->
    base mx q fs /\ (length (fs_heap fs0) <= length (fs_heap fs))%nat /\
    forall k, (S k < length (fs_heap fs0))%nat -> vals ref fs !! k = vals ref fs0 !! k.
  Proof.
    intros Hmx Hb Hh.
    apply (hist_invariant I T mx q (fun fs => (length (fs_heap fs0) <= length (fs_heap fs))%nat /\
      forall k, (S k < length (fs_heap fs0))%nat -> vals ref fs !! k = vals ref fs0 !! k) fs0 fs); auto.
    - intros g j _ [J1 J2] _. rewrite add_indicator_vals. destruct (add_indicator_frames g j) as (-> & _). auto.
    - intros g g' tk r mo Hg [J1 J2] _ Hs. destruct (estep_closed mx q g g' tk mo ref Hmx Hg Hs) as [E1 E2]. split; [lia|].
      intros k Hk. rewrite E2 by lia. auto.
  Qed.
  Lemma vals_value fs fs' ref k : vals ref fs !! k = vals ref fs' !! k -> value_at fs ref k = value_at fs' ref k.
  Proof. intros E. now rewrite !value_at_vals, E. Qed.

  Lemma previous_value_same fs fs' ref k r r' : (length (fs_heap fs) - length (fs_frames fs) = length (fs_heap fs') - length (fs_frames fs'))%nat ->
    (forall j, (j < k)%nat -> value_at fs ref j = value_at fs' ref j) ->
    previous_value fs ref k r -> previous_value fs' ref k r' -> r = r'.
  Proof.
    intros Eo Ev. unfold previous_value. rewrite Eo. destruct r as [[j iv]|], r' as [[j' iv']|].
    - intros (A1 & A2 & A3) (B1 & B2 & B3). destruct (Nat.lt_trichotomy j j') as [Hlt|[->|Hlt]].
      + rewrite <- Ev in B2 by lia. rewrite A3 in B2 by lia. discriminate.
      + rewrite Ev in A2 by lia. congruence.
      + rewrite Ev in A2 by lia. rewrite B3 in A2 by lia. discriminate.
    - intros (A1 & A2 & A3) B. rewrite Ev, B in A2 by lia. discriminate.
    - intros A (B1 & B2 & B3). rewrite <- Ev, A in B2 by lia. discriminate.
    - auto.
  Qed.

  (** The open of a closed Heikin Ashi candle only changes when a frame leaves the memory. *)
  Lemma ha_open_same mx q fs fs' i k f f' iv : 1 <= mx -> base mx q fs -> base mx q fs' -> in_kind i = KCandle true ->
    (forall k iv, vals (in_ref i) fs !! k = Some (Some iv) -> kind_ok q i iv) ->
    (forall k iv, vals (in_ref i) fs' !! k = Some (Some iv) -> kind_ok q i iv) ->
    (length (fs_heap fs) - length (fs_frames fs) = length (fs_heap fs') - length (fs_frames fs'))%nat ->
    (forall j, (j <= k)%nat -> value_at fs (in_ref i) j = value_at fs' (in_ref i) j) ->
    fs_heap fs !! k = Some f -> fs_heap fs' !! k = Some f' -> value_at fs (in_ref i) k = Some iv ->
    c_open (fs_heap fs') f' iv = c_open (fs_heap fs) f iv.
  Proof.
    intros Hmx B B' Hi K K' Eo. revert f f' iv. induction (lt_wf k) as [k _ IH]. intros f f' iv Ev Ef Ef' Hv.
    assert (slot (in_ref i) f = Some iv) as Es by (unfold value_at in Hv; rewrite Ef in Hv; exact Hv).
    assert (slot (in_ref i) f' = Some iv) as Es' by (rewrite (Ev k) in Hv by lia; unfold value_at in Hv; rewrite Ef' in Hv; exact Hv).
    destruct (candle_open_total mx q fs i k f iv Hmx B Hi K Ef Es) as (o & Ho & r & Hr & Hrel).
    destruct (candle_open_total mx q fs' i k f' iv Hmx B' Hi K' Ef' Es') as (o' & Ho' & r' & Hr' & Hrel').
    unfold c_open. rewrite Ho, Ho' by (apply lookup_lt_Some in Ef, Ef'; lia). f_equal.
    assert (r' = r) as -> by (symmetry; eapply (previous_value_same fs fs'); eauto; intros; apply Ev; lia).
    destruct r as [[j piv]|]; [|congruence]. destruct Hrel as (pf & po & P1 & P2 & ->). destruct Hrel' as (pf' & po' & P1' & P2' & ->).
    destruct Hr as (R1 & R2 & _). rewrite (IH j ltac:(lia) pf pf' piv) in P2'; auto; [|intros; apply Ev; lia]. congruence.
  Qed.
  Lemma ha_stable u q ref mx i (T T' : tick F -> res unit -> Prop) fs0 fs fs' k f f' iv : 1 <= mx -> in_kind i = KCandle true ->
    fset_init u q ref mx = Ok fs0 -> fs_hist (only i) T fs0 fs -> fs_hist (only i) T' fs fs' ->
    (length (fs_heap fs) - length (fs_frames fs) = length (fs_heap fs') - length (fs_frames fs'))%nat ->
    (S k < length (fs_heap fs))%nat -> fs_heap fs !! k = Some f -> fs_heap fs' !! k = Some f' -> value_at fs (in_ref i) k = Some iv ->
    value_at fs' (in_ref i) k = Some iv /\ c_open (fs_heap fs') f' iv = c_open (fs_heap fs) f iv.
  Proof.
    intros Hmx Hi E0 Hh Hh' Eo Hk Ef Ef' Hv. pose proof (fset_init_wf _ _ _ _ _ E0) as (_ & Hn & _). pose proof (base_init _ _ _ _ _ E0) as B0.
    assert (registered q i fs0) as R0 by (left; now rewrite (init_inds _ _ _ _ _ E0)).
    destruct (hist_kind mx q i T fs0 fs Hmx B0 Hn R0 Hh) as (B & R & K).
    assert (base mx q fs' /\ registered q i fs' /\ (forall k iv, vals (in_ref i) fs' !! k = Some (Some iv) -> kind_ok q i iv)) as (B' & R' & K').
    { apply (hist_invariant (only i) T' mx q (fun fs => registered q i fs /\ (forall k iv, vals (in_ref i) fs !! k = Some (Some iv) -> kind_ok q i iv)) fs fs'); auto.
      - intros g j Hb [J1 J2] Ho. destruct Hb as (_ & _ & Hq & _). split; [apply registered_ind; auto|]. intros k0 iv0 Hk0. rewrite add_indicator_vals in Hk0. eauto.
      - intros g g' tk r mo Hb [J1 J2] _ Hs. destruct (estep_vals mx q g g' tk mo i Hmx Hb J1 Hs) as [E1 E2]. split; [unfold registered; now rewrite E1|].
        intros k0 iv0 Hk0. destruct (E2 _ _ Hk0) as [E|[(h & fr & E)|[E|(h & fr & iv1 & iv' & E & Et & [= ->])]]]; [eauto|eapply build_kind; eauto|discriminate|]. eapply tick_kind; eauto. }
    destruct (hist_closed mx q (only i) T' fs fs' (in_ref i) Hmx B Hh') as (_ & Hle & Hc).
    assert (forall j, (j <= k)%nat -> value_at fs (in_ref i) j = value_at fs' (in_ref i) j) as Hsame by (intros j Hj; apply vals_value; symmetry; apply Hc; lia).
    split; [now rewrite <- Hsame|]. eapply ha_open_same; eauto.
  Qed.

  (** Candles of a history never raise. *)
  Lemma hist_candle u q ref mx i ha (T : tick F -> res unit -> Prop) fs0 fs k f iv : 1 <= mx -> in_kind i = KCandle ha ->
    fset_init u q ref mx = Ok fs0 -> fs_hist (only i) T fs0 fs -> fs_heap fs !! k = Some f -> value_at fs (in_ref i) k = Some iv ->
    iv_data iv = DCandle ha /\ exists o hi lo la, c_open (fs_heap fs) f iv = Ok o /\ c_high (fs_heap fs) f iv = Ok hi /\ c_low (fs_heap fs) f iv = Ok lo /\ candle_last iv = Ok la.
  Proof.
    intros Hmx Hi E0 Hh Ef Hv. pose proof (fset_init_wf _ _ _ _ _ E0) as (_ & Hn & _). pose proof (base_init _ _ _ _ _ E0) as B0.
    assert (registered q i fs0) as R0 by (left; now rewrite (init_inds _ _ _ _ _ E0)).
    destruct (hist_kind mx q i T fs0 fs Hmx B0 Hn R0 Hh) as (B & R & K).
    assert (slot (in_ref i) f = Some iv) as Es by (unfold value_at in Hv; rewrite Ef in Hv; exact Hv).
    assert (iv_data iv = DCandle ha) as Ed.
    { destruct (K k iv) as (_ & _ & Kd); [unfold vals; rewrite list_lookup_fmap, Ef; simpl; congruence|]. unfold kind_data in Kd. now rewrite Hi in Kd. }
    split; [auto|]. unfold c_high, c_low, candle_last. rewrite Ed. destruct ha.
    - destruct (candle_open_total mx q fs i k f iv Hmx B Hi K Ef Es) as (o & Ho & _). assert (c_open (fs_heap fs) f iv = Ok o) as Eo by (apply Ho; apply lookup_lt_Some in Ef; lia).
      rewrite Eo. cbn [rbind]. eauto 10.
    - unfold c_open. cbn [candle_open]. rewrite Ed. eauto 10.
  Qed.
  Lemma hist_ha_open u q ref mx i (T : tick F -> res unit -> Prop) fs0 fs k f iv : 1 <= mx -> in_kind i = KCandle true ->
    fset_init u q ref mx = Ok fs0 -> fs_hist (only i) T fs0 fs -> fs_heap fs !! k = Some f -> value_at fs (in_ref i) k = Some iv ->
    exists o, c_open (fs_heap fs) f iv = Ok o /\ ha_open_rel fs (in_ref i) k iv o.
  Proof.
    intros Hmx Hi E0 Hh Ef Hv. pose proof (fset_init_wf _ _ _ _ _ E0) as (_ & Hn & _). pose proof (base_init _ _ _ _ _ E0) as B0.
    assert (registered q i fs0) as R0 by (left; now rewrite (init_inds _ _ _ _ _ E0)).
    destruct (hist_kind mx q i T fs0 fs Hmx B0 Hn R0 Hh) as (B & R & K).
    assert (slot (in_ref i) f = Some iv) as Es by (unfold value_at in Hv; rewrite Ef in Hv; exact Hv).
    destruct (candle_open_total mx q fs i k f iv Hmx B Hi K Ef Es) as (o & Ho & Hr). exists o. split; [|auto]. apply Ho. apply lookup_lt_Some in Ef. lia.
  Qed.
  Lemma price_round (h : heap F) f iv o hi lo la : c_open h f iv = Ok o -> c_high h f iv = Ok hi -> c_low h f iv = Ok lo -> candle_last iv = Ok la ->
    (exists x, o = round2 x) /\ (exists x, hi = round2 x) /\ (exists x, lo = round2 x) /\ (exists x, la = round2 x).
  Proof.
    intros E1 E2 E3 E4. split; [|split; [|split]].
    - unfold c_open in E1. cbn [candle_open] in E1. destruct (iv_data iv) as [[]| | | |]; try discriminate; [|injection E1 as <-; unfold jp_open, jp_high, jp_low, jp_last, ha_last; eauto].
      destruct (previous _ _ _) as [[[j piv]|]|]; cbn [rbind] in E1; [|injection E1 as <-; unfold jp_open, jp_high, jp_low, jp_last, ha_last; eauto|discriminate].
      destruct (h !! j); [|discriminate]. destruct (candle_open _ _ _ _); [|discriminate]. cbn [rbind] in E1. destruct (candle_last piv); [|discriminate].
      cbn [rbind] in E1. injection E1 as <-. unfold jp_open, jp_high, jp_low, jp_last, ha_last; eauto.
    - unfold c_high in E2. rewrite E1 in E2. cbn [rbind] in E2. destruct (iv_data iv) as [[]| | | |]; try discriminate; injection E2 as <-; unfold jp_open, jp_high, jp_low, jp_last, ha_last; eauto.
    - unfold c_low in E3. rewrite E1 in E3. cbn [rbind] in E3. destruct (iv_data iv) as [[]| | | |]; try discriminate; injection E3 as <-; unfold jp_open, jp_high, jp_low, jp_last, ha_last; eauto.
    - unfold candle_last in E4. destruct (iv_data iv) as [[]| | | |]; try discriminate; injection E4 as <-; unfold jp_open, jp_high, jp_low, jp_last, ha_last; eauto.
  Qed.

  (** ** Pivots *)
  Lemma pivot_eval_none (h : heap F) f iv : previous h f (iv_ref iv) = Ok None ->
    pivot h f iv = Ok None /\ pivot_levels h f iv None None None None None None.
  Proof.
    intros E. unfold pivot_levels, support1, support2, support3, resistance1, resistance2, resistance3, pivot, pivot_level, pivot_with_prev. rewrite E. cbn. auto 10.
  Qed.
  Lemma pivot_eval (h : heap F) f iv j pv : iv_data iv = DPivot false -> previous h f (iv_ref iv) = Ok (Some (j, pv)) ->
    let hi := tk_value (iv_high pv) in let lo := tk_value (iv_low pv) in
    let p := round2 (fdiv (fadd (fadd hi lo) (tk_value (iv_last pv))) (fofZ 3)) in
    pivot h f iv = Ok (Some p) /\
    (ftruthy p = false -> pivot_levels h f iv None None None None None None) /\
    (ftruthy p = true -> pivot_levels h f iv
       (Some (round2 (fsub lo (fmul (fsub hi p) (fofZ 2))))) (Some (round2 (fsub p (fsub hi lo)))) (Some (round2 (fsub (fmul p (fofZ 2)) hi)))
       (Some (round2 (fsub (fmul p (fofZ 2)) lo))) (Some (round2 (fadd p (fsub hi lo)))) (Some (round2 (fadd hi (fmul (fsub p lo) (fofZ 2)))))).
  Proof.
    intros Ed E. cbn zeta. unfold pivot_levels, support1, support2, support3, resistance1, resistance2, resistance3, pivot, pivot_level, pivot_with_prev. rewrite E, Ed. cbn.
    split; [auto|]. split; intros ->; auto 10.
  Qed.
End stability.

(** ** Over exact arithmetic *)
Section exact.
  Open Scope Q_scope.
  Lemma ord_laws_Q : @ord_laws Q NumQ (fun _ => True).
  Proof.
    split; auto.
    - intros a _. apply qleb. lra.
    - intros a b c _ _ _ H1 H2. apply qleb in H1, H2. apply qleb. lra.
    - intros a b _ _ H1. apply qleb_false in H1. apply qleb. lra.
    - intros a b _ _ H1. apply qleb in H1. apply qleb. now apply Qround2_mono.
    - intros a _. pose proof (Qround2_idem a) as E. change (@round2 Q NumQ) with Qround2. split; apply qleb; rewrite E; apply Qle_refl.
  Qed.
  Lemma cents_value (t : tick Q) : cents (tk_value t).
  Proof. apply Qround2_cents. Qed.
  Lemma hist_weaken (I : indicator Q -> Prop) (T T' : tick Q -> res unit -> Prop) fs0 fs : (forall t r, T t r -> T' t r) -> fs_hist I T fs0 fs -> fs_hist I T' fs0 fs.
  Proof. intros HT Hh. induction Hh; [constructor|now constructor|now constructor|eapply hist_tick; eauto]. Qed.

  (** C39 *)
  Lemma color_spec (o l : Q) :
    (o == 0 \/ l == 0 -> candle_color o l = None) /\
    (~ o == 0 -> ~ l == 0 -> (candle_color o l = Some GREEN <-> o < l) /\ (candle_color o l = Some RED <-> l < o) /\ (candle_color o l = Some BLACK <-> o == l)).
  Proof.
    unfold candle_color. split.
    - intros [E|E]; apply qtruthy_false in E; rewrite E; simpl; [auto|]. now rewrite orb_true_r.
    - intros Ho Hl. apply qtruthy in Ho, Hl. rewrite Ho, Hl. simpl negb. cbn [orb]. destruct (fltb o l) eqn:E; [|destruct (fltb l o) eqn:E'].
      + apply qltb in E. repeat split; auto; try discriminate; intros; exfalso; lra.
      + apply qltb in E'. apply qltb_false in E. repeat split; auto; try discriminate; intros; exfalso; lra.
      + apply qltb_false in E, E'. repeat split; auto; try discriminate; intros; try (exfalso; lra). lra.
  Qed.
  Lemma geometry (o hi lo l : Q) : cents o -> cents hi -> cents lo -> cents l -> lo <= o -> lo <= l -> o <= hi -> l <= hi -> ~ o == 0 -> ~ l == 0 ->
    exists hd bd tl, candle_head o hi l = Some hd /\ candle_body o l = Some bd /\ candle_tail o lo l = Some tl /\
      0 <= hd /\ 0 <= bd /\ 0 <= tl /\ hd + bd + tl == candle_height hi lo.
  Proof.
    intros Co Chi Clo Cl H1 H2 H3 H4 Ho Hl. unfold candle_head, candle_body, candle_tail, candle_height. apply qtruthy in Ho, Hl. rewrite Ho, Hl. simpl negb. cbn [orb].
    do 3 eexists. split; [reflexivity|]. split; [reflexivity|]. split; [reflexivity|].
    destruct (qmax_spec o l) as (M1 & M2 & M3). destruct (qmin_spec o l) as (N1 & N2 & N3).
    assert (cents (@fmax Q NumQ o l)) as CM by (destruct M3 as [->| ->]; auto). assert (cents (@fmin Q NumQ o l)) as CN by (destruct N3 as [->| ->]; auto).
    rewrite !qr2, qsub. rewrite qabs. rewrite !qsub.
    rewrite (Qround2_fix (hi - _)) by now apply cents_sub. rewrite (Qround2_fix (_ - lo)) by now apply cents_sub.
    assert (cents (Qabs (o - l))) as CA by (apply Qabs_case; intros _; [now apply cents_sub|apply cents_opp; now apply cents_sub]).
    rewrite (Qround2_fix (Qabs _)) by exact CA.
    assert (fmax o l - fmin o l == Qabs (o - l) /\ fmax o l <= hi /\ lo <= fmin o l) as (E1 & E2 & E3).
    { clear -M1 M2 M3 N1 N2 N3 H1 H2 H3 H4. apply Qabs_case; intros Hs; destruct M3 as [M3|M3], N3 as [N3|N3]; rewrite M3, N3 in *; split; lra. }
    pose proof (Qabs_nonneg (o - l)). split; [lra|]. split; [auto|]. split; [lra|]. lra.
  Qed.
  Lemma geometry_none (o hi lo l : Q) : o == 0 \/ l == 0 -> candle_head o hi l = None /\ candle_body o l = None /\ candle_tail o lo l = None /\ candle_color o l = None.
  Proof.
    unfold candle_head, candle_body, candle_tail, candle_color. intros [E|E]; apply qtruthy_false in E; rewrite E; simpl; auto. rewrite orb_true_r. auto.
  Qed.
  Lemma price_cents (h : heap Q) f iv o hi lo la : c_open h f iv = Ok o -> c_high h f iv = Ok hi -> c_low h f iv = Ok lo -> candle_last iv = Ok la ->
    cents o /\ cents hi /\ cents lo /\ cents la.
  Proof.
    intros E1 E2 E3 E4. destruct (price_round h f iv o hi lo la E1 E2 E3 E4) as ([? ->] & [? ->] & [? ->] & [? ->]). split; [apply Qround2_cents|]. split; [apply Qround2_cents|]. split; apply Qround2_cents.
  Qed.
  Lemma hist_candle_order_Q u q ref mx (I : indicator Q -> Prop) T fs0 (fs : fset Q) k f r iv o hi lo la :
    (1 <= mx)%Z -> fset_init u q ref mx = Ok fs0 -> fs_hist I T fs0 fs ->
    fs_heap fs !! k = Some f -> value_at fs r k = Some iv ->
    c_open (fs_heap fs) f iv = Ok o -> c_high (fs_heap fs) f iv = Ok hi -> c_low (fs_heap fs) f iv = Ok lo -> candle_last iv = Ok la ->
    lo <= o /\ lo <= la /\ o <= hi /\ la <= hi.
  Proof.
    intros Hmx E0 Hh Ef Ev E1 E2 E3 E4.
    destruct (hist_candle_order (fun _ : Q => True) ord_laws_Q u q ref mx I fs0 fs k f r iv o hi lo la) as (A & B & C & D); auto.
    - eapply hist_weaken; [|exact Hh]. intros; exact Logic.I.
    - apply qleb in A, B, C, D. auto.
  Qed.

  (** C43 *)
  Lemma pivot_order (h l c : Q) : cents h -> cents l -> cents c -> l <= c -> c <= h ->
    let p := @round2 Q NumQ (fdiv (fadd (fadd h l) c) (fofZ 3)) in
    round_cent ((h + l + c) / 3) p /\ l <= p <= h /\ cents p.
  Proof.
    intros Ch Cl Cc H1 H2 p. assert (fdiv (fadd (fadd h l) c) (fofZ 3) == (h + l + c) / 3) as E by (rewrite qdiv, !qadd, qofZ; reflexivity).
    split; [|split; [split|apply Qround2_cents]].
    - eapply round_cent_proper; [exact E|reflexivity|]. apply round_cent_Qround2.
    - unfold p. rewrite qr2. apply Qround2_ge; [auto|]. rewrite E. apply Qle_shift_div_l; lra.
    - unfold p. rewrite qr2. apply Qround2_le; [auto|]. rewrite E. apply Qle_shift_div_r; lra.
  Qed.
  Lemma r2_cents x y : x == y -> cents y -> @round2 Q NumQ x == y.
  Proof. intros E C. rewrite qr2, E. now apply Qround2_fix. Qed.
  Lemma levels_order (p h l : Q) : cents p -> cents h -> cents l -> l <= p -> p <= h ->
    let s1 := @round2 Q NumQ (fsub (fmul p (fofZ 2)) h) in let s2 := @round2 Q NumQ (fsub p (fsub h l)) in
    let s3 := @round2 Q NumQ (fsub l (fmul (fsub h p) (fofZ 2))) in let r1 := @round2 Q NumQ (fsub (fmul p (fofZ 2)) l) in
    let r2 := @round2 Q NumQ (fadd p (fsub h l)) in let r3 := @round2 Q NumQ (fadd h (fmul (fsub p l) (fofZ 2))) in
    s1 == 2 * p - h /\ s2 == p - (h - l) /\ s3 == l - 2 * (h - p) /\ r1 == 2 * p - l /\ r2 == p + (h - l) /\ r3 == h + 2 * (p - l) /\
    s3 <= s2 /\ s2 <= s1 /\ s1 <= p /\ p <= r1 /\ r1 <= r2 /\ r2 <= r3.
  Proof.
    intros Hp4 Ch Cl Hp2 Hp3. cbn zeta.
    assert (@round2 Q NumQ (fsub (fmul p (fofZ 2)) h) == 2 * p - h) as S1.
    { apply r2_cents; [rewrite qsub, qmul, qofZ; change (inject_Z 2) with 2; ring|]. apply cents_sub; [|auto]. destruct Hp4 as [z Hz]. exists (2 * z)%Z. rewrite Hz. unfold Qeq. simpl. lia. }
    assert (@round2 Q NumQ (fsub (fmul p (fofZ 2)) l) == 2 * p - l) as R1.
    { apply r2_cents; [rewrite qsub, qmul, qofZ; change (inject_Z 2) with 2; ring|]. apply cents_sub; [|auto]. destruct Hp4 as [z Hz]. exists (2 * z)%Z. rewrite Hz. unfold Qeq. simpl. lia. }
    assert (@round2 Q NumQ (fsub p (fsub h l)) == p - (h - l)) as S2.
    { apply r2_cents; [rewrite !qsub; ring|]. apply cents_sub; [auto|now apply cents_sub]. }
    assert (@round2 Q NumQ (fadd p (fsub h l)) == p + (h - l)) as R2.
    { apply r2_cents; [rewrite qadd, qsub; ring|]. apply cents_add; [auto|now apply cents_sub]. }
    assert (@round2 Q NumQ (fsub l (fmul (fsub h p) (fofZ 2))) == l - 2 * (h - p)) as S3.
    { apply r2_cents; [rewrite !qsub, qmul, qofZ; change (inject_Z 2) with 2; ring|]. apply cents_sub; [auto|]. destruct (cents_sub _ _ Ch Hp4) as [z Hz]. exists (2 * z)%Z. rewrite Hz. unfold Qeq. simpl. lia. }
    assert (@round2 Q NumQ (fadd h (fmul (fsub p l) (fofZ 2))) == h + 2 * (p - l)) as R3.
    { apply r2_cents; [rewrite qadd, qmul, !qsub, qofZ; change (inject_Z 2) with 2; ring|]. apply cents_add; [auto|]. destruct (cents_sub _ _ Hp4 Cl) as [z Hz]. exists (2 * z)%Z. rewrite Hz. unfold Qeq. simpl. lia. }
    do 6 (split; [assumption|]). rewrite S1, S2, S3, R1, R2, R3. repeat split; lra.
  Qed.
  Lemma hist_pivot u q ref mx i T fs0 (fs : fset Q) k f iv : (1 <= mx)%Z -> in_kind i = KPivot false ->
    fset_init u q ref mx = Ok fs0 -> fs_hist (only i) T fs0 fs -> fs_heap fs !! k = Some f -> value_at fs (in_ref i) k = Some iv ->
    exists r, previous_value fs (in_ref i) k r /\
      match r with
      | None => pivot (fs_heap fs) f iv = Ok None /\ pivot_levels (fs_heap fs) f iv None None None None None None
      | Some (j, pv) =>
          let h := tk_value (iv_high pv) in let l := tk_value (iv_low pv) in let c := tk_value (iv_last pv) in
          exists p, pivot (fs_heap fs) f iv = Ok (Some p) /\ round_cent ((h + l + c) / 3) p /\
            (p == 0 -> pivot_levels (fs_heap fs) f iv None None None None None None) /\
            (~ p == 0 -> exists s3 s2 s1 r1 r2 r3, pivot_levels (fs_heap fs) f iv (Some s3) (Some s2) (Some s1) (Some r1) (Some r2) (Some r3) /\
               s1 == 2 * p - h /\ s2 == p - (h - l) /\ s3 == l - 2 * (h - p) /\ r1 == 2 * p - l /\ r2 == p + (h - l) /\ r3 == h + 2 * (p - l) /\
               s3 <= s2 /\ s2 <= s1 /\ s1 <= p /\ p <= r1 /\ r1 <= r2 /\ r2 <= r3)
      end.
  Proof.
    intros Hmx Hi E0 Hh Ef Hv. pose proof (fset_init_wf _ _ _ _ _ E0) as (_ & Hn & _). pose proof (base_init _ _ _ _ _ E0) as B0.
    assert (registered q i fs0) as R0 by (left; now rewrite (init_inds _ _ _ _ _ E0)).
    destruct (hist_kind mx q i T fs0 fs Hmx B0 Hn R0 Hh) as (B & R & K). pose proof B as (W & M & _).
    destruct (hist_ord (fun _ : Q => True) ord_laws_Q mx q (only i) fs0 fs Hmx B0 Hn) as [_ V]; [eapply hist_weaken; [|exact Hh]; intros; exact Logic.I|].
    assert (vals (in_ref i) fs !! k = Some (Some iv)) as Ek.
    { unfold value_at in Hv. rewrite Ef in Hv. unfold vals. rewrite list_lookup_fmap, Ef. simpl. f_equal. exact Hv. }
    destruct (K k iv Ek) as (K1 & _ & K3). unfold kind_data in K3. rewrite Hi in K3.
    destruct (previous_at fs k f (in_ref i) ltac:(lia) W Ef) as (r & Ep & Hp). exists r. split; [auto|].
    rewrite <- K1 in Ep. destruct r as [[j pv]|]; [|now apply pivot_eval_none].
    pose proof (pivot_eval _ _ _ _ _ K3 Ep) as Hev. cbn zeta in Hev |- *.
    destruct Hp as (P1 & P2 & P3). rewrite value_at_vals in P2. destruct (vals (in_ref i) fs !! j) as [v|] eqn:Ej; [|discriminate]. subst v.
    destruct (V _ _ _ Ej) as [_ _ _ _ _ O2 _ O4 _]. apply qleb in O2, O4.
    pose proof (pivot_order (tk_value (iv_high pv)) (tk_value (iv_low pv)) (tk_value (iv_last pv)) (cents_value _) (cents_value _) (cents_value _) O2 O4) as Hpo.
    cbn zeta in Hpo. pose proof (cents_value (iv_high pv)) as Ch. pose proof (cents_value (iv_low pv)) as Cl. revert Hev Hpo Ch Cl.
    generalize (@round2 Q NumQ (fdiv (fadd (fadd (tk_value (iv_high pv)) (tk_value (iv_low pv))) (tk_value (iv_last pv))) (fofZ 3))).
    generalize (@tk_value Q NumQ (iv_high pv)) (@tk_value Q NumQ (iv_low pv)). intros h l p (V1 & V2 & V3) (Hp1 & [Hp2 Hp3] & Hp4) Ch Cl.
    exists p. split; [exact V1|]. split; [exact Hp1|]. split; [intros Ez; apply V2; now apply qtruthy_false|]. intros Ez. apply qtruthy in Ez. specialize (V3 Ez).
    destruct (levels_order p h l Hp4 Ch Cl Hp2 Hp3) as (A1 & A2 & A3 & A4 & A5 & A6 & A). do 6 eexists. split; [exact V3|]. auto 10.
  Qed.
End exact.
