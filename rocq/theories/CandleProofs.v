(** Candles (C38-C40) and pivots (C43). *)
From Verif Require Export IndicatorRunProofs NumQProofs.
Open Scope Z_scope.

Section order.
  Context {F : Type} `{Num F}.
  (** The laws of the arithmetic the ordering of candles rests on, for the numbers satisfying [P]. *)
  Record ord_laws (P : F -> Prop) : Prop := {
    ol_refl : forall a, P a -> fleb a a = true;
    ol_trans : forall a b c, P a -> P b -> P c -> fleb a b = true -> fleb b c = true -> fleb a c = true;
    ol_total : forall a b, P a -> P b -> fleb a b = false -> fleb b a = true;
    ol_lt : forall a b, P a -> P b -> fltb a b = negb (fleb b a);
    ol_round : forall a, P a -> P (round2 a);
    ol_mean2 : forall a b, P a -> P b -> P (fdiv (fadd a b) (fofZ 2));
    ol_mean4 : forall a b c d, P a -> P b -> P c -> P d -> P (fdiv (fadd (fadd (fadd a b) c) d) (fofZ 4));
    ol_mono : forall a b, P a -> P b -> fleb a b = true -> fleb (round2 a) (round2 b) = true;
    ol_idem : forall a, P a -> fleb (round2 (round2 a)) (round2 a) = true /\ fleb (round2 a) (round2 (round2 a)) = true }.
  Definition P_tick (P : F -> Prop) (t : tick F) : Prop := P (tk_value t).
End order.

Section proofs.
  Context {F : Type} `{Num F}.
  Implicit Types (fs : fset F) (f fr : frame F) (i : indicator F) (iv : ivalue F).

  (** ** Kinds *)
  Definition kind_data (q : Z) i (d : idata F) : Prop :=
    match in_kind i with
    | KCandle ha => d = DCandle ha
    | KPivot o => d = DPivot o
    | KSMA mp => exists lc, d = DSMA lc
    | KRSI p _ => exists lc v, d = DRSI (p * q) lc v
    | KCustom _ tell => exists st, d = DCustom tell st
    end.
  Definition kind_ok (q : Z) i iv : Prop := iv_ref iv = in_ref i /\ iv_mopen iv = in_mopen i /\ kind_data q i (iv_data iv).
  Lemma build_kind h fr q i mo iv : build_value h fr (reg q i) mo = Ok (Some iv) -> kind_ok q i iv.
  Proof.
    unfold build_value. destruct (_ || _); [|discriminate]. destruct (build_data h fr (reg q i)) as [d|x] eqn:Ed; [|discriminate]. cbn [rbind]. intros [= <-].
    unfold kind_ok. cbn [iv_ref iv_mopen iv_data]. unfold build_data, reg in *. unfold kind_data.
    destruct (in_kind i) as [ha|o|mp|p rp|mk tl] eqn:Ek; cbn [in_ref in_mopen in_kind] in *; rewrite ?Ek in Ed.
    - split; [auto|]. split; [auto|]. congruence.
    - split; [auto|]. split; [auto|]. congruence.
    - split; [auto|]. split; [auto|]. destruct (previous _ _ _) as [pv|]; [|discriminate]. cbn [rbind] in Ed. destruct (match pv with Some _ => _ | None => _ end) as [lc|]; [|discriminate].
      cbn [rbind] in Ed. injection Ed as <-. eauto.
    - split; [auto|]. split; [auto|]. destruct (p * q =? 0); [discriminate|]. destruct (previous _ _ _) as [pv|]; [|discriminate]. cbn [rbind] in Ed. destruct (match pv with Some _ => _ | None => _ end) as [lc|]; [|discriminate].
      cbn [rbind] in Ed. destruct (update_rsi _ _ _ _ _) as [v|]; [|discriminate]. cbn [rbind] in Ed. injection Ed as <-. eauto.
    - split; [auto|]. split; [auto|]. destruct (user_code _) as [st|]; [|discriminate]. cbn [rbind] in Ed. injection Ed as <-. eauto.
  Qed.
  Lemma base_tick_kind iv t mo : iv_ref (iv_base_tick iv t mo) = iv_ref iv /\ iv_mopen (iv_base_tick iv t mo) = iv_mopen iv /\ iv_data (iv_base_tick iv t mo) = iv_data iv.
  Proof. unfold iv_base_tick. destruct (_ || _); auto. Qed.
  Lemma tick_kind h fr q i tk mo iv iv' : kind_ok q i iv -> iv_on_new_tick h fr iv tk mo = Ok iv' -> kind_ok q i iv'.
  Proof.
    intros (K1 & K2 & K3) E. unfold iv_on_new_tick in E. destruct (base_tick_kind iv tk mo) as (B1 & B2 & B3). rewrite B3 in E. unfold kind_ok, kind_data in *.
    destruct (iv_data iv) as [ha|o|lc|m lc v|tl st] eqn:Ed; try (injection E as <-; rewrite B1, B2, B3; auto).
    - destruct (update_rsi _ _ _ _ _) as [x|]; [|discriminate]. cbn [rbind] in E. injection E as <-. cbn. split; [congruence|]. split; [congruence|].
    destruct (in_kind i); try discriminate; [now destruct K3 as [? ?]| |now destruct K3 as [? ?]]. destruct K3 as (lc' & v' & [= -> -> ->]). eauto.
    - destruct (user_code _) as [x|]; [|discriminate]. cbn [rbind] in E. injection E as <-. cbn. split; [congruence|]. split; [congruence|].
      destruct (in_kind i); try discriminate; [now destruct K3 as [? ?]|now destruct K3 as (? & ? & ?)|]. destruct K3 as (st' & [= -> ->]). eauto.
  Qed.

  (** One value under the reference of [i] at an elementary step. *)
  Lemma estep_vals mx q fs fs' tk mo i : 1 <= mx -> base mx q fs -> registered q i fs -> estep tk mo fs fs' ->
    fs_inds fs' = fs_inds fs /\
    forall k v, vals (in_ref i) fs' !! k = Some v ->
      vals (in_ref i) fs !! k = Some v \/
      (exists h fr, build_value h fr (reg q i) mo = Ok v) \/
      v = None \/
      (exists h fr iv iv', vals (in_ref i) fs !! k = Some (Some iv) /\ iv_on_new_tick h fr iv tk mo = Ok iv' /\ v = Some iv').
  Proof.
    intros Hmx (W & M & Q1 & O) Hr Hs. assert (1 <= fs_max fs) as Hm by lia.
    assert (forall tk' s e, create_new_frame fs tk' s e mo = (fs', Ok ()) -> forall k v, vals (in_ref i) fs' !! k = Some v ->
      vals (in_ref i) fs !! k = Some v \/ (exists h fr, build_value h fr (reg q i) mo = Ok v) \/ v = None) as Hcr.
    { intros tk' s e E k v Hk. destruct (create_vals _ _ _ _ _ _ (in_ref i) Hm W O E) as (v0 & Ev & Hv). rewrite Ev in Hk.
      destruct (Nat.lt_ge_cases k (length (vals (in_ref i) fs))) as [Hlt|Hge]; [rewrite lookup_app_l in Hk by auto; auto|].
      rewrite lookup_app_r in Hk by auto. apply list_lookup_singleton_Some in Hk as [_ ->]. right. destruct Hr as [Hr|Hr]; rewrite Hr in Hv; [auto|eauto]. }
    destruct Hs as [fs cur s e fs' Ec E|fs s e fs' E|fs fs' rr E].
    - split; [eapply create_inds; eauto|]. intros k v Hk. destruct (Hcr _ _ _ E k v Hk) as [?|[?|?]]; auto.
    - split; [eapply create_inds; eauto|]. intros k v Hk. destruct (Hcr _ _ _ E k v Hk) as [?|[?|?]]; auto.
    - split; [eapply add_inds; eauto|]. intros k v Hk. pose proof (add_vals _ _ _ _ _ (in_ref i) Hm W O E) as Hv.
      destruct (length (fs_heap fs)) as [|n] eqn:En; [subst; auto|]. destruct Hv as (cur & v0 & v' & Ecur & Ev & Evs & Hv). rewrite Evs in Hk.
      assert (vals (in_ref i) fs !! n = Some v0) as Hn by (unfold vals; rewrite list_lookup_fmap, Ecur; simpl; congruence).
      destruct (Nat.lt_ge_cases k n) as [Hlt|Hge].
      { rewrite lookup_app_l in Hk by (rewrite take_length, vals_length; lia). rewrite lookup_take in Hk by auto. auto. }
      rewrite lookup_app_r in Hk by (rewrite take_length, vals_length; lia). apply list_lookup_singleton_Some in Hk as [Hk ->].
      assert (k = n) as -> by (rewrite take_length, vals_length in Hk; lia).
      destruct Hr as [Hr|Hr]; rewrite Hr in Hv; [subst v; auto|]. destruct Hv as [Hv|[-> _]]; [|auto]. unfold step_val in Hv. destruct v0 as [iv|]; [|eauto].
      destruct Hv as (iv' & E1 & ->). right. right. right. eauto 10.
  Qed.
  Lemma hist_kind mx q i (T : tick F -> res unit -> Prop) fs0 fs : 1 <= mx -> base mx q fs0 -> fs_heap fs0 = [] -> registered q i fs0 ->
    fs_hist (only i) T fs0 fs ->
    base mx q fs /\ registered q i fs /\ (forall k iv, vals (in_ref i) fs !! k = Some (Some iv) -> kind_ok q i iv).
  Proof.
    intros Hmx Hb0 H0 Hr0 Hh.
    apply (hist_invariant (only i) T mx q (fun fs => registered q i fs /\ (forall k iv, vals (in_ref i) fs !! k = Some (Some iv) -> kind_ok q i iv)) fs0 fs); auto.
    - split; [auto|]. intros k iv Hk. unfold vals in Hk. rewrite H0 in Hk. discriminate.
    - intros g j Hb [J1 J2] Ho. destruct Hb as (_ & _ & Hq & _). split; [apply registered_ind; auto|]. intros k iv Hk. rewrite add_indicator_vals in Hk. eauto.
    - intros g fs' tk r mo Hb [J1 J2] _ Hs. destruct (estep_vals mx q g fs' tk mo i Hmx Hb J1 Hs) as [E1 E2]. split; [unfold registered; now rewrite E1|].
      intros k iv Hk. destruct (E2 _ _ Hk) as [E|[(h & fr & E)|[E|(h & fr & iv0 & iv' & E & Et & [= ->])]]]; [eauto|eapply build_kind; eauto|discriminate|]. eapply tick_kind; eauto.
  Qed.

  (** ** Order of the ticks of a value *)
  Section laws.
    Context (P : F -> Prop) (L : ord_laws P).
    Notation "a <=? b" := (fleb a b).
    Lemma max_P a b : P a -> P b -> P (fmax a b). Proof. unfold fmax. destruct (fltb a b); auto. Qed.
    Lemma min_P a b : P a -> P b -> P (fmin a b). Proof. unfold fmin. destruct (fltb b a); auto. Qed.
    Lemma max_ge a b : P a -> P b -> a <=? fmax a b = true /\ b <=? fmax a b = true.
    Proof.
      intros Ha Hb. unfold fmax. rewrite (ol_lt P L) by auto. destruct (b <=? a) eqn:E; simpl; [split; [now apply (ol_refl P L)|auto]|].
      split; [now apply (ol_total P L)|now apply (ol_refl P L)].
    Qed.
    Lemma min_le a b : P a -> P b -> fmin a b <=? a = true /\ fmin a b <=? b = true.
    Proof.
      intros Ha Hb. unfold fmin. rewrite (ol_lt P L) by auto. destruct (a <=? b) eqn:E; simpl; [split; [now apply (ol_refl P L)|auto]|].
      split; [now apply (ol_total P L)|now apply (ol_refl P L)].
    Qed.
    Record iv_ord (iv : ivalue F) : Prop := {
      io_f : P (tk_value (iv_first iv)); io_h : P (tk_value (iv_high iv)); io_l : P (tk_value (iv_low iv)); io_t : P (tk_value (iv_last iv));
      io_lf : tk_value (iv_low iv) <=? tk_value (iv_first iv) = true; io_lt : tk_value (iv_low iv) <=? tk_value (iv_last iv) = true;
      io_fh : tk_value (iv_first iv) <=? tk_value (iv_high iv) = true; io_th : tk_value (iv_last iv) <=? tk_value (iv_high iv) = true;
      io_lh : tk_value (iv_low iv) <=? tk_value (iv_high iv) = true }.
    Lemma iv_ord_tick iv t mo : iv_ord iv -> P_tick P t -> iv_ord (iv_base_tick iv t mo).
    Proof.
      intros [Pf Ph Pl Pt O1 O2 O3 O4 O5] Kt. unfold P_tick in Kt. unfold iv_base_tick. destruct (_ || _); [|now split]. rewrite !(ol_lt P L) by auto.
      destruct (tk_value t <=? tk_value (iv_high iv)) eqn:E; cbn [negb].
      - destruct (tk_value (iv_low iv) <=? tk_value t) eqn:E2; cbn [negb]; (split; cbn [iv_first iv_high iv_low iv_last]; auto).
        + pose proof (ol_total P L _ _ Pl Kt E2) as E3. eapply (ol_trans P L _ (tk_value (iv_low iv))); auto.
        + now apply (ol_refl P L).
      - pose proof (ol_total P L _ _ Kt Ph E) as E3. split; cbn [iv_first iv_high iv_low iv_last]; auto; try (now apply (ol_refl P L));
          eapply (ol_trans P L _ (tk_value (iv_high iv))); auto.
    Qed.
    Lemma hist_ord mx q (I : indicator F -> Prop) fs0 fs : 1 <= mx -> base mx q fs0 -> fs_heap fs0 = [] ->
      fs_hist I (fun tk _ => P_tick P tk) fs0 fs -> base mx q fs /\ (forall ref k iv, vals ref fs !! k = Some (Some iv) -> iv_ord iv).
    Proof.
      intros Hmx Hb H0 Hh. destruct (hist_all_vals I (P_tick P) mx q iv_ord fs0 fs) as (B & V & _); auto.
      - intros ref m t d Kt. pose proof (ol_refl P L _ Kt) as R. now split.
      - intros iv t mo. apply iv_ord_tick.
      - intros iv d [? ? ? ? ? ? ? ? ?]. now split.
    Qed.

    (** [o] comes out of a rounding. *)
    Definition rounded (o : F) : Prop := exists x, P x /\ o = round2 x.
    Lemma rounded_P o : rounded o -> P o. Proof. intros (x & Hx & ->). now apply (ol_round P L). Qed.
    Lemma round_ge o x : rounded o -> P x -> o <=? x = true -> o <=? round2 x = true.
    Proof.
      intros (y & Hy & ->) Hx Hle. eapply (ol_trans P L _ (round2 (round2 y))); auto using (ol_round P L).
      - apply (ol_idem P L); auto.
      - apply (ol_mono P L); auto using (ol_round P L).
    Qed.
    Lemma round_le o x : rounded o -> P x -> x <=? o = true -> round2 x <=? o = true.
    Proof.
      intros (y & Hy & ->) Hx Hle. eapply (ol_trans P L _ (round2 (round2 y))); auto using (ol_round P L).
      - apply (ol_mono P L); auto using (ol_round P L).
      - apply (ol_idem P L); auto.
    Qed.

    Definition heap_ord (h : heap F) : Prop := forall ref k f iv, h !! k = Some f -> slot ref f = Some iv -> iv_ord iv.
    Lemma find_previous_slot h ref fuel o j iv : find_previous fuel h ref o = Ok (Some (j, iv)) -> exists f, h !! j = Some f /\ slot ref f = Some iv.
    Proof.
      revert o. induction fuel as [|fuel IH]; intros [p|]; cbn [find_previous]; try discriminate. destruct (h !! p) as [f|] eqn:Ef; [|discriminate].
      destruct (dict_get (fr_inds f) ref) as [[iv'|]|] eqn:Ed; [intros [= -> ->]|apply IH|apply IH]. exists f. split; [auto|]. unfold slot. now rewrite Ed.
    Qed.
    Lemma mean4_P iv : iv_ord iv -> P (fdiv (fadd (fadd (fadd (tk_value (iv_first iv)) (tk_value (iv_high iv))) (tk_value (iv_low iv))) (tk_value (iv_last iv))) (fofZ 4)).
    Proof. intros [? ? ? ? _ _ _ _ _]. now apply (ol_mean4 P L). Qed.
    Lemma last_rounded iv l : iv_ord iv -> candle_last iv = Ok l -> rounded l.
    Proof.
      intros Ho. unfold candle_last. destruct (iv_data iv) as [[]| | | |]; try discriminate; intros [= <-].
      - eexists. split; [exact (mean4_P iv Ho)|reflexivity].
      - destruct Ho. eexists. split; [|reflexivity]. auto.
    Qed.
    Lemma open_rounded h fuel f iv o : heap_ord h -> iv_ord iv -> candle_open fuel h f iv = Ok o -> rounded o.
    Proof.
      intros Hh. revert f iv o. induction fuel as [|fuel IH]; intros f iv o Ho; cbn [candle_open]; destruct (iv_data iv) as [[]| | | |]; try discriminate.
      - intros [= <-]. destruct Ho. eexists. split; [|reflexivity]. auto.
      - destruct (previous h f (iv_ref iv)) as [[[j piv]|]|] eqn:Ep; cbn [rbind]; [| |discriminate].
        + destruct (h !! j) as [pf|] eqn:Epf; [|discriminate]. destruct (candle_open fuel h pf piv) as [po|] eqn:Eo; [|discriminate]. cbn [rbind].
          destruct (candle_last piv) as [pl|] eqn:El; [|discriminate]. cbn [rbind]. intros [= <-].
          destruct (find_previous_slot _ _ _ _ _ _ Ep) as (pf' & Epf' & Hs). assert (pf' = pf) as -> by congruence. pose proof (Hh _ _ _ _ Epf Hs) as Hpo.
          eexists. split; [|reflexivity]. apply (ol_mean2 P L); apply rounded_P; [eapply IH; eauto|eapply last_rounded; eauto].
        + intros [= <-]. destruct Ho. eexists. split; [|reflexivity]. auto.
      - intros [= <-]. destruct Ho. eexists. split; [|reflexivity]. auto.
    Qed.

    (** C38 *)
    Lemma candle_order h f iv o hi lo la : heap_ord h -> iv_ord iv ->
      c_open h f iv = Ok o -> c_high h f iv = Ok hi -> c_low h f iv = Ok lo -> candle_last iv = Ok la ->
      lo <=? o = true /\ lo <=? la = true /\ o <=? hi = true /\ la <=? hi = true.
    Proof.
      intros Hh Ho E1 E2 E3 E4. pose proof (open_rounded _ _ _ _ _ Hh Ho E1) as Ro. pose proof (last_rounded _ _ Ho E4) as Rl.
      pose proof (rounded_P _ Ro) as Po. pose proof (rounded_P _ Rl) as Pl. unfold c_high, c_low, c_open in *. rewrite E1 in *. unfold candle_last in E4. cbn [candle_open] in E1.
      destruct Ho as [Hf Hhi Hlo Ht O1 O2 O3 O4 O5]. destruct (iv_data iv) as [[]| | | |]; try discriminate.
      - injection E4 as El. cbn [rbind] in E2, E3. rewrite El in E2, E3. injection E2 as <-. injection E3 as <-.
        pose proof (max_ge o _ Po Hhi) as [M1 M2]. pose proof (max_P _ _ Po Hhi) as PM. pose proof (max_ge _ la PM Pl) as [M3 M4]. pose proof (max_P _ _ PM Pl) as PMM.
        pose proof (min_le o _ Po Hlo) as [N1 N2]. pose proof (min_P _ _ Po Hlo) as PN. pose proof (min_le _ la PN Pl) as [N3 N4]. pose proof (min_P _ _ PN Pl) as PNN.
        split; [apply round_le; auto; eapply (ol_trans P L); [| | |exact N3|exact N1]; auto|]. split; [now apply round_le|].
        split; [apply round_ge; auto; eapply (ol_trans P L); [| | |exact M1|exact M3]; auto|]. now apply round_ge.
      - injection E4 as <-. injection E2 as <-. injection E3 as <-. injection E1 as <-. unfold jp_low, jp_open, jp_high, jp_last.
        repeat split; apply (ol_mono P L); auto.
    Qed.
    Lemma candle_rounded h f iv o hi lo la : heap_ord h -> iv_ord iv ->
      c_open h f iv = Ok o -> c_high h f iv = Ok hi -> c_low h f iv = Ok lo -> candle_last iv = Ok la ->
      rounded o /\ rounded hi /\ rounded lo /\ rounded la.
    Proof.
      intros Hh Ho E1 E2 E3 E4. pose proof (open_rounded _ _ _ _ _ Hh Ho E1) as Ro. pose proof (last_rounded _ _ Ho E4) as Rl.
      pose proof (rounded_P _ Ro) as Po. pose proof (rounded_P _ Rl) as Pl. unfold c_high, c_low in *. rewrite E1 in *. unfold candle_last in E4.
      destruct Ho as [Hf Hhi Hlo Ht O1 O2 O3 O4 O5]. split; [auto|]. destruct (iv_data iv) as [[]| | | |]; try discriminate.
      - injection E4 as El. cbn [rbind] in E2, E3. rewrite El in E2, E3. injection E2 as <-. injection E3 as <-.
        split; [|split; [|auto]]; (eexists; split; [|reflexivity]); [apply max_P; [apply max_P|]|apply min_P; [apply min_P|]]; auto.
      - injection E2 as <-. injection E3 as <-. split; [|split; [|auto]]; (eexists; split; [|reflexivity]); auto.
    Qed.
    Lemma hist_candle_order u q ref mx (I : indicator F -> Prop) fs0 fs k f r iv o hi lo la :
      1 <= mx -> fset_init u q ref mx = Ok fs0 -> fs_hist I (fun tk _ => P_tick P tk) fs0 fs ->
      fs_heap fs !! k = Some f -> value_at fs r k = Some iv ->
      c_open (fs_heap fs) f iv = Ok o -> c_high (fs_heap fs) f iv = Ok hi -> c_low (fs_heap fs) f iv = Ok lo -> candle_last iv = Ok la ->
      lo <=? o = true /\ lo <=? la = true /\ o <=? hi = true /\ la <=? hi = true.
    Proof.
      intros Hmx E0 Hh Ef Ev. pose proof (fset_init_wf _ _ _ _ _ E0) as (_ & Hn & _). destruct (hist_ord mx q I fs0 fs Hmx (base_init _ _ _ _ _ E0) Hn Hh) as [_ V].
      apply candle_order.
      - intros r' k' f' iv' Ef' Es. apply (V r' k'). unfold vals. rewrite list_lookup_fmap, Ef'. simpl. congruence.
      - apply (V r k). unfold vals. rewrite list_lookup_fmap, Ef. unfold value_at in Ev. rewrite Ef in Ev. simpl. f_equal. exact Ev.
    Qed.
    Lemma hist_candle_rounded u q ref mx (I : indicator F -> Prop) fs0 fs k f r iv o hi lo la :
      1 <= mx -> fset_init u q ref mx = Ok fs0 -> fs_hist I (fun tk _ => P_tick P tk) fs0 fs ->
      fs_heap fs !! k = Some f -> value_at fs r k = Some iv ->
      c_open (fs_heap fs) f iv = Ok o -> c_high (fs_heap fs) f iv = Ok hi -> c_low (fs_heap fs) f iv = Ok lo -> candle_last iv = Ok la ->
      rounded o /\ rounded hi /\ rounded lo /\ rounded la.
    Proof.
      intros Hmx E0 Hh Ef Ev. pose proof (fset_init_wf _ _ _ _ _ E0) as (_ & Hn & _). destruct (hist_ord mx q I fs0 fs Hmx (base_init _ _ _ _ _ E0) Hn Hh) as [_ V].
      apply candle_rounded.
      - intros r' k' f' iv' Ef' Es. apply (V r' k'). unfold vals. rewrite list_lookup_fmap, Ef'. simpl. congruence.
      - apply (V r k). unfold vals. rewrite list_lookup_fmap, Ef. unfold value_at in Ev. rewrite Ef in Ev. simpl. f_equal. exact Ev.
    Qed.
  End laws.

  (** ** Heikin Ashi recurrence (C40) *)
  Definition ha_open_rel fs (ref : string) (k : nat) iv (o : F) : Prop :=
    exists r, previous_value fs ref k r /\
      match r with
      | None => o = round2 (tk_value (iv_first iv))
      | Some (j, piv) => exists pf po, fs_heap fs !! j = Some pf /\ c_open (fs_heap fs) pf piv = Ok po /\
          o = round2 (fdiv (fadd po (ha_last piv)) (fofZ 2))
      end.
  Lemma candle_open_total mx q fs i k f iv : 1 <= mx -> base mx q fs -> in_kind i = KCandle true ->
    (forall k iv, vals (in_ref i) fs !! k = Some (Some iv) -> kind_ok q i iv) ->
    fs_heap fs !! k = Some f -> slot (in_ref i) f = Some iv ->
    exists o, (forall fuel, (k < fuel)%nat -> candle_open fuel (fs_heap fs) f iv = Ok o) /\ ha_open_rel fs (in_ref i) k iv o.
  Proof.
    intros Hmx (W & M & _ & _) Hi Hk. assert (1 <= fs_max fs) as Hm by lia. revert f iv. induction (lt_wf k) as [k _ IH]. intros f iv Ef Es.
    assert (forall k' f' iv', fs_heap fs !! k' = Some f' -> slot (in_ref i) f' = Some iv' -> iv_data iv' = DCandle true /\ iv_ref iv' = in_ref i) as Hd.
    { intros k' f' iv' Ef' Es'. destruct (Hk k' iv') as (K1 & _ & K3); [unfold vals; rewrite list_lookup_fmap, Ef'; simpl; congruence|].
      unfold kind_data in K3. rewrite Hi in K3. auto. }
    destruct (Hd _ _ _ Ef Es) as [Ed Er]. destruct (previous_at fs k f (in_ref i) Hm W Ef) as (r & Ep & Hp).
    destruct r as [[j piv]|].
    - destruct Hp as (P1 & P2 & P3). unfold value_at in P2. destruct (fs_heap fs !! j) as [pf|] eqn:Epf; [|discriminate].
      assert (slot (in_ref i) pf = Some piv) as Eps by exact P2. destruct (IH j ltac:(lia) pf piv Epf Eps) as (po & Hpo & _). destruct (Hd _ _ _ Epf Eps) as [Edp _].
      exists (round2 (fdiv (fadd po (ha_last piv)) (fofZ 2))). split.
      + intros [|fuel] Hfuel; [lia|]. cbn [candle_open]. rewrite Ed, Er, Ep. cbn [rbind]. rewrite Epf, Hpo by lia. cbn [rbind]. unfold candle_last. rewrite Edp. reflexivity.
      + exists (Some (j, piv)). split.
        * split; [auto|]. split; [|auto]. unfold value_at. now rewrite Epf.
        * exists pf, po. split; [auto|]. split; [|auto]. apply Hpo. pose proof (lookup_lt_Some _ _ _ Epf). lia.
    - exists (round2 (tk_value (iv_first iv))). split.
      + intros [|fuel] Hfuel; [lia|]. cbn [candle_open]. rewrite Ed, Er, Ep. reflexivity.
      + exists None. auto.
  Qed.
End proofs.
