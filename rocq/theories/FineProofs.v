(** Frame sets with built-in indicators raise nothing (C71). *)
From Coq Require Import QArith Lqa.
From Verif Require Import SpecFine SimProofs ChartFreeProofs EpicMoreProofs EpicFinalProofs LedgerProofs DateTextProofs RsiProofs FramesProofs FrameMoreProofs.
Open Scope Z_scope.

(** ** Dates *)
Lemma year_bounds w y : w_year w = y -> month_first (12 * y) * US_DAY <= w < month_first (12 * (y + 1)) * US_DAY.
Proof.
  intros <-. unfold w_year, w_ymd. destruct (civil_from_days (w_days w)) as [[y m] d] eqn:E.
  pose proof (civil_month _ _ _ _ E) as Hc. cbv zeta in Hc. destruct Hc as (H1 & H2 & H3 & H4).
  pose proof (w_split w) as (Hw & Hh & Hm & Hs & Hmi). us.
  assert (month_first (12 * y) <= month_first (12 * y + (m - 1))) as L1.
  { destruct (Z.eq_dec m 1) as [->|]; [now replace (12 * y + (1 - 1)) with (12 * y) by lia|]. pose proof (month_first_mono (12 * y) (12 * y + (m - 1)) ltac:(lia)). lia. }
  assert (month_first (12 * y + (m - 1) + 1) <= month_first (12 * (y + 1))) as L2.
  { destruct (Z.eq_dec m 12) as [->|]; [now replace (12 * (y + 1)) with (12 * y + (12 - 1) + 1) by lia|]. pose proof (month_first_mono (12 * y + (m - 1) + 1) (12 * (y + 1)) ltac:(lia)). lia. }
  nia.
Qed.
Lemma year_mono a b : a <= b -> w_year a <= w_year b.
Proof.
  intros Hab. pose proof (year_bounds a _ eq_refl) as Ha. pose proof (year_bounds b _ eq_refl) as Hb. us.
  assert (12 * w_year a < 12 * (w_year b + 1)); [|lia]. apply month_first_inj_lt. nia.
Qed.
Lemma year_ge_1 w : WALL_MIN <= w -> 1 <= w_year w.
Proof. intros Hw. change 1 with (w_year WALL_MIN). now apply year_mono. Qed.
Lemma year_range w : 1 <= w_year w <= 9999 -> WALL_MIN <= w <= WALL_MAX.
Proof.
  intros Hy. pose proof (year_bounds w _ eq_refl) as Hb. rewrite wall_min_month. pose proof wall_max_month as Hm. us.
  assert (month_first 12 <= month_first (12 * w_year w)) by (destruct (Z.eq_dec (w_year w) 1) as [->|]; [reflexivity|pose proof (month_first_mono 12 (12 * w_year w) ltac:(lia)); lia]).
  assert (month_first (12 * (w_year w + 1)) <= month_first 120000) by (destruct (Z.eq_dec (w_year w) 9999) as [->|]; [reflexivity|pose proof (month_first_mono (12 * (w_year w + 1)) 120000 ltac:(lia)); lia]).
  nia.
Qed.
Lemma shift_room N u q w : 1 <= N -> good u q -> (u = YEAR -> q <= N) -> 1 <= w_year w <= 9999 - N -> exists w', w_shift u q w = Ok w' /\ WALL_MIN <= w'.
Proof.
  intros HN Hg Hy Hw. pose proof Hg as (Hu & Hq & Hok). pose proof (year_range w ltac:(lia)) as [Hr _]. pose proof (year_bounds w _ eq_refl) as [_ Hb].
  assert (month_first (12 * (w_year w + 1)) <= month_first 119988) as Hf by (destruct (Z.eq_dec (w_year w) 9998) as [->|]; [reflexivity|pose proof (month_first_mono (12 * (w_year w + 1)) 119988 ltac:(lia)); lia]).
  assert (month_first 120000 = month_first 119988 + 365) as H365 by reflexivity. pose proof wall_max_month as Hm. us.
  assert (forall x, 0 < x <= 7 * US_DAY -> exists w', w_add w x = Ok w' /\ WALL_MIN <= w') as Hadd.
  { intros x Hx. unfold w_add. assert (in_range (w + x) = true) as -> by (apply in_range_spec; nia). eexists. split; [reflexivity|]. lia. }
  assert (forall k, 0 < k -> k <= 12 * N \/ k <= 12 -> exists w', w_add_months w k = Ok w' /\ WALL_MIN <= w') as Hmon.
  { intros k Hk Hle. destruct (w_add_months w k) as [w'|] eqn:E.
    - exists w'. split; [auto|]. pose proof (w_add_months_fwd w k w' Hk E). lia.
    - exfalso. revert E. unfold w_add_months. unfold w_year in Hw. pose proof (month_range w) as Hmr. unfold w_month in Hmr. destruct (w_ymd w) as [[y m] d]. cbn in Hw, Hmr. cbv zeta.
      assert (1 <= (y * 12 + (m - 1) + k) / 12 <= 9999) as Hd; [split; [apply Z.div_le_lower_bound; lia|apply Z.lt_succ_r, Z.div_lt_upper_bound; lia]|].
      destruct (Z.leb_spec 1 ((y * 12 + (m - 1) + k) / 12)); [|lia]. destruct (Z.leb_spec ((y * 12 + (m - 1) + k) / 12) 9999); [|lia]. discriminate. }
  destruct u; cbn [w_shift unit_ok] in *; try congruence.
  - apply Hadd. apply Z.divide_pos_le in Hok; lia.
  - apply Hadd. apply Z.divide_pos_le in Hok; lia.
  - apply Hadd. apply Z.divide_pos_le in Hok; lia.
  - apply Hadd. apply Z.divide_pos_le in Hok; lia.
  - apply Hadd. lia.
  - apply Hmon; [lia|]. right. apply Z.divide_pos_le in Hok; lia.
  - specialize (Hy eq_refl). apply Hmon; lia.
Qed.
Lemma end_room N u q s : 1 <= N -> good u q -> (u = YEAR -> q <= N) -> resolves_forward (ar_tz s) -> 1 <= w_year (ar_wall s) <= 9999 - N ->
  exists e, get_frame_end u q s = Ok e /\ ar_tz e = ar_tz s /\ WALL_MIN <= ar_wall e.
Proof.
  intros HN Hg Hy Hz Hw. destruct (shift_room N u q (ar_wall s) HN Hg Hy Hw) as (w' & E & Hm). specialize (Hz w').
  exists (arrow_of_wall (ar_tz s) (tz_resolve (ar_tz s) w')). split; [|split; [reflexivity|simpl; lia]].
  pose proof Hg as (Hu & _). unfold get_frame_end, arrow_shift. rewrite E. destruct u; [congruence|reflexivity..].
Qed.

Section fine.
  Context {F : Type} `{Num F}.
  Implicit Types fs : fset F.
  Implicit Types f : frame F.
  Implicit Types h : heap F.
  Implicit Types i : indicator F.
  Implicit Types w : world F.
  Variable K : string -> chart_class.
  Variables (T : tick F -> Prop) (C : F -> Prop) (L : Z -> Prop).
  Variable HC : forall a b, T a -> T b -> C (fsub (tk_value a) (tk_value b)).
  Definition rsi_total : Prop := forall l, L (Z.of_nat (length l)) -> Forall C l -> exists v, build_rsi (Z.of_nat (length l)) l = Ok v.
  Variable HK : (forall r, K r <> Strength) \/ rsi_total.

  Definition data_class (d : idata F) : option chart_class :=
    match d with DCandle _ => Some Candles | DPivot _ => Some Pivots | DSMA _ => Some Averages | DRSI _ _ _ => Some Strength | DCustom _ _ => None end.
  Definition ind_fine (x : string * indicator F) : Prop := in_ref x.2 = x.1 /\ class_of (in_kind x.2) = Some (K x.1) /\
    match in_kind x.2 with KRSI _ rp => exists n, rp = Some n /\ n <> 0 /\ L n | _ => True end.
  Definition data_fine (r : string) (d : idata F) : Prop := data_class d = Some (K r) /\ match d with DRSI n lc _ => L n /\ Forall C lc | _ => True end.
  Definition frame_fine f : Prop := T (fr_last f) /\ forall r iv, dict_get (fr_inds f) r = Some (Some iv) -> data_fine r (iv_data iv).

  Lemma extended_ok h f lc : prev_ok h (fr_prev f) -> Forall frame_fine h -> T (fr_last f) -> Forall C lc -> exists l, extended_changes h f lc = Ok l /\ Forall C l.
  Proof.
    intros Hp Hh Hf Hl. unfold extended_changes. destruct (fr_prev f) as [p|]; [|eauto]. simpl in Hp. destruct (lookup_lt_is_Some_2 h p Hp) as [g Hg]. rewrite Hg. eexists. split; [reflexivity|].
    apply Forall_app. split; [exact Hl|]. apply Forall_singleton. rewrite Forall_lookup in Hh. apply HC; [exact Hf|]. exact (proj1 (Hh _ _ Hg)).
  Qed.
  Lemma update_ok h f n lc old : rsi_total -> prev_ok h (fr_prev f) -> Forall frame_fine h -> T (fr_last f) -> L n -> Forall C lc -> exists v, update_rsi h f n lc old = Ok v.
  Proof.
    intros Ht Hp Hh Hf Hn Hlc. unfold update_rsi. destruct (extended_ok h f lc Hp Hh Hf Hlc) as (l & -> & Hl). simpl. destruct (Z.eqb_spec (Z.of_nat (length l)) n) as [<-|]; [|eauto].
    destruct (Ht l Hn Hl) as [v ->]. simpl. eauto.
  Qed.
  Lemma slice_fine (lc : list F) n : Forall C lc -> Forall C (py_slice_from lc n).
  Proof. intros Hl. unfold py_slice_from. destruct (_ <? _); now apply Forall_drop. Qed.
  Lemma previous_fine h l f ref : linked h l -> prev_ok h (fr_prev f) -> Forall frame_fine h ->
    exists r, previous h f ref = Ok r /\ match r with Some (pid, iv) => exists pf, h !! pid = Some pf /\ prev_ok h (fr_prev pf) /\ frame_fine pf /\ data_fine ref (iv_data iv) | None => True end.
  Proof.
    intros Hl Hp Hf. destruct (find_previous_ok h l ref (S (length h)) (fr_prev f) Hl) as (r & E & Hr); [destruct (fr_prev f); simpl in *; [lia|auto]|].
    exists r. split; [exact E|]. destruct r as [[pid iv]|]; [|auto]. destruct Hr as (pf & Hpf & Hd). exists pf. split; [auto|]. split.
    - pose proof (linked_prev _ _ _ _ Hl Hpf) as Hq. pose proof (lookup_lt_Some _ _ _ Hpf). destruct (fr_prev pf); simpl; [lia|auto].
    - rewrite Forall_lookup in Hf. pose proof (Hf _ _ Hpf) as Hg. split; [exact Hg|]. exact (proj2 Hg _ _ Hd).
  Qed.
  Lemma build_fine h l f i mo : linked h l -> prev_ok h (fr_prev f) -> Forall frame_fine h -> T (fr_last f) -> ind_fine (in_ref i, i) ->
    exists v, build_value h f i mo = Ok v /\ forall iv, v = Some iv -> data_fine (in_ref i) (iv_data iv).
  Proof.
    intros Hl Hp Hf Hlast (_ & Hc & Hn). cbn [fst snd] in *. unfold build_value. destruct (_ || _); [|exists None; split; [auto|discriminate]].
    enough (exists d, build_data h f i = Ok d /\ data_fine (in_ref i) d) as (d & -> & Hd).
    { simpl. eexists. split; [reflexivity|]. intros iv [= <-]. exact Hd. }
    unfold build_data, data_fine. destruct (in_kind i) as [ha|ol|mp|p rp|mk tl]; simpl in Hc; [eauto..| | |discriminate].
    - destruct (previous_fine h l f (in_ref i) Hl Hp Hf) as (r & -> & Hr). simpl. destruct r as [[pid piv]|]; [|simpl; eauto].
      destruct Hr as (pf & Hpf & _ & _ & Hd & _). rewrite <- Hc in Hd. destruct (iv_data piv); try discriminate. rewrite Hpf. simpl. eauto.
    - destruct Hn as (n & -> & Hn & HL). destruct (Z.eqb_spec n 0) as [|_]; [congruence|].
      assert (rsi_total) as Ht by (destruct HK as [Hk|Ht]; [exfalso; apply (Hk (in_ref i)); congruence|exact Ht]).
      destruct (previous_fine h l f (in_ref i) Hl Hp Hf) as (r & -> & Hr). simpl.
      assert (forall lc, Forall C lc -> exists d, (let lc' := py_slice_from lc ((n - 1) * -1) in let! v := update_rsi h f n lc' None in Ok (DRSI n lc' v)) = Ok d /\ data_fine (in_ref i) d) as Hgo.
      { intros lc Hlc. cbv zeta. apply (slice_fine _ ((n - 1) * -1)) in Hlc. destruct (update_ok h f n (py_slice_from lc ((n - 1) * -1)) None Ht Hp Hf Hlast HL Hlc) as [v ->]. simpl. eexists. split; [reflexivity|]. split; [exact Hc|]. auto. }
      destruct r as [[pid piv]|]; [|simpl; apply Hgo; constructor]. destruct Hr as (pf & Hpf & Hpp & Hpl & Hd & Hd'). rewrite <- Hc in Hd. destruct (iv_data piv) as [| | |n' plc ov|]; try discriminate.
      rewrite Hpf. destruct (extended_ok h pf plc Hpp Hf (proj1 Hpl) (proj2 Hd')) as (lc & -> & Hlc). simpl. now apply Hgo.
  Qed.
  Lemma upsert_fine h l f tk mo inds : linked h l -> prev_ok h (fr_prev f) -> Forall frame_fine h -> Forall ind_fine inds -> frame_fine f ->
    exists f', upsert h f tk mo inds = (f', Ok ()) /\ frame_fine f'.
  Proof.
    intros Hl Hp Hh Hi. revert f Hp. induction Hi as [|[ref i] inds Hi _ IH]; intros f Hp Hf; [simpl; eauto|].
    assert (forall r d, (forall iv, d = Some iv -> data_fine r (iv_data iv)) -> frame_fine (fr_set_inds f (dict_set (fr_inds f) r d))) as Hset.
    { intros r d Hd. split; [exact (proj1 Hf)|]. intros r' iv. simpl. rewrite dict_get_set. destruct (String.eqb_spec r r') as [<-|]; [intros [= ->]; auto|apply (proj2 Hf)]. }
    pose proof Hi as (Er & Hc & _). cbn [fst snd] in Er, Hc. subst ref.
    assert (exists f', (match build_value h f i mo with
            | Ok v => upsert h (fr_set_inds f (dict_set (fr_inds f) (in_ref i) v)) tk mo inds
            | Err e => (f, Err e) end) = (f', Ok ()) /\ frame_fine f') as Hb.
    { destruct (build_fine h l f i mo Hl Hp Hh (proj1 Hf) Hi) as (v & -> & Hv). apply IH; [exact Hp|]. now apply Hset. }
    simpl. destruct (dict_get (fr_inds f) (in_ref i)) as [[iv|]|] eqn:Ed; auto.
    assert (exists iv', iv_on_new_tick h f iv tk mo = Ok iv' /\ data_fine (in_ref i) (iv_data iv')) as (iv' & -> & Hv).
    { pose proof (proj2 Hf _ _ Ed) as Hd. unfold iv_on_new_tick. assert (iv_data (iv_base_tick iv tk mo) = iv_data iv) as -> by (unfold iv_base_tick; now destruct (_ || _)).
      assert (data_fine (in_ref i) (iv_data (iv_base_tick iv tk mo))) as Hd' by (unfold iv_base_tick; destruct (_ || _); exact Hd).
      destruct (iv_data iv) as [| | |n lc old|]; eauto; [|destruct Hd; discriminate]. destruct Hd as (Hd1 & Hd2 & Hd3). cbn in Hd1.
      assert (rsi_total) as Ht by (destruct HK as [Hk|Ht]; [exfalso; apply (Hk (in_ref i)); congruence|exact Ht]).
      destruct (update_ok h f n lc old Ht Hp Hh (proj1 Hf) Hd2 Hd3) as [v ->]. simpl. eexists. split; [reflexivity|]. split; [exact Hd1|exact (conj Hd2 Hd3)]. }
    apply IH; [exact Hp|]. apply Hset. intros iv0 [= <-]. exact Hv.
  Qed.

  (** ** A frame set *)
  Variables (z : tzinfo) (N : Z).
  Variable Hz : resolves_forward z.
  Variable HN : 1 <= N.
  Definition end_fine (b : bar (F:=F)) : Prop := exists e, b_end b = Some e /\ ar_tz e = z /\ WALL_MIN <= ar_wall e.
  Record fset_fine fs : Prop := {
    ff_wf : wf fs; ff_max : 1 <= fs_max fs; ff_q : 1 <= fs_q fs; ff_ok : unit_ok (fs_unit fs) (fs_q fs); ff_year : fs_unit fs = YEAR -> fs_q fs <= N;
    ff_ends : fs_unit fs <> TICK -> Forall end_fine (bars fs);
    ff_inds : Forall ind_fine (fs_inds fs); ff_heap : Forall frame_fine (fs_heap fs) }.

  Lemma alter_fine h j (g : frame F -> frame F) : (forall f, fr_inds (g f) = fr_inds f /\ fr_last (g f) = fr_last f) -> Forall frame_fine h -> Forall frame_fine (alter g j h).
  Proof. intros Hg Hh. apply Forall_alter; [exact Hh|]. intros f _ Hf. unfold frame_fine. destruct (Hg f) as [-> ->]. exact Hf. Qed.
  Lemma clean_fine mx l : forall h h2 l2 r, clean_old_frames mx h l = (h2, l2, r) -> Forall frame_fine h -> Forall frame_fine h2.
  Proof.
    induction l as [|a l IH]; intros h h2 l2 r; simpl.
    - destruct (_ <=? _); intros [= <- <- <-]; auto.
    - destruct (_ <=? _); [intros [= <- <- <-]; auto|]. destruct l as [|b l]; [intros [= <- <- <-]; auto|]. intros E Hh. apply IH in E; [auto|]. apply alter_fine; [auto|]. apply alter_fine; auto.
  Qed.
  Lemma create_fine fs tk s e mo : fset_fine fs -> T tk -> (fs_unit fs <> TICK -> exists e', e = Some e' /\ ar_tz e' = z /\ WALL_MIN <= ar_wall e') ->
    exists fs', create_new_frame fs tk s e mo = (fs', Ok ()) /\ fset_fine fs' /\ same_conf fs fs'.
  Proof.
    intros [H1 H2 H3 H4 H5 H6 H7 H8] HT He. destruct (create_new_frame fs tk s e mo) as [fs' r] eqn:Ec.
    destruct (upsert_fine (fs_heap fs) (fs_frames fs) (frame_new tk s e (fs_current_id fs)) tk mo (fs_inds fs) (proj1 H1) (current_prev_ok fs H2 H1) H8 H7) as (fr & Eu & Hfr); [split; [exact HT|intros ? ? [=]]|].
    destruct r as [[]|x]; [|apply create_err in Ec; auto; rewrite Eu in Ec; discriminate].
    pose proof Ec as Es. apply create_spec in Es; [|auto|auto]. destruct Es as [[_ [? [=]]]|(_ & W & Cf & B)]. exists fs'. split; [auto|]. split; [|auto].
    pose proof Cf as (_ & C1 & C2 & C3 & _ & C4). constructor; rewrite ?C1, ?C2, ?C3, ?C4; auto.
    - intros Hu. rewrite B. apply Forall_app. split; [auto|]. apply Forall_singleton. destruct (He Hu) as (e' & -> & He'). exists e'. auto.
    - unfold create_new_frame in Ec. rewrite Eu in Ec. destruct (clean_old_frames _ _ _) as [[h2 l2] r2] eqn:Ecl. injection Ec as <- _. simpl. eapply clean_fine; [exact Ecl|].
      apply Forall_app. split; [|now apply Forall_singleton]. destruct (fs_current_id fs); [apply alter_fine; auto|auto].
  Qed.
  Lemma add_fine fs tk mo : fset_fine fs -> T tk -> exists fs', add_tick_to_last fs tk mo = (fs', Ok ()) /\ fset_fine fs'.
  Proof.
    intros Hff HT. pose proof Hff as [H1 H2 H3 H4 H5 H6 H7 H8]. destruct (add_tick_to_last fs tk mo) as [fs' r] eqn:Ea. pose proof Ea as Es. apply add_tick_spec in Es as (W & Cf & B); [|auto|auto].
    unfold add_tick_to_last in Ea. pose proof (current_prev_ok fs H2 H1) as Hc. destruct (fs_current_id fs) as [k|]; [|injection Ea as <- <-; eauto].
    simpl in Hc. destruct (lookup_lt_is_Some_2 (fs_heap fs) k Hc) as [cur Ecur]. rewrite Ecur in Ea. unfold frame_on_new_tick in Ea.
    destruct (upsert_fine (fs_heap fs) (fs_frames fs) (frame_tick cur tk) tk mo (fs_inds fs) (proj1 H1)) as (fr & Eu & Hfr); auto.
    { pose proof (linked_prev _ _ _ _ (proj1 H1) Ecur). simpl. destruct (fr_prev cur); simpl; [lia|auto]. }
    { rewrite Forall_lookup in H8. split; [exact HT|]. exact (proj2 (H8 _ _ Ecur)). }
    rewrite Eu in Ea. injection Ea as <- <-. eexists. split; [reflexivity|]. constructor; simpl; auto.
    - intros Hu. specialize (H6 Hu). rewrite B. destruct (last (bars fs)) as [b|] eqn:Eb; [|auto]. apply last_Some in Eb as [l El]. rewrite El in *. apply Forall_app in H6 as [H6 H6'].
      rewrite Forall_singleton in H6'. rewrite app_length. simpl. replace (length l + 1 - 1)%nat with (length l) by lia. rewrite take_app. apply Forall_app. split; [auto|]. apply Forall_singleton. exact H6'.
    - apply Forall_insert; auto.
  Qed.
  Lemma fine_ends_in fs : fs_unit fs <> TICK -> fset_fine fs -> ends_in z (bars fs).
  Proof. intros Hu Hf. apply (ff_ends fs Hf) in Hu. eapply Forall_impl; [exact Hu|]. intros b (e & E & Ez & _) e' E'. congruence. Qed.
  Lemma fill_fine fs start mo : fset_fine fs -> fs_unit fs <> TICK -> ar_tz start = z -> w_year (ar_wall start) <= 9999 - N ->
    match fill_step start mo fs with inl fs' => fset_fine fs' /\ same_conf fs fs' | inr (fs', r) => fs' = fs /\ r = Ok () end.
  Proof.
    intros Hf Hu Hs Hy. pose proof (ff_ends fs Hf Hu) as He. pose proof (current_bar fs (ff_max fs Hf) (ff_wf fs Hf)) as Hcb. unfold fill_step.
    destruct (fs_current fs) as [cur|] eqn:Ecu; [|auto]. assert (T (fr_last cur)) as HTc. { pose proof (ff_heap fs Hf) as Hh. rewrite Forall_lookup in Hh. unfold fs_current in Ecu. destruct (fs_current_id fs); [|discriminate]. exact (proj1 (Hh _ _ Ecu)). }
    simpl in Hcb. apply last_Some in Hcb as [l El]. rewrite El in He. apply Forall_app in He as [_ He]. rewrite Forall_singleton in He.
    destruct He as (e & E1 & E2 & E3). simpl in E1. rewrite E1. destruct (arrow_ltb e start) eqn:Elt; [|auto]. rewrite arrow_ltb_same in Elt by congruence. apply Z.ltb_lt in Elt.
    assert (good (fs_unit fs) (fs_q fs)) as Hg. { apply mk_good; [auto|pose proof (ff_q fs Hf); lia|apply (ff_ok fs Hf)]. }
    assert (1 <= w_year (ar_wall e)) as Hy1. { now apply year_ge_1. }
    pose proof (year_mono (ar_wall e) (ar_wall start) ltac:(lia)) as Hy2.
    destruct (end_room N (fs_unit fs) (fs_q fs) e HN Hg (ff_year fs Hf)) as (e' & -> & T1 & T2); [congruence|lia|].
    destruct (create_fine fs (fr_last cur) e (Some e') mo Hf HTc) as (fs' & -> & Hf' & Hc); [intros _; exists e'; split; [auto|split; [congruence|auto]]|]. auto.
  Qed.
  Lemma tick_fine fs tk mo lst : fset_fine fs -> T tk -> ar_tz (tk_dt tk) = z -> N <= w_year (ar_wall (tk_dt tk)) <= 9999 - N ->
    exists fs', fs_on_new_tick (gap_fuel fs tk) fs tk mo lst = (fs', Ok ()) /\ fset_fine fs'.
  Proof.
    intros Hf HT Htz Hy. destruct (decide (fs_unit fs = TICK)) as [Hu|Hu].
    { unfold fs_on_new_tick. rewrite Hu. unfold create_new_frame_tick. destruct (is_frame_over_tick _ _ _); [|now apply add_fine].
      destruct (create_fine fs tk (tk_dt tk) None mo Hf HT) as (fs' & E & Hf' & _); [congruence|eauto]. }
    assert (exists fs', (if is_frame_over_timed fs tk then create_new_frame_timed (gap_fuel fs tk) fs tk mo else add_tick_to_last fs tk mo) = (fs', Ok ()) /\ fset_fine fs') as Hgo;
      [|unfold fs_on_new_tick; destruct (fs_unit fs); [congruence|exact Hgo..]].
    destruct (is_frame_over_timed fs tk) eqn:Eo; [|now apply add_fine].
    assert (good (fs_unit fs) (fs_q fs)) as Hg. { apply mk_good; [auto|pose proof (ff_q fs Hf); lia|apply (ff_ok fs Hf)]. }
    pose proof (year_range (ar_wall (tk_dt tk)) ltac:(lia)) as Hr.
    destruct (frame_start_total (fs_unit fs) (fs_q fs) (tk_dt tk) Hg Hr) as [start Es]; [intros E; pose proof (ff_year fs Hf E); lia|].
    assert (ar_tz start = z) as Hst. { rewrite <- Htz. eapply start_tz; [| |exact Es]; [pose proof (ff_q fs Hf); lia|auto]. }
    destruct (frame_start_bnd (fs_unit fs) (fs_q fs) _ _ Hg Es) as (k & E1 & E2 & _).
    pose proof (year_mono (ar_wall start) (ar_wall (tk_dt tk)) ltac:(lia)) as Hys.
    assert (1 <= w_year (ar_wall start)) as Hy1.
    { destruct (decide (fs_unit fs = YEAR)) as [Ey|Hny].
      - pose proof (ff_year fs Hf Ey) as Hq. pose proof (ff_q fs Hf) as Hq1. rewrite Ey in Es. unfold get_frame_start, pymod in Es. cbv zeta in Es. destruct (Z.eqb_spec (fs_q fs) 0) as [|_]; [lia|]. cbn [rbind] in Es.
        unfold w_replace_first in Es. set (y := w_year (ar_wall (tk_dt tk)) - _) in Es. destruct ((1 <=? y) && _ && _ && _) eqn:Ec; [|discriminate]. rewrite !andb_true_iff, !Z.leb_le in Ec.
        simpl in Es. injection Es as <-. simpl. apply year_ge_1. rewrite wall_min_month. unfold w_of_date.
        replace (days_from_civil y 1 1) with (month_first (12 * y)) by (unfold month_first; f_equal; [rewrite Z.mul_comm, Z.div_mul; lia|rewrite Z.mul_comm, Z.mod_mul; lia]).
        assert (month_first 12 <= month_first (12 * y)) by (destruct (Z.eq_dec y 1) as [->|]; [reflexivity|pose proof (month_first_mono 12 (12 * y) ltac:(lia)); lia]). us. apply Z.mul_le_mono_nonneg_r; [lia|assumption].
      - apply year_ge_1.
        pose proof (wall_min_bnd _ _ Hg Hny) as Hb. apply boundary_bnd in Hb; [|auto]. destruct Hb as [j Ej]. rewrite E1, Ej. apply bnd_mono_le; [auto|].
        assert (j < k + 1); [|lia]. apply (bnd_inj_lt (fs_unit fs) (fs_q fs)); [auto|]. rewrite <- Ej. lia. }
    destruct (end_room N (fs_unit fs) (fs_q fs) start HN Hg (ff_year fs Hf)) as (e1 & Ee & T1 & T2); [congruence|lia|].
    unfold create_new_frame_timed. rewrite Es, Ee.
    destruct (fill_terminates z fs tk mo start (gap_fuel fs tk)) as [r Er]; auto using ff_max, ff_wf, fine_ends_in; try (pose proof (ff_q fs Hf); lia).
    rewrite Er. pose proof (ploop_ind (fill_step start mo) (fun s => fset_fine s /\ same_conf fs s) (fun x => x.2 = Ok () /\ fset_fine x.1 /\ same_conf fs x.1) (gap_fuel fs tk) fs) as Hl. rewrite Er in Hl.
    assert (forall s, same_conf fs s -> fs_unit s <> TICK) as Hus by (intros s (_ & -> & _); auto).
    destruct Hl as (Hl1 & Hl2 & Hl3).
    - intros s s' [S1 S2] E. pose proof (fill_fine s start mo S1 (Hus s S2) Hst ltac:(lia)) as Hff. rewrite E in Hff. destruct Hff. eauto using same_conf_trans.
    - intros s [s' x] [S1 S2] E. pose proof (fill_fine s start mo S1 (Hus s S2) Hst ltac:(lia)) as Hff. rewrite E in Hff. destruct Hff as [-> ->]. auto.
    - auto using same_conf_refl.
    - destruct r as [s x]. simpl in *. subst x.
      destruct (create_fine s tk start (Some e1) mo Hl2 HT) as (fs' & -> & Hf' & _); [intros _; exists e1; split; [auto|split; [congruence|auto]]|eauto].
  Qed.
  Lemma init_fine u q ref m fs : 1 <= m -> 1 <= q -> (u = YEAR -> q <= N) -> fset_init u q ref m = Ok fs -> fset_fine fs.
  Proof.
    intros Hm Hq Hy E. pose proof E as E0. apply fset_init_wf in E as (E1 & E2 & E3 & E4 & E5 & E6). apply check_unit_spec in E6; [|lia]. constructor; rewrite ?E3, ?E4, ?E5; auto.
    - intros _. unfold bars. rewrite E2. constructor.
    - unfold fset_init in E0. destruct (check_unit u q); [|discriminate]. injection E0 as <-. constructor.
    - rewrite E2. constructor.
  Qed.
  Lemma indicator_fine fs i : fset_fine fs -> class_of (in_kind i) = Some (K (in_ref i)) -> match in_kind i with KRSI p _ => p <> 0 /\ L (p * fs_q fs) | _ => True end -> fset_fine (fst (add_indicator fs i)).
  Proof.
    intros [H1 H2 H3 H4 H5 H6 H7 H8] Hc Hp. destruct (add_indicator_frames fs i) as (E1 & E2 & E4 & E5 & E3). constructor; unfold wf, bars in *; rewrite ?E1, ?E2, ?E3, ?E4, ?E5; auto.
    assert (forall j, ind_fine (in_ref i, j) -> Forall ind_fine (dict_set (fs_inds fs) (in_ref i) j)) as Hd.
    { intros j Hj. apply Forall_forall. intros x Hx. apply dict_set_elem in Hx as [Hx| ->]; [|auto]. rewrite Forall_forall in H7. auto. }
    unfold add_indicator. destruct (in_kind i) as [| | |p rp|] eqn:Ek; simpl; apply Hd; (split; [reflexivity|]); cbn [fst snd in_kind]; rewrite ?Ek; try (split; [exact Hc|exact I]).
    split; [exact Hc|]. eexists. split; [reflexivity|]. split; [nia|apply Hp].
  Qed.
  Lemma epic_fine fs e : fset_fine fs -> fset_fine (fs_set_epic fs e).
  Proof. intros [H1 H2 H3 H4 H5 H6 H7 H8]. constructor; auto. Qed.
End fine.

(** ** Programs *)
Section programs.
  Context {F : Type} `{Num F}.
  Implicit Types w : world F.
  Variables (N : Z) (zone : nat -> tzinfo) (cls : nat -> string -> chart_class).
  Variable HN : 1 <= N.
  Variable Hz : forall f, resolves_forward (zone f).
  Variables (T : tick F -> Prop) (C : F -> Prop) (L : Z -> Prop).
  Variable HT : forall z t, T t -> T (tick_to z t).
  Variable HC : forall a b, T a -> T b -> C (fsub (tk_value a) (tk_value b)).
  Variable HK : (forall f r, cls f r <> Strength) \/ rsi_total C L.
  Lemma HKf f : (forall r, cls f r <> Strength) \/ rsi_total C L.
  Proof. destruct HK; auto. Qed.

  Definition all_fine (l : list (fset F)) : Prop := forall f fs, l !! f = Some fs -> fset_fine (cls f) T C L (zone f) N fs.
  Definition zones_fine (n : nat) (l : list (epic F)) : Prop := forall eid e k f, l !! eid = Some e -> (k, f) ∈ ep_fsets e -> (f < n)%nat /\ ep_tz e = zone f.
  Definition charts_inv w : Prop := all_fine (w_fsets w) /\ zones_fine (length (w_fsets w)) (w_epics w).

  Lemma all_fine_insert l f fs : all_fine l -> fset_fine (cls f) T C L (zone f) N fs -> all_fine (<[f := fs]> l).
  Proof. intros Hl Hf g gs Hg. apply list_lookup_insert_Some in Hg as [(<- & <- & _)|[_ Hg]]; auto. Qed.
  Lemma forM_fine tk l : T tk -> N <= w_year (ar_wall (tk_dt tk)) <= 9999 - N -> forall w, all_fine (w_fsets w) -> (forall k f, (k, f) ∈ l -> (f < length (w_fsets w))%nat /\ ar_tz (tk_dt tk) = zone f) ->
    exists fss, forM (update_frame_set tk) w l = (upd_fsets w fss, Ok ()) /\ length fss = length (w_fsets w) /\ all_fine fss.
  Proof.
    intros Ht Hy. induction l as [|[k f] l IH]; intros w Hw Hl; cbn [forM]; [exists (w_fsets w); split; [now destruct w|auto]|].
    destruct (Hl k f) as [Hlt Hzn]; [left|]. destruct (lookup_lt_is_Some_2 _ _ Hlt) as [fs Hfs]. unfold update_frame_set at 1. cbn [snd]. rewrite Hfs. destruct (fs_epic_state w fs) as [mo lst].
    destruct (tick_fine (cls f) T C L HC (HKf f) (zone f) N (Hz f) HN fs tk mo lst (Hw _ _ Hfs) Ht Hzn Hy) as (fs' & -> & Hf').
    destruct (IH (upd_fsets w (<[f := fs']> (w_fsets w)))) as (fss & -> & Le & A).
    - simpl. now apply all_fine_insert.
    - intros k' f' Hin. simpl. rewrite insert_length. apply (Hl k' f'). now right.
    - exists fss. split; [reflexivity|]. split; [|auto]. rewrite Le. simpl. apply insert_length.
  Qed.
  Lemma tick_tz (t : tzinfo) (tk : tick F) : ar_tz (tk_dt (tick_to t tk)) = t.
  Proof. reflexivity. Qed.
  Lemma inv_charts_ok w eid tk : charts_inv w -> plain_op N zone cls T L w (OTick eid tk) -> charts_ok w eid tk.
  Proof.
    intros [Hf Hi] [Ht Hp]. unfold charts_ok. cbn [step]. unfold epic_on_new_tick at 2. cbn [no_charts w_epics]. rewrite list_lookup_fmap. unfold epic_on_new_tick. cbn [no_strats upd_epics w_epics]. rewrite list_lookup_fmap.
    destruct (w_epics w !! eid) as [e|] eqn:Ee; [|reflexivity]. specialize (Hp e eq_refl). cbn [fmap option_fmap option_map ep_tz ep_set_fsets ep_set_strats ep_last]. destruct (arrow_ltb _ _); [reflexivity|].
    cbn [ep_set_last ep_fsets ep_set_fsets ep_set_strats ep_strats forM andthen]. cbn [snd].
    match goal with |- snd (andthen (forM _ ?v _) _) = _ => destruct (forM_fine (tick_to (ep_tz e) tk) (ep_fsets e) (HT _ _ Ht) Hp v) as (fss & -> & _) end; [exact Hf| |reflexivity].
    intros k f Hin. rewrite tick_tz. exact (Hi _ _ _ _ Ee Hin).
  Qed.
  Lemma zones_insert n l eid e : zones_fine n l -> (forall k f, (k, f) ∈ ep_fsets e -> (f < n)%nat /\ ep_tz e = zone f) -> zones_fine n (<[eid := e]> l).
  Proof. intros Hl He j x k f Hj Hin. apply list_lookup_insert_Some in Hj as [(<- & <- & _)|[_ Hj]]; [eauto|]. exact (Hl _ _ _ _ Hj Hin). Qed.
  Lemma zones_more n m l : (n <= m)%nat -> zones_fine n l -> zones_fine m l.
  Proof. intros Hnm Hl j x k f Hj Hin. destruct (Hl _ _ _ _ Hj Hin). split; [lia|auto]. Qed.
  Lemma step_inv pr w o : charts_inv w -> plain_op N zone cls T L w o -> charts_inv (fst (step pr w o)).
  Proof.
    intros [Hf Hi] Hp. destruct o as [k|ref|u q ref m|ref tz op cl ds hs p|eid fid|eid sid|fid i|eid tk|c]; cbn [step plain_op] in *.
    - split; [exact Hf|exact Hi].
    - split; [exact Hf|exact Hi].
    - destruct Hp as (P1 & P2 & P3). destruct (fset_init u q ref m) as [fs|] eqn:E; [|split; [exact Hf|exact Hi]]. split; simpl.
      + intros f g Hg. apply lookup_app_Some in Hg as [Hg|[Hle Hg]]; [exact (Hf _ _ Hg)|]. destruct (f - length (w_fsets w))%nat as [|k] eqn:Ek; [|now destruct k].
        injection Hg as <-. exact (init_fine (cls f) T C L (zone f) N u q ref m fs P1 P2 P3 E).
      + rewrite app_length. simpl. apply (zones_more (length (w_fsets w))); [lia|exact Hi].
    - unfold new_epic. destruct tz as [z|]; [|split; [exact Hf|exact Hi]]. destruct (valid_id _ _); [|split; [exact Hf|exact Hi]].
      set (x := match p with Some p0 => (w_provs w, p0) | None => _ end). destruct x as [provs pid]. split; [exact Hf|]. simpl. intros j x k f Hj Hin.
      apply lookup_app_Some in Hj as [Hj|[Hle Hj]]; [exact (Hi _ _ _ _ Hj Hin)|]. destruct (j - length (w_epics w))%nat as [|k'] eqn:Ek; [|now destruct k']. injection Hj as <-. simpl in Hin. now apply elem_of_nil in Hin.
    - unfold add_frame_set. destruct (w_epics w !! eid) as [e|] eqn:Ee; [|split; [exact Hf|exact Hi]]. destruct (w_fsets w !! fid) as [fs|] eqn:Efs; [|split; [exact Hf|exact Hi]].
      destruct (dict_get _ _); [split; [exact Hf|exact Hi]|]. split; simpl.
      + apply all_fine_insert; [auto|]. apply epic_fine. exact (Hf _ _ Efs).
      + rewrite insert_length. apply zones_insert; [exact Hi|]. simpl. intros k f Hin. apply dict_set_elem in Hin as [Hin|[= -> ->]]; [exact (Hi _ _ _ _ Ee Hin)|]. split; [eapply lookup_lt_Some; eauto|auto].
    - unfold add_strategy. destruct (w_epics w !! eid) as [e|] eqn:Ee; [|split; [exact Hf|exact Hi]]. destruct (w_strats w !! sid) as [s|]; [|split; [exact Hf|exact Hi]].
      destruct (dict_get _ _); [split; [exact Hf|exact Hi]|]. split; [exact Hf|]. simpl. apply zones_insert; [exact Hi|]. intros k f Hin. exact (Hi _ _ _ _ Ee Hin).
    - destruct Hp as [P1 P2]. destruct (w_fsets w !! fid) as [fs|] eqn:Efs; [|split; [exact Hf|exact Hi]]. assert (match in_kind i with KRSI p _ => p <> 0 /\ L (p * fs_q fs) | _ => True end) as P3 by (destruct (in_kind i); auto; destruct P2; auto).
      pose proof (indicator_fine (cls fid) T C L (zone fid) N fs i (Hf _ _ Efs) P1 P3) as Hfi.
      destruct (add_indicator fs i) as [fs' r]. split; simpl; [now apply all_fine_insert|]. rewrite insert_length. exact Hi.
    - destruct Hp as [Ht Hp]. unfold epic_on_new_tick. destruct (w_epics w !! eid) as [e|] eqn:Ee; [|split; [exact Hf|exact Hi]]. specialize (Hp e eq_refl). cbv zeta. destruct (arrow_ltb _ _); [split; [exact Hf|exact Hi]|].
      cbn [ep_fsets ep_set_last ep_prov ep_strats].
      match goal with |- charts_inv (fst (andthen (forM _ ?v _) _)) => destruct (forM_fine (tick_to (ep_tz e) tk) (ep_fsets e) (HT _ _ Ht) Hp v) as (fss & -> & Le & A) end; [exact Hf|intros k f Hin; rewrite tick_tz; exact (Hi _ _ _ _ Ee Hin)|].
      cbn [andthen]. unfold charts_inv. match goal with |- context [forM (execute_strategy pr eid ?m) ?v ?l] => destruct (execute_fsets pr eid m l v) as [-> ->] end.
      match goal with |- context [update_open_trades ?v ?p ?t] => destruct (value_rest v p t) as (E1 & E2 & E3 & E4) end. rewrite E4. 
      assert (forall v p (t : tick F), w_epics (update_open_trades v p t) = w_epics v) as -> by (intros v p t; unfold update_open_trades; now destruct (w_provs v !! p)).
      cbn [w_fsets upd_fsets w_epics upd_epics] in *. rewrite Le. split; [exact A|]. apply zones_insert; [exact Hi|]. intros k f Hin. exact (Hi _ _ _ _ Ee Hin).
    - pose proof (cmd_rest w c) as E. injection E as E1 E2 _. unfold charts_inv. rewrite E1, E2. split; [exact Hf|exact Hi].
  Qed.
  Lemma inv_fine pr l w : charts_inv w -> plain_charts N zone cls T L pr w l -> charts_fine pr w l.
  Proof.
    revert w. induction l as [|o l IH]; intros w Hi Hp; cbn [plain_charts charts_fine] in *; [auto|]. destruct Hp as [P1 P2]. split; [|apply IH; [now apply step_inv|auto]].
    destruct o; auto. now apply inv_charts_ok.
  Qed.
  Lemma charts_raise_nothing pr l : plain_charts N zone cls T L pr empty_world l -> charts_fine pr empty_world l.
  Proof. apply inv_fine. split; [intros f fs [=]|intros j e k f [=]]. Qed.
End programs.

(** The formula on exact numbers. *)
Lemma rsi_total_Q : rsi_total (F:=Q) (fun _ => True) any_number.
Proof.
  intros l _ _. unfold build_rsi. pose proof (build_sums_spec l) as Hs. destruct (build_sums l) as [ps ns]. destruct Hs as [Hp Hn]. pose proof (gains_nonneg l). pose proof (losses_nonneg l).
  destruct (feqb ns f0) eqn:En; [eauto|]. destruct (feqb ps f0) eqn:Ep; [eauto|]. apply qeqb_false in En, Ep. rewrite qf0 in En, Ep.
  assert (1 <= Z.of_nat (length l))%Z as Hl. { destruct l; [|simpl; lia]. exfalso. apply En. rewrite Hn. reflexivity. }
  destruct (rsi_pos ps ns (Z.of_nat (length l)) (gains l) (losses l) Hl Hp Hn) as (x & Hx & _); [lra|lra|]. exists x. exact Hx.
Qed.

Lemma charts_Q N zone cls (pr : programs Q) l : 1 <= N -> (forall f, resolves_forward (zone f)) -> plain_charts N zone cls any_quote any_number pr empty_world l -> charts_fine pr empty_world l.
Proof. intros HN Hz. apply (charts_raise_nothing N zone cls HN Hz any_quote (fun _ => True) any_number); [exact (fun _ _ H => H)|exact (fun _ _ _ _ => I)|]. right. exact rsi_total_Q. Qed.
Lemma charts_any {F} `{Num F} N zone cls (pr : programs F) l : 1 <= N -> (forall f, resolves_forward (zone f)) -> (forall f r, cls f r <> Strength) ->
  plain_charts N zone cls any_quote any_number pr empty_world l -> charts_fine pr empty_world l.
Proof. intros HN Hz Hc. apply (charts_raise_nothing N zone cls HN Hz any_quote (fun _ => True) any_number); [exact (fun _ _ H => H)|exact (fun _ _ _ _ => I)|]. now left. Qed.
Lemma charts_removed_Q N zone cls (pr : programs Q) l : 1 <= N -> (forall f, resolves_forward (zone f)) -> chart_blind pr ->
  plain_charts N zone cls any_quote any_number pr empty_world l -> no_charts (run pr empty_world l) = no_charts (run pr empty_world (without_charts l)).
Proof. intros HN Hz Hb Hp. apply charts_removed; [auto|]. exact (charts_Q N zone cls pr l HN Hz Hp). Qed.
