(** Relative strength over histories (C42). *)
From Verif Require Export AverageProofs.
From Verif Require Import FramesProofs.
Open Scope Z_scope.

Section proofs.
  Context {F : Type} `{Num F}.
  Implicit Types (fs : fset F) (f fr : frame F) (i : indicator F) (iv : ivalue F).

  Lemma wf_prev fs k f : wf fs -> fs_heap fs !! k = Some f ->
    fr_prev f = if (k <=? length (fs_heap fs) - length (fs_frames fs))%nat then None else Some (k - 1)%nat.
  Proof.
    intros [Hl Hm] Ef. pose proof (lookup_lt_Some _ _ _ Ef) as Hk.
    destruct Hl as [H1 H2 H3 H4]. destruct (Nat.leb_spec k (length (fs_heap fs) - length (fs_frames fs))) as [Hle|Hgt].
    - destruct (Nat.eq_dec k (length (fs_heap fs) - length (fs_frames fs))%nat) as [E|E].
      + destruct (H4 k f Ef ltac:(lia)) as [Hp _]. rewrite Hp. destruct (Nat.eqb_spec k (length (fs_heap fs) - length (fs_frames fs))); [auto|lia].
      + now destruct (H3 k f Ef ltac:(lia)).
    - destruct (H4 k f Ef ltac:(lia)) as [Hp _]. rewrite Hp. destruct (Nat.eqb_spec k (length (fs_heap fs) - length (fs_frames fs))); [lia|auto].
  Qed.

  (** Differences of consecutive elements *)
  Fixpoint fchanges (l : list F) : list F :=
    match l with
    | a :: ((b :: _) as l') => fsub b a :: fchanges l'
    | _ => []
    end.
  Lemma fchanges_cons2 a b l : fchanges (a :: b :: l) = fsub b a :: fchanges (b :: l).
  Proof. reflexivity. Qed.
  Lemma fchanges_snoc l a b : fchanges (l ++ [a; b]) = fchanges (l ++ [a]) ++ [fsub b a].
  Proof.
    induction l as [|x l IH]; [reflexivity|]. destruct l as [|y l]; [reflexivity|]. change ((x :: y :: l) ++ [a; b]) with (x :: y :: (l ++ [a; b])).
    change ((x :: y :: l) ++ [a]) with (x :: y :: (l ++ [a])). rewrite !fchanges_cons2. cbn [app]. f_equal. exact IH.
  Qed.
  Lemma fchanges_length l : length (fchanges l) = (length l - 1)%nat.
  Proof.
    induction l as [|x l IH]; [reflexivity|]. destruct l as [|y l]; [reflexivity|]. rewrite fchanges_cons2. cbn [length] in *. lia.
  Qed.
  Lemma fchanges_drop n l : fchanges (drop n l) = drop n (fchanges l).
  Proof.
    revert l. induction n as [|n IH]; intros l; [reflexivity|]. destruct l as [|x l]; [reflexivity|]. destruct l as [|y l].
    - cbn [drop fchanges]. rewrite drop_nil. reflexivity.
    - rewrite fchanges_cons2. cbn [drop]. apply IH.
  Qed.
  (** The changes known on frame [k] when the first value belongs to frame [s] *)
  Definition dif (cl : list F) (s k : nat) : list F := fchanges (drop (s - 1) (take k cl)).
  Lemma dif_length cl s k : (k <= length cl)%nat -> length (dif cl s k) = (k - (s - 1) - 1)%nat.
  Proof. intros Hk. unfold dif. rewrite fchanges_length, drop_length, take_length. lia. Qed.
  Lemma dif_nil cl s k : (k <= S (s - 1))%nat -> dif cl s k = [].
  Proof. intros Hk. destruct (dif cl s k) eqn:E; [auto|]. assert (length (dif cl s k) <= 0)%nat as Hl by (unfold dif; rewrite fchanges_length, drop_length, take_length; lia). rewrite E in Hl. simpl in Hl. lia. Qed.
  Lemma dif_snoc cl s k a b : (s <= S k)%nat -> cl !! k = Some a -> cl !! S k = Some b -> dif cl s (S (S k)) = dif cl s (S k) ++ [fsub b a].
  Proof.
    intros Hs Ea Eb. unfold dif. rewrite (take_S_r _ _ _ Eb), (take_S_r _ _ _ Ea). pose proof (lookup_lt_Some _ _ _ Eb) as Hl.
    rewrite <- app_assoc. cbn [app]. rewrite !drop_app_le by (rewrite take_length; lia). apply fchanges_snoc.
  Qed.

  Definition rsi_ok (n : Z) (ext : list F) (v : option F) : Prop :=
    if Z.of_nat (length ext) =? n then exists x, build_rsi n ext = Ok x /\ v = Some x else v = None.
  (** What the value of frame [k] holds *)
  Definition rsi_at (n : Z) (cl : list F) (s k : nat) iv : Prop :=
    exists lc v, iv_data iv = DRSI n lc v /\ lc = tailn (Z.to_nat (n - 1)) (dif cl s k) /\ rsi_ok n (tailn (Z.to_nat n) (dif cl s (S k))) v.
  Definition rsi_inv (q : Z) i (n : Z) fs : Prop :=
    registered q i fs /\ exists s, seg fs (in_ref i) s /\ (dict_get (fs_inds fs) (in_ref i) = None -> s = length (fs_heap fs)) /\
      forall k iv, vals (in_ref i) fs !! k = Some (Some iv) -> rsi_at n (closes fs) s k iv.

  (** [extended_changes] of frame [k] *)
  Lemma extended_at (h : heap F) f n s k cl lc c : 2 <= n -> (s <= k)%nat ->
    cl !! k = Some c -> tk_value (fr_last f) = c ->
    fr_prev f = (match k with O => None | S j => Some j end) ->
    (forall j, k = S j -> exists pf, h !! j = Some pf /\ cl !! j = Some (tk_value (fr_last pf))) ->
    lc = tailn (Z.to_nat (n - 1)) (dif cl s k) ->
    extended_changes h f lc = Ok (tailn (Z.to_nat n) (dif cl s (S k))).
  Proof.
    intros Hn Hs Ek Ec Ep Hj ->. unfold extended_changes. rewrite Ep. destruct k as [|j].
    - rewrite dif_nil by lia. unfold tailn. rewrite drop_nil. reflexivity.
    - destruct (Hj j eq_refl) as (pf & -> & Epf). f_equal. rewrite (dif_snoc cl s j _ _ Hs Epf Ek), Ec.
      replace (Z.to_nat n) with (S (Z.to_nat (n - 1))) by lia. now rewrite tailn_snoc.
  Qed.
  Lemma update_at (h : heap F) f n s k cl lc c old v : 2 <= n -> (s <= k)%nat ->
    cl !! k = Some c -> tk_value (fr_last f) = c ->
    fr_prev f = (match k with O => None | S j => Some j end) ->
    (forall j, k = S j -> exists pf, h !! j = Some pf /\ cl !! j = Some (tk_value (fr_last pf))) ->
    lc = tailn (Z.to_nat (n - 1)) (dif cl s k) ->
    (Z.of_nat (length (tailn (Z.to_nat n) (dif cl s (S k)))) <> n -> old = None) ->
    update_rsi h f n lc old = Ok v -> rsi_ok n (tailn (Z.to_nat n) (dif cl s (S k))) v.
  Proof.
    intros Hn Hs Ek Ec Ep Hj Hlc Hold. unfold update_rsi. rewrite (extended_at h f n s k cl lc c Hn Hs Ek Ec Ep Hj Hlc). cbn [rbind]. unfold rsi_ok.
    destruct (Z.eqb_spec (Z.of_nat (length (tailn (Z.to_nat n) (dif cl s (S k))))) n) as [E|E].
    - destruct (build_rsi n _) as [x|]; [|discriminate]. cbn [rbind]. intros [= <-]. eauto.
    - intros [= <-]. auto.
  Qed.

  Lemma dif_same cl cl' s k : take k cl = take k cl' -> dif cl s k = dif cl' s k.
  Proof. unfold dif. now intros ->. Qed.
  Lemma take_same_le (l l' : list F) k j : (j <= k)%nat -> take k l = take k l' -> take j l = take j l'.
  Proof. intros Hj E. rewrite <- (Nat.min_l j k Hj), <- !take_take, E. reflexivity. Qed.
  Lemma rsi_at_same n cl cl' s k iv : take (S k) cl = take (S k) cl' -> rsi_at n cl s k iv -> rsi_at n cl' s k iv.
  Proof.
    intros E (lc & v & E1 & E2 & E3). exists lc, v. split; [auto|]. rewrite <- (dif_same cl cl' s (S k) E).
    rewrite <- (dif_same cl cl' s k (take_same_le _ _ (S k) k ltac:(lia) E)). auto.
  Qed.

  Lemma rsi_create mx q i p o n fs fs' tk s0 e mo : 2 <= mx -> n = p * q -> 2 <= n -> in_kind i = KRSI p o -> in_mopen i = false -> base mx q fs -> rsi_inv q i n fs ->
    create_new_frame fs tk s0 e mo = (fs', Ok ()) -> rsi_inv q i n fs'.
  Proof.
    intros Hmx En Hn2 Hi Hmo (W & M & _ & O) (R & s & Sg & Hun & Hd) E. assert (1 <= fs_max fs) as Hm by lia.
    destruct (create_vals _ _ _ _ _ _ (in_ref i) Hm W O E) as (v & Ev & Hv). pose proof (create_closes _ _ _ _ _ _ Hm W E) as Ec. pose proof (create_inds _ _ _ _ _ _ _ E) as Ei.
    assert (length (fs_heap fs') = S (length (fs_heap fs))) as El by (rewrite <- (closes_length fs'), Ec, app_length, closes_length; simpl; lia).
    split; [unfold registered; now rewrite Ei|]. set (m := length (fs_heap fs)) in *.
    assert (forall k, (k <= m)%nat -> take k (closes fs) = take k (closes fs')) as Hsame.
    { intros k Hk. rewrite Ec, take_app_le; [auto|]. rewrite closes_length. exact Hk. }
    destruct R as [R|R]; rewrite R in Hv.
    - subst v. exists (S m). split; [rewrite <- El; apply (seg_create fs fs' (in_ref i) s None Sg Ev); auto|]. rewrite Ei. split; [auto|].
      intros k iv Hk. rewrite Ev in Hk. apply lookup_app_Some in Hk as [Hk|[_ Hk]]; [|apply list_lookup_singleton_Some in Hk as [_ Hk]; discriminate].
      pose proof (lookup_lt_Some _ _ _ Hk) as Hlt. rewrite vals_length in Hlt. fold m in Hlt. destruct Sg as [_ S2]. assert (Some iv <> None) as Hsi by discriminate. apply (S2 k _ Hk) in Hsi. specialize (Hun R). lia.
    - assert (in_mopen (reg q i) = false) as Hmr by (unfold reg; rewrite Hi; auto). destruct (build_some _ _ _ _ _ Hmr Hv) as (d & Ed & ->). exists s. split; [apply (seg_create fs fs' (in_ref i) s _ Sg Ev); discriminate|].
      rewrite Ei. split; [congruence|]. destruct Sg as [S1 S2]. fold m in S1. intros k iv Hk. rewrite Ev in Hk. apply lookup_app_Some in Hk as [Hk|[Hge Hk]].
      + pose proof (lookup_lt_Some _ _ _ Hk) as Hlt. rewrite vals_length in Hlt. apply (rsi_at_same n (closes fs)); [apply Hsame; fold m in Hlt; lia|]. eauto.
      + rewrite vals_length in Hge, Hk. apply list_lookup_singleton_Some in Hk as [Hk [= <-]]. assert (k = m) as -> by (fold m in Hge, Hk; lia).
        unfold build_data, reg in Ed. rewrite Hi in Ed. cbn [in_kind in_ref] in Ed. rewrite <- En in Ed. destruct (Z.eqb_spec n 0) as [|_]; [lia|].
        destruct (previous_new fs (in_ref i) tk s0 e Hm W) as (r & Ep & Hp). rewrite Ep in Ed. cbn [rbind] in Ed. fold m in Hp.
        destruct (seg_previous fs (in_ref i) s m r W Hm (conj S1 S2) ltac:(lia) Hp) as [Q1 Q2].
        assert (exists lc0, (match r with
                       | None => Ok []
                       | Some (pid, piv) =>
                           match iv_data piv, fs_heap fs !! pid with
                           | DRSI _ plc _, Some pf => extended_changes (fs_heap fs) pf plc
                           | _, _ => Err AttributeError
                           end
                       end) = Ok lc0 /\ py_slice_from lc0 ((n - 1) * -1) = tailn (Z.to_nat (n - 1)) (dif (closes fs) s m)) as (lc0 & Elc & Esl).
        { destruct (Nat.eq_dec s m) as [->|Hne].
          - rewrite (Q1 ltac:(lia)). exists []. split; [auto|]. rewrite (dif_nil _ m m) by lia. replace ((n - 1) * -1) with (- (n - 1)) by lia. now rewrite slice_tailn by lia.
          - destruct (Q2 ltac:(lia)) as (piv & -> & Hpv); [destruct W as [_ Wl]; fold m in Wl |- *; lia|].
            rewrite value_at_vals in Hpv. destruct (vals (in_ref i) fs !! (m - 1)%nat) as [v|] eqn:Epv; [|discriminate]. subst v.
            destruct (Hd _ _ Epv) as (plc & pv & Epd & Hlc & _). rewrite Epd. destruct (lookup_lt_is_Some_2 (fs_heap fs) (m - 1)%nat ltac:(fold m; lia)) as [pf Epf]. rewrite Epf.
            exists (tailn (Z.to_nat n) (dif (closes fs) s (S (m - 1)))). split.
            + apply (extended_at (fs_heap fs) pf n s (m - 1) (closes fs) plc (tk_value (fr_last pf))); auto; [lia|now apply closes_lookup| |].
              * rewrite (wf_prev fs _ pf W Epf). destruct W as [_ Wl]. fold m in Wl |- *. destruct (Nat.leb_spec (m - 1) (m - length (fs_frames fs))) as [Hle|Hgt].
                -- destruct (m - 1)%nat eqn:E1; [auto|]. lia.
                -- destruct (m - 1)%nat eqn:E1; [lia|]. f_equal. lia.
              * intros j Ej. destruct (lookup_lt_is_Some_2 (fs_heap fs) j ltac:(fold m; lia)) as [pf' Epf']. exists pf'. split; [auto|now apply closes_lookup].
            + replace ((n - 1) * -1) with (- (n - 1)) by lia. rewrite slice_tailn by lia. rewrite tailn_tailn by lia. do 2 f_equal. lia. }
        rewrite Elc in Ed. cbn [rbind] in Ed. rewrite Esl in Ed. destruct (update_rsi _ _ _ _ _) as [x|] eqn:Eu; [|discriminate]. cbn [rbind] in Ed. injection Ed as <-.
        unfold rsi_at. cbn [iv_data]. eexists. eexists. split; [reflexivity|]. rewrite <- (dif_same (closes fs) (closes fs') s m (Hsame m ltac:(lia))). split; [reflexivity|].
        refine (update_at _ _ n s m (closes fs') _ (tk_value tk) None x Hn2 _ _ _ _ _ _ _ Eu).
        * lia.
        * rewrite Ec, lookup_app_r by (rewrite closes_length; fold m; lia). rewrite closes_length. fold m. now rewrite Nat.sub_diag.
        * reflexivity.
        * cbn [frame_new fr_prev]. apply (wf_current fs Hm W).
        * intros j Ej. destruct (lookup_lt_is_Some_2 (fs_heap fs) j ltac:(fold m; lia)) as [pf' Epf']. exists pf'. split; [auto|]. rewrite Ec, lookup_app_l by (rewrite closes_length; fold m; lia). now apply closes_lookup.
        * now rewrite <- (dif_same (closes fs) (closes fs') s m (Hsame m ltac:(lia))).
        * auto.
  Qed.

  Lemma rsi_add mx q i p o n fs fs' tk mo : 2 <= mx -> n = p * q -> 2 <= n -> in_kind i = KRSI p o -> in_mopen i = false -> base mx q fs -> rsi_inv q i n fs ->
    add_tick_to_last fs tk mo = (fs', Ok ()) -> rsi_inv q i n fs'.
  Proof.
    intros Hmx Enn Hn2 Hi Hmo (W & M & _ & O) (R & s & Sg & Hun & Hd) E. assert (1 <= fs_max fs) as Hm by lia.
    pose proof (add_vals _ _ _ _ _ (in_ref i) Hm W O E) as Hv. pose proof (add_inds _ _ _ _ _ E) as Ei.
    destruct (length (fs_heap fs)) as [|m] eqn:En; [subst fs'; split; [auto|]; exists s; rewrite En; auto|].
    destruct Hv as (cur & v & v' & Ecur & Esl & Evs & Hv). pose proof (add_closes _ _ _ _ _ _ Hm W En E) as Ec.
    assert (vals (in_ref i) fs !! m = Some v) as Hm' by (unfold vals; rewrite list_lookup_fmap, Ecur; simpl; congruence).
    assert (length (fs_heap fs') = S m) as El by (rewrite <- (vals_length (in_ref i)), Evs, app_length, take_length, vals_length; simpl; lia).
    split; [unfold registered; now rewrite Ei|].
    assert (forall k, (k <= m)%nat -> take k (closes fs) = take k (closes fs')) as Hsame.
    { intros k Hk. rewrite Ec, take_app_le by (rewrite take_length, closes_length; lia). rewrite take_take. f_equal. lia. }
    assert (match dict_get (fs_inds fs) (in_ref i) with None => v' = v | Some j => step_val (fs_heap fs) (frame_tick cur tk) j tk mo v v' end) as Hv2.
    { destruct (dict_get (fs_inds fs) (in_ref i)); [|auto]. destruct Hv as [Hv|[_ Hv]]; [auto|congruence]. }
    clear Hv. assert (v' = None -> v = None) as Hvn.
    { intros ->. destruct R as [R|R]; rewrite R in Hv2; [congruence|]. destruct v; [|auto]. destruct Hv2 as (x & _ & [=]). }
    pose proof (seg_add fs fs' (in_ref i) s m v v' Sg En Hm' Evs Hvn) as Sg'. pose proof Sg as [S1 S2].
    exists (match v, v' with None, Some _ => m | _, _ => s end). split; [exact Sg'|]. rewrite Ei, El. split.
    { intros Ru. specialize (Hun Ru). rewrite Ru in Hv2. subst v'. destruct v; lia. }
    assert (forall iv, vals (in_ref i) fs' !! m = Some (Some iv) -> v' = Some iv) as Hlast.
    { intros iv Hk. rewrite Evs, lookup_app_r in Hk by (rewrite take_length, vals_length; lia). apply list_lookup_singleton_Some in Hk as [_ Hk]. auto. }
    assert (v = None -> (m < s)%nat) as Hns.
    { intros ->. destruct (Nat.lt_ge_cases m s) as [|Hge]; [auto|]. apply (S2 m None Hm') in Hge. congruence. }
    assert (closes fs' !! m = Some (tk_value tk)) as Hcm.
    { rewrite Ec, lookup_app_r by (rewrite take_length, closes_length; lia). rewrite take_length, closes_length, En. replace (m - m `min` S m)%nat with 0%nat by lia. reflexivity. }
    assert (fr_prev cur = match m with O => None | S j => Some j end) as Hpc.
    { rewrite (wf_prev fs m cur W Ecur). destruct W as [_ Wl]. rewrite En in Wl |- *. destruct (Nat.leb_spec m (S m - length (fs_frames fs))); destruct m; auto; try lia. f_equal. lia. }
    assert (forall j, m = S j -> exists pf, fs_heap fs !! j = Some pf /\ closes fs' !! j = Some (tk_value (fr_last pf))) as Hpf.
    { intros j Ej. destruct (lookup_lt_is_Some_2 (fs_heap fs) j ltac:(lia)) as [pf' Epf']. exists pf'. split; [auto|]. rewrite Ec, lookup_app_l by (rewrite take_length, closes_length; lia). rewrite lookup_take by lia. now apply closes_lookup. }
    intros k iv Hk. pose proof (lookup_lt_Some _ _ _ Hk) as Hlt. rewrite vals_length, El in Hlt.
    destruct (Nat.eq_dec k m) as [->|Hne].
    - pose proof (Hlast _ Hk) as Ev'. subst v'. destruct R as [R|R]; rewrite R in Hv2.
      + specialize (Hun R). assert (Some iv <> None) as Hsi by discriminate. rewrite Hv2 in Hsi. apply (S2 m _ Hm') in Hsi. lia.
      + assert (in_mopen (reg q i) = false) as Hmr by (unfold reg; rewrite Hi; auto). destruct v as [ivo|]; cbn [step_val] in Hv2.
        * assert (s <= m)%nat as Hsm by (apply (S2 m _ Hm'); discriminate).
          destruct Hv2 as (iv' & Et & [= <-]). destruct (Hd _ _ Hm') as (lc & vo & Ed & Hlc & Hok). unfold iv_on_new_tick in Et.
          destruct (base_tick_kind ivo tk mo) as (_ & _ & B3). rewrite B3, Ed in Et. destruct (update_rsi _ _ _ _ _) as [x|] eqn:Eu; [|discriminate]. cbn [rbind] in Et. injection Et as <-.
          unfold rsi_at. cbn [iv_set_data iv_data]. exists lc, x. split; [reflexivity|]. rewrite <- (dif_same (closes fs) (closes fs') s m (Hsame m ltac:(lia))). split; [exact Hlc|].
          refine (update_at (fs_heap fs) (frame_tick cur tk) n s m (closes fs') _ (tk_value tk) vo x Hn2 Hsm Hcm eq_refl Hpc Hpf _ _ Eu).
          -- now rewrite <- (dif_same (closes fs) (closes fs') s m (Hsame m ltac:(lia))).
          -- intros Hne. unfold rsi_ok in Hok. rewrite tailn_length, dif_length in Hne by (rewrite closes_length; lia).
             destruct (Z.eqb_spec (Z.of_nat (length (tailn (Z.to_nat n) (dif (closes fs) s (S m))))) n) as [Hx|Hx]; [|auto].
             rewrite tailn_length, dif_length in Hx by (rewrite closes_length; lia). lia.
        * specialize (Hns eq_refl). destruct (build_some _ _ _ _ _ Hmr Hv2) as (d & Ed & [= ->]).
          unfold build_data, reg in Ed. rewrite Hi in Ed. cbn [in_kind in_ref] in Ed. rewrite <- Enn in Ed. destruct (Z.eqb_spec n 0) as [|_]; [lia|].
          destruct (previous_at fs m cur (in_ref i) Hm W Ecur) as (r0 & Ep & Hp). change (previous (fs_heap fs) (frame_tick cur tk) (in_ref i)) with (previous (fs_heap fs) cur (in_ref i)) in Ed.
          rewrite Ep in Ed. cbn [rbind] in Ed. destruct (seg_previous fs (in_ref i) s m r0 W Hm Sg ltac:(lia) Hp) as [Q1 _]. rewrite (Q1 ltac:(lia)) in Ed. cbn [rbind] in Ed.
          assert (@py_slice_from F [] ((n - 1) * -1) = tailn (Z.to_nat (n - 1)) (dif (closes fs') m m)) as Enil.
          { rewrite (dif_nil _ m m) by lia. replace ((n - 1) * -1) with (- (n - 1)) by lia. now rewrite slice_tailn by lia. }
          destruct (update_rsi _ _ _ _ _) as [x|] eqn:Eu; [|discriminate]. cbn [rbind] in Ed. injection Ed as <-. unfold rsi_at. cbn [iv_data]. eexists. exists x. split; [reflexivity|]. split; [exact Enil|].
          exact (update_at (fs_heap fs) (frame_tick cur tk) n m m (closes fs') _ (tk_value tk) None x Hn2 (Nat.le_refl m) Hcm eq_refl Hpc Hpf Enil (fun _ => eq_refl) Eu).
    - assert (k < m)%nat as Hkm by lia. assert (vals (in_ref i) fs !! k = Some (Some iv)) as Hko.
      { rewrite Evs, lookup_app_l in Hk by (rewrite take_length, vals_length; lia). now rewrite lookup_take in Hk by lia. }
      apply (rsi_at_same n (closes fs)); [apply Hsame; lia|].
      destruct v as [ivo|], v' as [ivn|]; try (exact (Hd k iv Hko)).
      specialize (Hns eq_refl). assert (Some iv <> None) as Hsi by discriminate. apply (S2 k _ Hko) in Hsi. lia.
  Qed.
  Lemma rsi_inv_hist u q ref mx i p o fs0 fs : 2 <= mx -> 2 <= p * q -> in_kind i = KRSI p o -> in_mopen i = false ->
    fset_init u q ref mx = Ok fs0 -> fs_hist (only i) no_exn fs0 fs -> base mx q fs /\ rsi_inv q i (p * q) fs.
  Proof.
    intros Hmx Hn Hi Hmo E0 Hh. pose proof (fset_init_wf _ _ _ _ _ E0) as (_ & Hn0 & _).
    apply (hist_invariant_ok (only i) mx q (rsi_inv q i (p * q)) fs0 fs); auto; [lia| | | | |].
    - now apply base_init in E0.
    - split; [left; now rewrite (init_inds _ _ _ _ _ E0)|]. exists 0%nat. split; [split; [lia|]|split].
      + intros k v Hk. unfold vals in Hk. rewrite Hn0 in Hk. discriminate.
      + rewrite Hn0. auto.
      + intros k v Hk. unfold vals in Hk. rewrite Hn0 in Hk. discriminate.
    - intros g j (W & M & Q1 & _) (R & s & Sg & Hun & Hd) Ho. split; [now apply registered_ind|]. exists s. unfold seg. rewrite add_indicator_vals, add_indicator_closes, add_indicator_get.
      destruct (add_indicator_frames g j) as (-> & _). split; [exact Sg|]. split; [|auto]. destruct (String.eqb _ _); [discriminate|auto].
    - intros g g' tk s e mo Hb Hj Hc. exact (rsi_create mx q i p o (p * q) g g' tk s e mo Hmx eq_refl Hn Hi Hmo Hb Hj Hc).
    - intros g g' tk mo Hb Hj Hc. exact (rsi_add mx q i p o (p * q) g g' tk mo Hmx eq_refl Hn Hi Hmo Hb Hj Hc).
  Qed.

  (** C42 for any arithmetic *)
  Lemma rsi_hist u q ref mx i p o fs0 fs k iv : 2 <= mx -> 2 <= p * q -> in_kind i = KRSI p o -> in_mopen i = false ->
    fset_init u q ref mx = Ok fs0 -> fs_hist (only i) no_exn fs0 fs -> value_at fs (in_ref i) k = Some iv ->
    exists s lc v, valued_from fs (in_ref i) s /\ (s <= k)%nat /\ iv_data iv = DRSI (p * q) lc v /\
      if (S k - (s - 1) <=? Z.to_nat (p * q))%nat then v = None
      else exists x, v = Some x /\ build_rsi (p * q) (fchanges (window (S (Z.to_nat (p * q))) k (closes fs))) = Ok x.
  Proof.
    intros Hmx Hn Hi Hmo E0 Hh Hv. destruct (rsi_inv_hist u q ref mx i p o fs0 fs Hmx Hn Hi Hmo E0 Hh) as (B & R & s & Sg & _ & Hd).
    rewrite value_at_vals in Hv. destruct (vals (in_ref i) fs !! k) as [v|] eqn:Ek; [|discriminate]. subst v. destruct (Hd k iv Ek) as (lc & v & Ed & _ & Hok). exists s, lc, v.
    split; [now apply seg_valued|]. assert (s <= k)%nat as Hsk by (destruct Sg as [_ S2]; apply (S2 k _ Ek); discriminate). split; [auto|]. split; [auto|].
    pose proof (lookup_lt_Some _ _ _ Ek) as Hk. rewrite vals_length in Hk. unfold rsi_ok in Hok. rewrite tailn_length, dif_length in Hok by (rewrite closes_length; lia).
    destruct (Nat.leb_spec (S k - (s - 1)) (Z.to_nat (p * q))) as [Hle|Hgt].
    - destruct (Z.eqb_spec (Z.of_nat (Z.to_nat (p * q) `min` (S k - (s - 1) - 1))) (p * q)); [lia|auto].
    - destruct (Z.eqb_spec (Z.of_nat (Z.to_nat (p * q) `min` (S k - (s - 1) - 1))) (p * q)); [|lia].
      destruct Hok as (x & Ex & ->). exists x. split; [auto|]. rewrite <- Ex. f_equal. unfold tailn. rewrite dif_length by (rewrite closes_length; lia). unfold dif, window.
      rewrite <- fchanges_drop, drop_drop. f_equal. f_equal. lia.
  Qed.
End proofs.

(** ** Over exact arithmetic *)
From Coq Require Import Lqa.
From Verif Require Import StrategyProofs NumQProofs.
Open Scope Q_scope.

Lemma mean_cent (l : list Q) p : (length l = p)%nat -> (1 <= p)%nat ->
  round_cent (mean l) (round2 (fdiv (fsum l) (fofZ (Z.of_nat p)))).
Proof.
  intros <- Hp. rewrite qr2. eapply round_cent_proper; [|reflexivity|apply round_cent_Qround2]. unfold mean.
  rewrite sum_of_Qsum. transitivity (fsum l / fofZ (Z.of_nat (length l))); [apply qdiv|]. unfold Qdiv. apply Qmult_comp; [apply qsum|reflexivity].
Qed.

Lemma sums_changes (l : list Q) : gains (fchanges l) == gains (changes l) /\ losses (fchanges l) == losses (changes l).
Proof.
  induction l as [|a l [IH1 IH2]]; [split; reflexivity|]. destruct l as [|b l]; [split; reflexivity|].
  unfold gains, losses in *. rewrite fchanges_cons2. change (changes (a :: b :: l)) with ((b - a) :: changes (b :: l)). cbn [map sum_of]. rewrite IH1, IH2.
  assert (fsub b a == b - a) as -> by apply qsub. split; reflexivity.
Qed.

Lemma round_cent_bounds x y a b : round_cent x y -> (a # 100) <= x <= (b # 100) -> (a # 100) <= y <= (b # 100).
Proof.
  intros (z & Ey & Hd & _) [H1 H2]. apply Qabs_Qle_condition in Hd. destruct Hd as [D1 D2]. rewrite Ey in *.
  assert (- (1 # 2) <= inject_Z z - inject_Z a /\ - (1 # 2) <= inject_Z b - inject_Z z) as [Z1 Z2].
  { assert (forall c : Z, (c # 100) == inject_Z c * (1 # 100)) as Hc by (intros c; unfold Qeq; cbn; lia). pose proof (Hc a) as Ha. pose proof (Hc b) as Hb. pose proof (Hc z) as Hz. clear Hc Ey y.
    generalize dependent (a # 100). generalize dependent (b # 100). generalize dependent (z # 100). intros. split; lra. }
  assert (forall u v : Z, - (1 # 2) <= inject_Z u - inject_Z v -> (v <= u)%Z) as Hi.
  { intros u v Huv. unfold Qle, inject_Z, Qminus, Qplus, Qopp in Huv. cbn in Huv. lia. }
  apply Hi in Z1, Z2. unfold Qle. cbn. lia.
Qed.

Lemma rsi_pos (ps ns : Q) n g l : (1 <= n)%Z -> ps == g -> ns == - l -> 0 < g -> 0 < l ->
  exists x, (let! pa := @fdivr Q NumQ ps (fofZ n) in
      let! na := fdivr ns (fofZ n) in
      let! rs := fdivr pa (fabs na) in
      let! d := fdivr (fofZ 100) (fadd (fofZ 1) rs) in
      Ok (round2 (fsub (fofZ 100) d))) = Ok x /\ round_cent (100 - 100 / (1 + g / l)) x /\ 0 <= 100 - 100 / (1 + g / l) <= 100.
Proof.
  intros Hn Hp Hq Hg Hl. assert (~ inject_Z n == 0) as Hn0 by (intros E; unfold Qeq in E; cbn in E; lia).
  assert (0 < inject_Z n) as Hnp by (unfold Qlt; cbn; lia).
  assert (@feqb Q NumQ (fofZ n) f0 = false) as En by (apply qeqb_false; rewrite qf0, qofZ; exact Hn0).
  unfold fdivr at 1 2. rewrite En. cbn [rbind].
  assert (fdiv ps (fofZ n) == g / inject_Z n) as E1 by (rewrite qdiv, qofZ, Hp; reflexivity).
  assert (0 < g / inject_Z n /\ 0 < l / inject_Z n) as [Gp Lp].
  { split; unfold Qdiv; apply Qmult_lt_0_compat; auto; now apply Qinv_lt_0_compat. }
  assert (fabs (fdiv ns (fofZ n)) == l / inject_Z n) as E2.
  { rewrite qabs, qdiv, qofZ, Hq. setoid_replace (- l / inject_Z n) with (- (l / inject_Z n)) by (field; auto). rewrite Qabs_opp. apply Qabs_pos. lra. }
  generalize dependent (@fdiv Q NumQ ps (fofZ n)). intros pa E1. generalize dependent (@fabs Q NumQ (fdiv ns (fofZ n))). intros na E2.
  unfold fdivr at 1. assert (feqb na f0 = false) as -> by (apply qeqb_false; rewrite qf0, E2; lra). cbn [rbind].
  assert (fdiv pa na == g / l) as E3.
  { rewrite qdiv, E1, E2. field. split; [lra|auto]. }
  assert (0 < g / l) as Hgl by (unfold Qdiv; apply Qmult_lt_0_compat; auto; now apply Qinv_lt_0_compat).
  generalize dependent (fdiv pa na). intros rs E3.
  assert (fadd (fofZ 1) rs == 1 + g / l) as E4 by (rewrite qadd, qofZ, E3; reflexivity).
  generalize dependent (fadd (fofZ 1) rs). intros d E4. unfold fdivr. assert (feqb d f0 = false) as -> by (apply qeqb_false; rewrite qf0, E4; lra). cbn [rbind].
  exists (round2 (fsub (fofZ 100) (fdiv (fofZ 100) d))). split; [reflexivity|]. split.
  - rewrite qr2. eapply round_cent_proper; [|reflexivity|apply round_cent_Qround2]. rewrite qsub, qdiv, qofZ, E4. reflexivity.
  - assert (100 / (1 + g / l) * (1 + g / l) == 100) as Hm by (field; lra). set (w := 100 / (1 + g / l)) in *. set (r := g / l) in *.
    assert (0 < w) as Hw by (unfold w, Qdiv; apply Qmult_lt_0_compat; [lra|apply Qinv_lt_0_compat; lra]).
    assert (0 <= w * r) by (apply Qmult_le_0_compat; lra). lra.
Qed.
Lemma rsi_Q (cl : list Q) n x : (1 <= n)%Z -> build_rsi n (fchanges cl) = Ok x -> rsi_of cl x /\ 0 <= x <= 100.
Proof.
  intros Hn. unfold build_rsi, rsi_of. pose proof (build_sums_spec (fchanges cl)) as Hb. destruct (build_sums (fchanges cl)) as [ps ns]. destruct Hb as [Hp Hq].
  destruct (sums_changes cl) as [Sg Sl]. rewrite Sg in Hp. rewrite Sl in Hq. pose proof (gains_nonneg (changes cl)) as G0. pose proof (losses_nonneg (changes cl)) as L0.
  generalize dependent (gains (changes cl)). generalize dependent (losses (changes cl)). intros l Sl Hq L0 g Sg Hp G0.
  destruct (feqb ns f0) eqn:E0.
  - apply qeqb in E0. rewrite qf0 in E0. assert (l == 0) as Hl by lra. intros Hx. assert (x = fofZ 100) as -> by congruence. rewrite qofZ. change (inject_Z 100) with (100 : Q).
    split; [|lra]. split; [intros; lra|]. split; intros; lra.
  - apply qeqb_false in E0. rewrite qf0 in E0. assert (0 < l) as Hl by lra. destruct (feqb ps f0) eqn:E1.
    + apply qeqb in E1. rewrite qf0 in E1. intros Hx. assert (x = fofZ 0) as -> by congruence. rewrite qofZ. change (inject_Z 0) with (0 : Q).
      split; [|lra]. split; [intros; lra|]. split; intros; lra.
    + apply qeqb_false in E1. rewrite qf0 in E1. assert (0 < g) as Hg by lra. destruct (rsi_pos ps ns n g l Hn Sg Sl Hg Hl) as (y & Ey & Hr & Hb). rewrite Ey. intros Hx.
      assert (x = y) as -> by congruence. split; [split; [intros; lra|]; split; [intros; lra|auto]|].
      pose proof (round_cent_bounds _ y 0 10000 Hr) as Hbb. assert ((10000 # 100) == 100) as E100 by reflexivity. assert ((0 # 100) == 0) as E00 by reflexivity. rewrite E100, E00 in Hbb. auto.
Qed.

(** C41 *)
Lemma sma_hist_Q u q ref mx i mp (T : tick Q -> res unit -> Prop) fs0 fs k f iv p : (1 <= mx)%Z -> in_kind i = KSMA mp -> in_mopen i = false ->
  fset_init u q ref mx = Ok fs0 -> fs_hist (only i) T fs0 fs -> fs_heap fs !! k = Some f -> value_at fs (in_ref i) k = Some iv -> (1 <= p <= mp)%Z ->
  exists s lc, valued_from fs (in_ref i) s /\ (s <= k)%nat /\ iv_data iv = DSMA lc /\
    if (Z.of_nat (S k - s) <? p)%Z then sma_value f lc p = Ok None
    else exists v, sma_value f lc p = Ok (Some v) /\ round_cent (mean (window (Z.to_nat p) k (closes fs))) v.
Proof.
  intros Hmx Hi Hmo E0 Hh Ef Hv Hp. assert (@feqb Q NumQ (fofZ p) f0 = false) as Hz by (apply qeqb_false; rewrite qf0, qofZ; unfold Qeq; cbn; lia).
  destruct (sma_hist u q ref mx i mp T fs0 fs k f iv p Hmx Hi Hmo E0 Hh Ef Hv Hp Hz) as (s & lc & H1 & H2 & H3 & H4). exists s, lc. split; [auto|]. split; [auto|]. split; [auto|].
  destruct (Z.ltb_spec (Z.of_nat (S k - s)) p) as [|Hge]; [auto|]. eexists. split; [exact H4|]. pose proof (lookup_lt_Some _ _ _ Ef) as Hk.
  replace (fofZ p) with (@fofZ Q NumQ (Z.of_nat (Z.to_nat p))) by (f_equal; lia). apply mean_cent; [|lia].
  unfold window. rewrite drop_length, take_length, closes_length. lia.
Qed.
(** C42 *)
Lemma rsi_hist_Q u q ref mx i p o (fs0 fs : fset Q) k iv : (2 <= mx)%Z -> (2 <= p * q)%Z -> in_kind i = KRSI p o -> in_mopen i = false ->
  fset_init u q ref mx = Ok fs0 -> fs_hist (only i) no_exn fs0 fs -> value_at fs (in_ref i) k = Some iv ->
  exists s lc v, valued_from fs (in_ref i) s /\ (s <= k)%nat /\ iv_data iv = DRSI (p * q) lc v /\
    if (S k - (s - 1) <=? Z.to_nat (p * q))%nat then v = None
    else exists x, v = Some x /\ rsi_of (window (S (Z.to_nat (p * q))) k (closes fs)) x /\ 0 <= x <= 100.
Proof.
  intros Hmx Hn Hi Hmo E0 Hh Hv. destruct (rsi_hist u q ref mx i p o fs0 fs k iv Hmx Hn Hi Hmo E0 Hh Hv) as (s & lc & v & H1 & H2 & H3 & H4). exists s, lc, v.
  split; [auto|]. split; [auto|]. split; [auto|]. destruct (Nat.leb _ _); [auto|]. destruct H4 as (x & -> & Hx). exists x. split; [auto|]. apply (rsi_Q _ (p * q)); [lia|auto].
Qed.
