(** Moving averages and relative strength (C41, C42). *)
From Verif Require Export CandleProofs.
From Verif Require Import FramesProofs.
Open Scope Z_scope.

(** ** Lists *)
Definition tailn {A} (n : nat) (l : list A) : list A := drop (length l - n) l.
Lemma tailn_length {A} n (l : list A) : length (tailn n l) = Nat.min n (length l).
Proof. unfold tailn. rewrite drop_length. lia. Qed.
Lemma tailn_snoc {A} n (l : list A) x : tailn (S n) (l ++ [x]) = tailn n l ++ [x].
Proof.
  unfold tailn. rewrite app_length. simpl. replace (length l + 1 - S n)%nat with (length l - n)%nat by lia. rewrite drop_app_le by lia. reflexivity.
Qed.
Lemma tailn_tailn {A} n m (l : list A) : (n <= m)%nat -> tailn n (tailn m l) = tailn n l.
Proof. intros Hle. unfold tailn. rewrite drop_drop, drop_length. f_equal. lia. Qed.
Lemma slice_tailn {A} (l : list A) z : 0 < z -> py_slice_from l (- z) = tailn (Z.to_nat z) l.
Proof. intros Hz. unfold py_slice_from, tailn. destruct (Z.ltb_spec (- z) 0); [|lia]. f_equal. lia. Qed.
Lemma take_snoc_lookup {A} (l : list A) k x : l !! k = Some x -> take (S k) l = take k l ++ [x].
Proof. intros E. apply take_S_r. exact E. Qed.

Section proofs.
  Context {F : Type} `{Num F}.
  Implicit Types (fs : fset F) (f fr : frame F) (i : indicator F) (iv : ivalue F).

  Lemma closes_lookup fs k f : fs_heap fs !! k = Some f -> closes fs !! k = Some (tk_value (fr_last f)).
  Proof. intros E. unfold closes. change (map (fun f => tk_value (fr_last f)) (fs_heap fs)) with ((fun f => tk_value (fr_last f)) <$> fs_heap fs). now rewrite list_lookup_fmap, E. Qed.
  Lemma create_closes fs tk s e mo fs' : 1 <= fs_max fs -> wf fs -> create_new_frame fs tk s e mo = (fs', Ok ()) -> closes fs' = closes fs ++ [tk_value tk].
  Proof. intros Hm W E. rewrite !closes_lasts, (create_lasts _ _ _ _ _ _ Hm W E), map_app. reflexivity. Qed.
  Lemma add_closes fs tk mo fs' r n : 1 <= fs_max fs -> wf fs -> length (fs_heap fs) = S n -> add_tick_to_last fs tk mo = (fs', r) -> closes fs' = take n (closes fs) ++ [tk_value tk].
  Proof. intros Hm W En E. pose proof (add_lasts _ _ _ _ _ Hm W E) as El. rewrite En in El. rewrite !closes_lasts, El, map_app, firstn_map. reflexivity. Qed.

  (** ** Values of an indicator listening to everything form a final segment of the frames *)
  Definition seg fs (ref : string) (s : nat) : Prop :=
    (s <= length (fs_heap fs))%nat /\ forall k v, vals ref fs !! k = Some v -> (v <> None <-> (s <= k)%nat).
  Lemma seg_valued fs ref s : seg fs ref s -> valued_from fs ref s.
  Proof.
    intros [H1 H2] j. rewrite value_at_vals. destruct (vals ref fs !! j) as [v|] eqn:E.
    - rewrite (H2 j v E). apply lookup_lt_Some in E. rewrite vals_length in E. lia.
    - apply lookup_ge_None in E. rewrite vals_length in E. split; [congruence|lia].
  Qed.
  Lemma seg_create fs fs' ref s v : seg fs ref s -> vals ref fs' = vals ref fs ++ [v] ->
    (v = None -> s = length (fs_heap fs)) -> seg fs' ref (match v with Some _ => s | None => length (fs_heap fs') end).
  Proof.
    intros [S1 S2] Ev Hv. assert (length (fs_heap fs') = S (length (fs_heap fs))) as El by (rewrite <- (vals_length ref), Ev, app_length, vals_length; simpl; lia).
    split; [destruct v; lia|]. intros k v' Hk. rewrite Ev in Hk. destruct (Nat.lt_ge_cases k (length (fs_heap fs))) as [Hlt|Hge].
    - rewrite lookup_app_l in Hk by (rewrite vals_length; lia). rewrite (S2 k v' Hk). destruct v; [lia|]. specialize (Hv eq_refl). lia.
    - rewrite lookup_app_r in Hk by (rewrite vals_length; lia). apply list_lookup_singleton_Some in Hk as [Hk <-]. rewrite vals_length in Hk.
      destruct v; (split; intros HH; [try lia|]); try congruence; try lia.
  Qed.
  Lemma seg_add fs fs' ref s n v v' : seg fs ref s -> length (fs_heap fs) = S n -> vals ref fs !! n = Some v -> vals ref fs' = take n (vals ref fs) ++ [v'] ->
    (v' = None -> v = None) -> seg fs' ref (match v, v' with None, Some _ => n | _, _ => s end).
  Proof.
    intros [S1 S2] En Hv Ev Hv'. assert (length (fs_heap fs') = S n) as El by (rewrite <- (vals_length ref), Ev, app_length, take_length, vals_length; simpl; lia).
    pose proof (S2 n v Hv) as Sn. split; [destruct v, v'; lia|]. intros k v0 Hk. rewrite Ev in Hk. destruct (Nat.lt_ge_cases k n) as [Hlt|Hge].
    - rewrite lookup_app_l in Hk by (rewrite take_length, vals_length; lia). rewrite lookup_take in Hk by lia. rewrite (S2 k v0 Hk). destruct v as [iv|], v'; try tauto.
      assert (~ (s <= n)%nat) by (intros Hs; apply Sn in Hs; congruence). lia.
    - rewrite lookup_app_r in Hk by (rewrite take_length, vals_length; lia). apply list_lookup_singleton_Some in Hk as [Hk <-]. rewrite take_length, vals_length in Hk.
      assert (k = n) as -> by lia. destruct v as [iv|], v' as [iv'|]; [|specialize (Hv' eq_refl); discriminate| |exact Sn].
      + split; [intros _; apply Sn; congruence|congruence].
      + split; [lia|congruence].
  Qed.
  Lemma seg_previous fs ref s k r : wf fs -> 1 <= fs_max fs -> seg fs ref s -> (k <= length (fs_heap fs))%nat ->
    previous_value fs ref k r ->
    ((k <= s)%nat -> r = None) /\
    ((s < k)%nat -> (length (fs_heap fs) - length (fs_frames fs) < k)%nat -> exists iv, r = Some ((k - 1)%nat, iv) /\ value_at fs ref (k - 1) = Some iv).
  Proof.
    intros W Hm Hs Hk Hp. pose proof (seg_valued _ _ _ Hs) as Hv. split.
    - intros Hle. destruct r as [[j iv]|]; [|auto]. destruct Hp as (P1 & P2 & _). assert (value_at fs ref j <> None) as Hn by congruence. apply Hv in Hn. lia.
    - intros Hlt Hold. destruct r as [[j iv]|].
      + destruct Hp as (P1 & P2 & P3). destruct (Nat.eq_dec j (k - 1)%nat) as [->|Hne]; [eauto|].
        assert (value_at fs ref (k - 1) <> None) as Hn by (apply Hv; lia). rewrite P3 in Hn by lia. congruence.
      + assert (value_at fs ref (k - 1) <> None) as Hn by (apply Hv; lia). rewrite Hp in Hn by lia. congruence.
  Qed.

  (** A registered indicator listening to everything always gets a value. *)
  Lemma build_some h fr j mo v : in_mopen j = false -> build_value h fr j mo = Ok v ->
    exists d, build_data h fr j = Ok d /\ v = Some {| iv_ref := in_ref j; iv_mopen := false; iv_first := fr_last fr; iv_high := fr_last fr; iv_low := fr_last fr; iv_last := fr_last fr; iv_data := d |}.
  Proof.
    intros Em. unfold build_value. rewrite Em. cbn [negb orb]. destruct (build_data h fr j) as [d|]; [|discriminate]. cbn [rbind]. intros [= <-]. eauto.
  Qed.

  (** ** Simple moving average *)
  Definition sma_win (mp : Z) (cl lc : list F) : Prop := exists d, (d <= length cl)%nat /\ lc = drop d cl /\ (d = 0%nat \/ mp - 1 <= Z.of_nat (length lc)).
  Lemma sma_win_nil mp : sma_win mp [] [].
  Proof. exists 0%nat. auto. Qed.
  Lemma sma_win_snoc mp cl lc c : 1 <= mp -> sma_win mp cl lc -> sma_win mp (cl ++ [c]) (py_slice_from (lc ++ [c]) ((mp - 1) * -1)).
  Proof.
    intros Hmp (d & D1 & -> & D2). assert (drop d cl ++ [c] = drop d (cl ++ [c])) as -> by (rewrite drop_app_le by lia; reflexivity).
    unfold sma_win. destruct (Z.eq_dec mp 1) as [->|Hne].
    - exists d. rewrite app_length. simpl. split; [lia|]. split; [reflexivity|]. right. lia.
    - replace ((mp - 1) * -1) with (- (mp - 1)) by lia. rewrite slice_tailn by lia. unfold tailn. rewrite drop_drop.
      exists (d + (length (drop d (cl ++ [c])) - Z.to_nat (mp - 1)))%nat. rewrite !drop_length, !app_length in *. simpl. split; [lia|]. split; [auto|]. lia.
  Qed.
  Lemma sma_window mp cl lc c p k (all : list F) s : (s <= k)%nat -> cl = drop s (take k all) -> all !! k = Some c -> sma_win mp cl lc -> 1 <= p <= mp ->
    let ext := lc ++ [c] in
    if Z.of_nat (S k - s) <? p then Z.of_nat (length ext) < p
    else p <= Z.of_nat (length ext) /\ py_slice_from ext (- p) = window (Z.to_nat p) k all.
  Proof.
    intros Hs -> Ek (d & D1 & -> & D2) Hp ext. pose proof (lookup_lt_Some _ _ _ Ek) as Hk. assert (length (drop s (take k all)) = (k - s)%nat) as Hl by (rewrite drop_length, take_length; lia).
    assert (ext = drop (s + d) (take (S k) all)) as Ee.
    { unfold ext. rewrite drop_drop, (take_S_r all k c Ek), drop_app_le; [reflexivity|]. rewrite take_length. lia. }
    assert (length ext = (S k - s - d)%nat) as Hle by (rewrite Ee, drop_length, take_length; lia). rewrite drop_length, Hl in D2.
    destruct (Z.ltb_spec (Z.of_nat (S k - s)) p) as [Hlt|Hge]; [lia|]. split; [lia|].
    rewrite slice_tailn by lia. unfold tailn. rewrite Hle, Ee, drop_drop. unfold window. f_equal. lia.
  Qed.

  Definition sma_inv (q : Z) i (mp : Z) fs : Prop :=
    registered q i fs /\ exists s, seg fs (in_ref i) s /\ (dict_get (fs_inds fs) (in_ref i) = None -> s = length (fs_heap fs)) /\
      forall k iv, vals (in_ref i) fs !! k = Some (Some iv) -> exists lc, iv_data iv = DSMA lc /\ sma_win mp (drop s (take k (closes fs))) lc.
  Lemma reg_sma q i mp : in_kind i = KSMA mp -> reg q i = i.
  Proof. intros E. unfold reg. now rewrite E. Qed.
  Lemma sma_create mx q i mp fs fs' tk s0 e mo : 1 <= mx -> 1 <= mp -> in_kind i = KSMA mp -> in_mopen i = false -> base mx q fs -> sma_inv q i mp fs ->
    create_new_frame fs tk s0 e mo = (fs', Ok ()) -> sma_inv q i mp fs'.
  Proof.
    intros Hmx Hmp Hi Hmo (W & M & _ & O) (R & s & Sg & Hun & Hd) E. assert (1 <= fs_max fs) as Hm by lia.
    destruct (create_vals _ _ _ _ _ _ (in_ref i) Hm W O E) as (v & Ev & Hv). pose proof (create_closes _ _ _ _ _ _ Hm W E) as Ec. pose proof (create_inds _ _ _ _ _ _ _ E) as Ei.
    assert (length (fs_heap fs') = S (length (fs_heap fs))) as El by (rewrite <- (closes_length fs'), Ec, app_length, closes_length; simpl; lia).
    split; [unfold registered; now rewrite Ei|]. set (n := length (fs_heap fs)) in *.
    assert (forall s', (s' <= n)%nat -> forall k, (k <= n)%nat -> drop s' (take k (closes fs')) = drop s' (take k (closes fs))) as Hsame.
    { intros s' _ k Hk. rewrite Ec, take_app_le; [auto|]. rewrite closes_length. exact Hk. }
    destruct R as [R|R]; rewrite R in Hv.
    - subst v. exists (S n). split; [rewrite <- El; apply (seg_create fs fs' (in_ref i) s None Sg Ev); auto|]. rewrite Ei. split; [auto|].
      intros k iv Hk. rewrite Ev in Hk. apply lookup_app_Some in Hk as [Hk|[_ Hk]]; [|apply list_lookup_singleton_Some in Hk as [_ Hk]; discriminate].
      pose proof (lookup_lt_Some _ _ _ Hk) as Hlt. rewrite vals_length in Hlt. fold n in Hlt. destruct Sg as [_ S2]. assert (Some iv <> None) as Hsi by discriminate. apply (S2 k _ Hk) in Hsi. specialize (Hun R). lia.
    - rewrite (reg_sma q i mp Hi) in Hv. destruct (build_some _ _ _ _ _ Hmo Hv) as (d & Ed & ->). exists s. split; [apply (seg_create fs fs' (in_ref i) s _ Sg Ev); discriminate|].
      rewrite Ei. split; [congruence|]. destruct Sg as [S1 S2]. intros k iv Hk. rewrite Ev in Hk. apply lookup_app_Some in Hk as [Hk|[Hge Hk]].
      + pose proof (lookup_lt_Some _ _ _ Hk) as Hlt. rewrite vals_length in Hlt. rewrite Hsame by (fold n in Hlt; lia). eauto.
      + rewrite vals_length in Hge, Hk. apply list_lookup_singleton_Some in Hk as [Hk [= <-]]. assert (k = n) as -> by (fold n in Hge, Hk; lia). cbn [iv_data].
        unfold build_data in Ed. rewrite Hi in Ed. destruct (previous_new fs (in_ref i) tk s0 e Hm W) as (r & Ep & Hp). rewrite Ep in Ed. cbn [rbind] in Ed.
        rewrite Hsame by lia. destruct (seg_previous fs (in_ref i) s n r W Hm (conj S1 S2) ltac:(lia) Hp) as [Q1 Q2].
        destruct (Nat.eq_dec s n) as [->|Hne].
        * rewrite (Q1 ltac:(lia)) in Ed. cbn [rbind] in Ed. injection Ed as <-. eexists. split; [reflexivity|].
          rewrite drop_ge by (rewrite take_length; lia). assert (@py_slice_from F [] ((mp - 1) * -1) = []) as -> by (unfold py_slice_from; destruct (_ <? 0); apply drop_nil). apply sma_win_nil.
        * fold n in S1. destruct (Q2 ltac:(lia)) as (piv & -> & Hpv).
          { destruct W as [_ Wl]. fold n in Wl |- *. lia. }
          rewrite value_at_vals in Hpv. destruct (vals (in_ref i) fs !! (n - 1)%nat) as [v|] eqn:Epv; [|discriminate]. subst v.
          destruct (Hd _ _ Epv) as (plc & Epd & Hw). rewrite Epd in Ed. destruct (lookup_lt_is_Some_2 (fs_heap fs) (n - 1)%nat ltac:(fold n; lia)) as [pf Epf]. rewrite Epf in Ed. cbn [rbind] in Ed.
          injection Ed as <-. eexists. split; [reflexivity|]. unfold extended_closes. apply (sma_win_snoc mp _ _ (tk_value (fr_last pf)) Hmp) in Hw.
          replace (drop s (take n (closes fs))) with (drop s (take (n - 1) (closes fs)) ++ [tk_value (fr_last pf)]); [exact Hw|].
          replace n with (S (n - 1)) at 2 by lia. rewrite (take_S_r (closes fs) (n - 1) _ (closes_lookup _ _ _ Epf)), drop_app_le; [auto|]. rewrite take_length, closes_length. fold n. lia.
  Qed.
  Lemma sma_add mx q i mp fs fs' tk mo r : 1 <= mx -> 1 <= mp -> in_kind i = KSMA mp -> in_mopen i = false -> base mx q fs -> sma_inv q i mp fs ->
    add_tick_to_last fs tk mo = (fs', r) -> sma_inv q i mp fs'.
  Proof.
    intros Hmx Hmp Hi Hmo (W & M & _ & O) (R & s & Sg & Hun & Hd) E. assert (1 <= fs_max fs) as Hm by lia.
    pose proof (add_vals _ _ _ _ _ (in_ref i) Hm W O E) as Hv. pose proof (add_inds _ _ _ _ _ E) as Ei.
    destruct (length (fs_heap fs)) as [|n] eqn:En; [subst fs'; split; [auto|]; exists s; rewrite En; auto|].
    destruct Hv as (cur & v & v' & Ecur & Esl & Evs & Hv). pose proof (add_closes _ _ _ _ _ _ Hm W En E) as Ec.
    assert (vals (in_ref i) fs !! n = Some v) as Hn by (unfold vals; rewrite list_lookup_fmap, Ecur; simpl; congruence).
    assert (length (fs_heap fs') = S n) as El by (rewrite <- (vals_length (in_ref i)), Evs, app_length, take_length, vals_length; simpl; lia).
    split; [unfold registered; now rewrite Ei|].
    assert (forall s' k, (k <= n)%nat -> drop s' (take k (closes fs')) = drop s' (take k (closes fs))) as Hsame.
    { intros s' k Hk. rewrite Ec, take_app_le by (rewrite take_length, closes_length; lia). rewrite take_take. f_equal. f_equal. lia. }
    assert (forall s', (s' <= s)%nat -> (forall k iv, vals (in_ref i) fs !! k = Some (Some iv) -> (k < n)%nat -> False) \/ s' = s ->
       forall k iv, (k < n)%nat -> vals (in_ref i) fs' !! k = Some (Some iv) -> exists lc, iv_data iv = DSMA lc /\ sma_win mp (drop s' (take k (closes fs'))) lc) as Hold.
    { intros s' Hle Hor k iv Hk Hkv. rewrite Evs, lookup_app_l in Hkv by (rewrite take_length, vals_length; lia). rewrite lookup_take in Hkv by auto.
      destruct Hor as [Hor| ->]; [exfalso; eauto|]. rewrite Hsame by lia. eauto. }
    assert (v' = None -> v = None) as Hvn.
    { intros ->. destruct R as [R|R]; rewrite R in Hv; [congruence|]. destruct Hv as [Hv|[Hv _]]; [|congruence]. destruct v; [|auto]. destruct Hv as (x & _ & [=]). }
    pose proof (seg_add fs fs' (in_ref i) s n v v' Sg En Hn Evs Hvn) as Sg'. pose proof Sg as [S1 S2].
    exists (match v, v' with None, Some _ => n | _, _ => s end). split; [exact Sg'|]. rewrite Ei, El. split.
    { intros Ru. specialize (Hun Ru). rewrite Ru in Hv. subst v'. destruct v; lia. }
    assert (forall iv, vals (in_ref i) fs' !! n = Some (Some iv) -> v' = Some iv) as Hlast.
    { intros iv Hk. rewrite Evs, lookup_app_r in Hk by (rewrite take_length, vals_length; lia). apply list_lookup_singleton_Some in Hk as [_ Hk]. auto. }
    intros k iv Hk. pose proof (lookup_lt_Some _ _ _ Hk) as Hlt. rewrite vals_length, El in Hlt.
    destruct (Nat.eq_dec k n) as [->|Hne].
    - pose proof (Hlast _ Hk) as Ev'. subst v'. rewrite Hsame by lia. destruct R as [R|R]; rewrite R in Hv.
      + rewrite <- Hv in Hn |- *. exact (Hd n iv Hn).
      + rewrite (reg_sma q i mp Hi) in Hv. destruct Hv as [Hv|[Hv _]]; [|rewrite <- Hv in Hn |- *; exact (Hd n iv Hn)]. destruct v as [ivo|]; cbn [step_val] in Hv.
        * destruct Hv as (iv' & Et & [= <-]). destruct (Hd _ _ Hn) as (lc & Ed & Hw). exists lc. split; [|auto]. unfold iv_on_new_tick in Et.
          destruct (base_tick_kind ivo tk mo) as (_ & _ & B3). rewrite B3, Ed in Et. injection Et as <-. congruence.
        * destruct (build_some _ _ _ _ _ Hmo Hv) as (d & Ed & [= ->]). cbn [iv_data]. unfold build_data in Ed. rewrite Hi in Ed.
          destruct (previous_at fs n cur (in_ref i) Hm W Ecur) as (r0 & Ep & Hp). change (previous (fs_heap fs) (frame_tick cur tk) (in_ref i)) with (previous (fs_heap fs) cur (in_ref i)) in Ed.
          rewrite Ep in Ed. cbn [rbind] in Ed. assert (n < s)%nat as Hns.
          { destruct (Nat.lt_ge_cases n s) as [|Hge]; [auto|]. apply (S2 n None Hn) in Hge. congruence. }
          destruct (seg_previous fs (in_ref i) s n r0 W Hm Sg ltac:(lia) Hp) as [Q1 _]. rewrite (Q1 ltac:(lia)) in Ed. cbn [rbind] in Ed. injection Ed as <-. eexists. split; [reflexivity|].
          rewrite drop_ge by (rewrite take_length; lia). assert (@py_slice_from F [] ((mp - 1) * -1) = []) as -> by (unfold py_slice_from; destruct (_ <? 0); apply drop_nil). apply sma_win_nil.
    - assert (k < n)%nat as Hkn by lia. destruct v as [ivo|], v' as [ivn|]; try (apply (Hold s); auto; fail).
      assert (n < s)%nat as Hns by (destruct (Nat.lt_ge_cases n s) as [|Hge]; [auto|apply (S2 n None Hn) in Hge; congruence]).
      apply (Hold n) with (k := k); [lia| |auto|auto]. left. intros k0 iv0 Hk0 Hlt0. assert (Some iv0 <> None) as Hsi by discriminate. apply (S2 k0 _ Hk0) in Hsi. lia.
  Qed.
  Lemma sma_inv_hist u q ref mx i mp (T : tick F -> res unit -> Prop) fs0 fs : 1 <= mx -> 1 <= mp -> in_kind i = KSMA mp -> in_mopen i = false ->
    fset_init u q ref mx = Ok fs0 -> fs_hist (only i) T fs0 fs -> base mx q fs /\ sma_inv q i mp fs.
  Proof.
    intros Hmx Hmp Hi Hmo E0 Hh. pose proof (fset_init_wf _ _ _ _ _ E0) as (_ & Hn & _).
    apply (hist_invariant (only i) T mx q (sma_inv q i mp) fs0 fs); auto.
    - now apply base_init in E0.
    - split; [left; now rewrite (init_inds _ _ _ _ _ E0)|]. exists 0%nat. split; [split; [lia|]|split].
      + intros k v Hk. unfold vals in Hk. rewrite Hn in Hk. discriminate.
      + rewrite Hn. auto.
      + intros k v Hk. unfold vals in Hk. rewrite Hn in Hk. discriminate.
    - intros g j (W & M & Q1 & _) (R & s & Sg & Hun & Hd) Ho. split; [now apply registered_ind|]. exists s. unfold seg. rewrite add_indicator_vals, add_indicator_closes, add_indicator_get.
      destruct (add_indicator_frames g j) as (-> & _). split; [exact Sg|]. split; [|auto]. destruct (String.eqb _ _); [discriminate|auto].
    - intros g g' tk r mo Hb Hj _ Hs. destruct Hs as [g cur s e g' Ec E|g s e g' E|g g' rr E]; eauto using sma_create, sma_add.
  Qed.

  (** C41 for any arithmetic *)
  Lemma sma_hist u q ref mx i mp (T : tick F -> res unit -> Prop) fs0 fs k f iv p : 1 <= mx -> in_kind i = KSMA mp -> in_mopen i = false ->
    fset_init u q ref mx = Ok fs0 -> fs_hist (only i) T fs0 fs -> fs_heap fs !! k = Some f -> value_at fs (in_ref i) k = Some iv -> 1 <= p <= mp ->
    feqb (fofZ p) f0 = false ->
    exists s lc, valued_from fs (in_ref i) s /\ (s <= k)%nat /\ iv_data iv = DSMA lc /\
      sma_value f lc p = Ok (if Z.of_nat (S k - s) <? p then None else Some (round2 (fdiv (fsum (window (Z.to_nat p) k (closes fs))) (fofZ p)))).
  Proof.
    intros Hmx Hi Hmo E0 Hh Ef Hv Hp Hz. destruct (sma_inv_hist u q ref mx i mp T fs0 fs Hmx ltac:(lia) Hi Hmo E0 Hh) as (B & R & s & Sg & _ & Hd).
    rewrite value_at_vals in Hv. destruct (vals (in_ref i) fs !! k) as [v|] eqn:Ek; [|discriminate]. subst v. destruct (Hd k iv Ek) as (lc & Ed & Hw). exists s, lc.
    split; [now apply seg_valued|]. assert (s <= k)%nat as Hsk by (destruct Sg as [_ S2]; apply (S2 k _ Ek); discriminate). split; [auto|]. split; [auto|].
    pose proof (sma_window mp _ lc _ p k (closes fs) s Hsk eq_refl (closes_lookup _ _ _ Ef) Hw Hp) as Hx. cbn zeta in Hx. unfold sma_value, extended_closes.
    destruct (Z.of_nat (S k - s) <? p).
    - destruct (Z.ltb_spec (Z.of_nat (length (lc ++ [tk_value (fr_last f)]))) p); [auto|lia].
    - destruct Hx as [Hx1 Hx2]. destruct (Z.ltb_spec (Z.of_nat (length (lc ++ [tk_value (fr_last f)]))) p); [lia|]. rewrite Hx2. unfold fdivr. rewrite Hz. reflexivity.
  Qed.

  (** Frames created once the indicator is registered have a value. *)
  Lemma all_valued u q ref mx i (T : tick F -> res unit -> Prop) fs0 fs : 1 <= mx -> in_mopen i = false ->
    fset_init u q ref mx = Ok fs0 -> fs_hist (only i) T (fst (add_indicator fs0 i)) fs -> valued_from fs (in_ref i) 0.
  Proof.
    intros Hmx Hmo E0 Hh. pose proof (fset_init_wf _ _ _ _ _ E0) as (_ & Hn & _).
    assert (base mx q fs /\ (dict_get (fs_inds fs) (in_ref i) = Some (reg q i) /\ forall k v, vals (in_ref i) fs !! k = Some v -> v <> None)) as (B & _ & Hall).
    { assert (in_mopen (reg q i) = false) as Hmr by (unfold reg; destruct (in_kind i); auto).
      apply (hist_invariant (only i) T mx q (fun fs => dict_get (fs_inds fs) (in_ref i) = Some (reg q i) /\ forall k v, vals (in_ref i) fs !! k = Some v -> v <> None) (fst (add_indicator fs0 i)) fs); auto.
      - apply base_ind. now apply base_init in E0.
      - rewrite add_indicator_get, String.eqb_refl, add_indicator_vals. split; [|intros k v Hk; unfold vals in Hk; rewrite Hn in Hk; discriminate].
        pose proof (base_init _ _ _ _ _ E0) as (_ & _ & -> & _). auto.
      - intros g j (_ & _ & Q1 & _) [J1 J2] Ho. rewrite add_indicator_get, add_indicator_vals, Q1. split; [|auto]. destruct (String.eqb_spec (in_ref j) (in_ref i)) as [E|E]; [|auto]. now rewrite (Ho E).
      - intros g g' tk r mo (W & M & _ & O) [J1 J2] _ Hs. assert (1 <= fs_max g) as Hm by lia.
        assert (forall tk' s e, create_new_frame g tk' s e mo = (g', Ok ()) -> dict_get (fs_inds g') (in_ref i) = Some (reg q i) /\ forall k v, vals (in_ref i) g' !! k = Some v -> v <> None) as Hcr.
        { intros tk' s e E. rewrite (create_inds _ _ _ _ _ _ _ E). split; [auto|]. destruct (create_vals _ _ _ _ _ _ (in_ref i) Hm W O E) as (v0 & Ev & Hv0). rewrite J1 in Hv0.
          destruct (build_some _ _ _ _ _ Hmr Hv0) as (d & _ & ->). intros k v Hk. rewrite Ev in Hk. apply lookup_app_Some in Hk as [Hk|[_ Hk]]; [eauto|].
          apply list_lookup_singleton_Some in Hk as [_ <-]. discriminate. }
        destruct Hs as [g cur s e g' Ec E|g s e g' E|g g' rr E]; eauto. rewrite (add_inds _ _ _ _ _ E). split; [auto|].
        pose proof (add_vals _ _ _ _ _ (in_ref i) Hm W O E) as Hv. destruct (length (fs_heap g)) as [|n] eqn:En; [subst; auto|].
        destruct Hv as (cur & v & v' & Ecur & Esl & Evs & Hv). assert (v <> None) as Hvn by (apply (J2 n); unfold vals; rewrite list_lookup_fmap, Ecur; simpl; congruence).
        intros k v1 Hk. rewrite Evs in Hk. apply lookup_app_Some in Hk as [Hk|[_ Hk]]; [apply lookup_take_Some in Hk as [Hk _]; eauto|].
        apply list_lookup_singleton_Some in Hk as [_ <-]. rewrite J1 in Hv. destruct Hv as [Hv|[-> _]]; [|auto]. destruct v as [iv|]; [|congruence]. destruct Hv as (x & _ & ->). discriminate. }
    intros j. rewrite value_at_vals. destruct (vals (in_ref i) fs !! j) as [v|] eqn:Ej.
    - pose proof (lookup_lt_Some _ _ _ Ej) as Hl. rewrite vals_length in Hl. split; [lia|]. intros _. eauto.
    - apply lookup_ge_None in Ej. rewrite vals_length in Ej. split; [congruence|lia].
  Qed.
End proofs.
