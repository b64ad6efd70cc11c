(** Frame contents do not depend on the memory bound; coarse frames merge fine ones. *)
From Verif Require Import SpecTrade TimeframeProofs.
From Verif Require Export SpecNest FrameFinalProofs.
Open Scope Z_scope.

Section runs.
  Context {F : Type} `{Num F}.
  Implicit Types fs : fset F.
  Implicit Types bs : list (bar (F:=F)).

  Lemma gap_fun u q s bs b1 b2 : gap_bar u q s bs b1 -> gap_bar u q s bs b2 -> b1 = b2.
  Proof.
    intros (b & e & e' & E1 & E2 & _ & E3 & ->) (c & g & g' & G1 & G2 & _ & G3 & ->). rewrite E1 in G1. injection G1 as <-.
    rewrite E2 in G2. injection G2 as <-. rewrite E3 in G3. now injection G3 as <-.
  Qed.
  Lemma gaps_fun u q s bs b1 b2 : rtc (gap_bar u q s) bs b1 -> rtc (gap_bar u q s) bs b2 ->
    (forall b, last b1 = Some b -> exists e0, b_end b = Some e0 /\ arrow_ltb e0 s = false) ->
    (forall b, last b2 = Some b -> exists e0, b_end b = Some e0 /\ arrow_ltb e0 s = false) -> b1 = b2.
  Proof.
    intros R1. revert b2. induction R1 as [bs|bs c b1 H1 R1 IH]; intros b2 R2 N1 N2.
    - destruct (rtc_inv _ _ R2) as [<-|(y & Hg & _)]; [auto|]. exfalso. destruct Hg as (b & e & e' & E1 & E2 & E3 & _).
      destruct (N1 b E1) as (e0 & E4 & E5). rewrite E2 in E4. injection E4 as <-. congruence.
    - destruct (rtc_inv _ _ R2) as [<-|(y & Hg & R2')].
      + exfalso. destruct H1 as (b & e & e' & E1 & E2 & E3 & _). destruct (N2 b E1) as (e0 & E4 & E5). rewrite E2 in E4. injection E4 as <-. congruence.
      + pose proof (gap_fun _ _ _ _ _ _ H1 Hg) as <-. auto.
  Qed.
  Lemma timed_fun u q bs tk b1 b2 : timed_step u q bs tk b1 -> timed_step u q bs tk b2 -> b1 = b2.
  Proof.
    intros [(b & e & E1 & E2 & E3 & ->)|(s & e & c & N & S1 & S2 & R & N2 & ->)] [(b' & e' & G1 & G2 & G3 & ->)|(s' & e' & c' & N' & S1' & S2' & R' & N2' & ->)].
    - rewrite E1 in G1. now injection G1 as <-.
    - exfalso. destruct (N' b E1) as (e0 & X & Y). rewrite E2 in X. injection X as <-. congruence.
    - exfalso. destruct (N b' G1) as (e0 & X & Y). rewrite G2 in X. injection X as <-. congruence.
    - rewrite S1 in S1'. injection S1' as <-. rewrite S2 in S2'. injection S2' as <-. now rewrite (gaps_fun _ _ _ _ _ _ R R' N2 N2').
  Qed.
  Lemma runs_agree u q mx mx' ts fs fs' : 1 <= mx -> 1 <= mx' -> u <> TICK -> fs_run u q mx ts fs -> fs_run u q mx' ts fs' -> bars fs = bars fs'.
  Proof.
    intros Hm Hm' Hu. revert fs fs'. induction ts as [|tk ts IH] using rev_ind; intros fs fs' R R'.
    - apply fs_run_bars in R as [[_ ->]|(? & ? & ? & E & _)]; auto; [|destruct x; discriminate].
      apply fs_run_bars in R' as [[_ ->]|(? & ? & ? & E & _)]; auto. destruct x; discriminate.
    - apply fs_run_bars in R as [[E _]|(t1 & k1 & g1 & E & R1 & S1)]; auto; [destruct ts; discriminate|]. apply app_inj_2 in E as [<- [= <-]]; [|reflexivity].
      apply fs_run_bars in R' as [[E _]|(t2 & k2 & g2 & E & R2 & S2)]; auto; [destruct ts; discriminate|]. apply app_inj_2 in E as [<- [= <-]]; [|reflexivity].
      rewrite (IH g1 g2 R1 R2) in S1. eapply timed_fun; eauto.
  Qed.

  (** ** Tick-count frames *)
  Definition tick_step q bs tk := match last bs with
    | Some b => if q <=? b_nb b then bs ++ [bar_new tk (tk_dt tk) None] else take (length bs - 1) bs ++ [bar_tick b tk]
    | None => bs ++ [bar_new tk (tk_dt tk) None] end.
  Lemma tick_run q mx ts fs : 1 <= mx -> fs_run_epic TICK q mx ts fs ->
    wf fs /\ fs_max fs = mx /\ fs_unit fs = TICK /\ fs_q fs = q /\ bars fs = fold_left (tick_step q) ts [].
  Proof.
    intros Hmx Hr. induction Hr as [ref fs E|ts fs i Hr IH|ts fs e Hr IH|ts fs fuel tk mo fs' Hr IH E].
    - apply fset_init_wf in E as (E1 & E2 & E3 & E4 & E5 & _). repeat (split; [auto|]). unfold bars. now rewrite E2.
    - destruct (add_indicator_frames fs i) as (E1 & E2 & E4 & E5 & E3). unfold wf, bars in *. rewrite E1, E2, E3, E4, E5. exact IH.
    - exact IH.
    - destruct IH as (I1 & I2 & I3 & I4 & I5). assert (1 <= fs_max fs) as Hmx' by lia.
      pose proof (fs_tick_wf _ _ _ _ _ _ _ Hmx' I1 E) as [E1 (_ & E3 & E4 & E2 & _)].
      split; [auto|]. split; [congruence|]. split; [congruence|]. split; [congruence|].
      rewrite fold_left_app, <- I5. simpl. pose proof (current_bar fs Hmx' I1) as Hcb.
      unfold fs_on_new_tick in E. rewrite I3 in E. unfold is_frame_over_tick in E. rewrite Z.ltb_irrefl, I4 in E. unfold tick_step. rewrite Hcb.
      destruct (fs_current fs) as [cur|]; simpl.
      + rewrite orb_false_r in E. destruct (q <=? fr_nb cur) eqn:L.
        * apply create_spec in E as [[_ [x Ex]]|(_ & _ & _ & ->)]; auto. discriminate.
        * apply add_tick_spec in E as (_ & _ & ->); auto. now rewrite Hcb.
      + apply create_spec in E as [[_ [x Ex]]|(_ & _ & _ & ->)]; auto. discriminate.
  Qed.
  Lemma bars_content fs fs' : bars fs = bars fs' -> map content (fs_heap fs) = map content (fs_heap fs').
  Proof.
    unfold bars. set (c := fun b : bar (F:=F) => (b_start b, b_end b, b_first b, b_last b, b_high b, b_low b, b_nb b)).
    assert (forall l, map content l = map c (bar_of <$> l)) as A. { intros l. induction l as [|f l IH]; simpl; [auto|]. now f_equal. }
    intros E. rewrite !A. now f_equal.
  Qed.
  Lemma memory_timed u q mx mx' ts fs fs' : 1 <= mx -> 1 <= mx' -> u <> TICK -> fs_run u q mx ts fs -> fs_run u q mx' ts fs' ->
    map content (fs_heap fs) = map content (fs_heap fs').
  Proof. intros. apply bars_content. eapply runs_agree; [| | |eauto|eauto]; auto. Qed.
  Lemma memory_tick q mx mx' ts fs fs' : 1 <= mx -> 1 <= mx' -> fs_run_epic TICK q mx ts fs -> fs_run_epic TICK q mx' ts fs' ->
    map content (fs_heap fs) = map content (fs_heap fs').
  Proof. intros A B C D. apply bars_content. apply tick_run in C as (_ & _ & _ & _ & ->); auto. apply tick_run in D as (_ & _ & _ & _ & ->); auto. Qed.

  (** ** Splitting the ticks between contiguous frames *)
  Definition part ts (f : frame F) : list (tick F) := match fr_end f with Some e => ticks_in (ar_wall (fr_start f)) (ar_wall e) ts | None => [] end.
  Fixpoint chain (a : Z) (l : list (frame F)) (b : Z) : Prop :=
    match l with [] => a = b | f :: l' => ar_wall (fr_start f) = a /\ exists e, fr_end f = Some e /\ a <= ar_wall e /\ chain (ar_wall e) l' b end.
  Lemma chain_le a l b : chain a l b -> a <= b.
  Proof. revert a. induction l as [|f l IH]; intros a; simpl; [lia|]. intros (_ & e & _ & L & C). apply IH in C. lia. Qed.
  Lemma ticks_in_split ts a b c : StronglySorted (fun x y : tick F => tk_wall x <= tk_wall y) ts -> a <= b <= c ->
    ticks_in a c ts = ticks_in a b ts ++ ticks_in b c ts.
  Proof.
    intros Hs L. unfold ticks_in. induction Hs as [|t ts Hs IH Ht]; [reflexivity|]. rewrite !filter_cons. rewrite IH. clear IH.
    destruct (decide (a <= tk_wall t < c)), (decide (a <= tk_wall t < b)), (decide (b <= tk_wall t < c)); try lia; try reflexivity.
    rewrite Forall_forall in Ht. assert (filter (fun t => a <= tk_wall t < b) ts = []) as ->; [|reflexivity].
    destruct (filter _ ts) as [|x l] eqn:E; [auto|]. exfalso.
    assert (x ∈ filter (fun t => a <= tk_wall t < b) ts) as Hx by (rewrite E; set_solver). apply elem_of_list_filter in Hx as [Hx1 Hx2].
    apply Ht in Hx2. lia.
  Qed.
  Lemma ticks_in_nil (ts : list (tick F)) a : ticks_in a a ts = [].
  Proof. unfold ticks_in. induction ts as [|t ts IH]; [reflexivity|]. rewrite filter_cons. destruct (decide _); [lia|auto]. Qed.
  Lemma chain_parts ts a l b : StronglySorted (fun x y : tick F => tk_wall x <= tk_wall y) ts -> chain a l b -> ticks_in a b ts = concat (map (part ts) l).
  Proof.
    intros Hs. revert a. induction l as [|f l IH]; intros a; simpl.
    - intros ->. apply ticks_in_nil.
    - intros (E & e & E1 & L & C). pose proof (chain_le _ _ _ C). rewrite (ticks_in_split ts a (ar_wall e) b) by (auto; lia).
      rewrite (IH _ C). f_equal. unfold part. now rewrite E1, E.
  Qed.
  Lemma run_chain u q mx z ts fs : 1 <= mx -> u <> TICK -> 0 < q -> no_skip z -> fs_run u q mx ts fs -> in_order z ts ->
    ts = concat (map (part ts) (fs_heap fs)).
  Proof.
    intros Hmx Hu Hq Hz Hr Ho. pose proof (run_good _ _ _ _ _ Hmx Hu Hq Hr) as Hgd.
    destruct (decide (ts = [])) as [->|Hne]; [now rewrite (run_nil _ _ _ _ Hmx Hu Hr)|].
    destruct (BI_run z u q Hgd Hz mx ts fs Hmx Hr Ho Hne) as (k0 & [B1 B2 _ _] & _). destruct Ho as [_ Hs].
    assert (chain (bnd u q k0) (fs_heap fs) (bnd u q (k0 + Z.of_nat (length (fs_heap fs))))) as C.
    { assert (forall i f, fs_heap fs !! i = Some f -> ar_wall (fr_start f) = bnd u q (k0 + Z.of_nat i) /\ exists e, fr_end f = Some e /\ ar_wall e = bnd u q (k0 + Z.of_nat i + 1)) as A.
      { intros i f Hf. destruct (B1 _ _ (heap_bar _ _ _ Hf)) as (E2 & E1 & _). simpl in *. split; [rewrite E2; reflexivity|]. eexists. split; [exact E1|reflexivity]. }
      clear -A Hgd. revert k0 A. induction (fs_heap fs) as [|f l IH]; intros k A; simpl; [f_equal; lia|].
      destruct (A 0%nat f eq_refl) as (A1 & e & A2 & A3). rewrite Z.add_0_r in A1, A3. split; [auto|]. exists e. split; [auto|].
      rewrite A3. split; [apply bnd_mono_le; auto; lia|]. replace (k + Z.of_nat (S (length l))) with (k + 1 + Z.of_nat (length l)) by lia.
      apply IH. intros i g Hg. destruct (A (S i) g Hg) as (G1 & e' & G2 & G3). split; [rewrite G1; f_equal; lia|]. exists e'. split; [auto|]. rewrite G3. f_equal. lia. }
    rewrite <- (chain_parts ts _ _ _ Hs C). unfold bars in B2. rewrite fmap_length in B2. symmetry. unfold ticks_in. clear -B2.
    induction ts as [|t ts IH]; [reflexivity|]. rewrite filter_cons_True by (apply B2; set_solver). f_equal. apply IH. intros x Hx. apply B2. set_solver.
  Qed.

  (** ** Merging *)
  Lemma filter_concat (P : tick F -> Prop) {D : forall x, Decision (P x)} (L : list (list (tick F))) : filter P (concat L) = concat (map (filter P) L).
  Proof. induction L as [|l L IH]; simpl; [reflexivity|]. now rewrite filter_app, IH. Qed.
  Lemma part_filter ts f s e : (forall e', fr_end f = Some e' -> s <= ar_wall (fr_start f) < e /\ ar_wall e' <= e \/ ar_wall e' <= s \/ e <= ar_wall (fr_start f)) ->
    filter (fun t => s <= tk_wall t < e) (part ts f) = if (s <=? ar_wall (fr_start f)) && (ar_wall (fr_start f) <? e) then part ts f else [].
  Proof.
    unfold part. destruct (fr_end f) as [e'|]; [|intros _; now destruct (_ && _)]. intros Hf. specialize (Hf _ eq_refl). unfold ticks_in. rewrite list_filter_filter.
    destruct Hf as [[[L1 L2] L3]|[L|L]].
    - apply Z.leb_le in L1 as L1'. apply Z.ltb_lt in L2 as L2'. rewrite L1', L2'. simpl. apply list_filter_iff. intros t. lia.
    - assert (filter (fun t => s <= tk_wall t < e /\ ar_wall (fr_start f) <= tk_wall t < ar_wall e') ts = []) as E.
      { clear -L. induction ts as [|t ts IH]; [reflexivity|]. rewrite filter_cons. destruct (decide _) as [D|]; [lia|auto]. }
      rewrite E. destruct (Z.leb_spec s (ar_wall (fr_start f))); [|reflexivity]. destruct (_ <? e); [|reflexivity]. simpl.
      clear -L H0. symmetry. induction ts as [|t ts IH]; [reflexivity|]. rewrite filter_cons. destruct (decide _) as [D|]; [lia|auto].
    - assert (filter (fun t => s <= tk_wall t < e /\ ar_wall (fr_start f) <= tk_wall t < ar_wall e') ts = []) as E.
      { clear -L. induction ts as [|t ts IH]; [reflexivity|]. rewrite filter_cons. destruct (decide _) as [D|]; [lia|auto]. }
      rewrite E. assert ((ar_wall (fr_start f) <? e) = false) as -> by (apply Z.ltb_ge; lia). now rewrite andb_false_r.
  Qed.
  Lemma received_part ts f : received ts f = true <-> part ts f <> [].
  Proof.
    unfold received, part. destruct (fr_end f) as [e|].
    - rewrite existsb_exists. split.
      + intros (t & Ht & E). rewrite andb_true_iff, Z.leb_le, Z.ltb_lt in E. intros N. assert (t ∈ ticks_in (ar_wall (fr_start f)) (ar_wall e) ts) as X.
        { apply elem_of_list_filter. split; [lia|now apply elem_of_list_In]. } rewrite N in X. inversion X.
      + intros N. destruct (ticks_in _ _ ts) as [|t l] eqn:E; [congruence|]. exists t.
        assert (t ∈ ticks_in (ar_wall (fr_start f)) (ar_wall e) ts) as X by (rewrite E; set_solver). apply elem_of_list_filter in X as [X1 X2].
        split; [now apply elem_of_list_In|]. rewrite andb_true_iff, Z.leb_le, Z.ltb_lt. lia.
    - rewrite existsb_exists. split; [|congruence]. intros (t & _ & E). now rewrite andb_false_r in E.
  Qed.
  Lemma parts_concat ts s e l : concat (map (fun f => if (s <=? ar_wall (fr_start f)) && (ar_wall (fr_start f) <? e) then part ts f else []) l) =
    concat (map (part ts) (parts ts s e l)).
  Proof.
    induction l as [|f l IH]; simpl; [reflexivity|]. rewrite IH. destruct (_ && _); simpl; [|reflexivity].
    destruct (received ts f) eqn:E; simpl; [reflexivity|]. destruct (part ts f) eqn:E2; [reflexivity|]. exfalso.
    assert (received ts f = true) by (apply received_part; congruence). congruence.
  Qed.
  Lemma earliest_max_fun l (t t' : tick F) : earliest_max l t -> earliest_max l t' -> t = t'.
  Proof.
    intros (a1 & a2 & Ea & A1 & A2) (b1 & b2 & Eb & B1 & B2). rewrite Ea in Eb. clear Ea.
    destruct (app_eq_inv _ _ _ _ Eb) as [(k & E1 & E2)|(k & E1 & E2)].
    - destruct k as [|x k]; simpl in E2; [now injection E2|]. injection E2 as <- ->. subst a1.
      exfalso. pose proof (A1 t' ltac:(set_solver)) as Y. pose proof (B2 t ltac:(set_solver)) as Z. congruence.
    - destruct k as [|x k]; simpl in E2; [now injection E2|]. injection E2 as <- ->. subst b1.
      exfalso. pose proof (B1 t ltac:(set_solver)) as Y. pose proof (A2 t' ltac:(set_solver)) as Z. congruence.
  Qed.
  Lemma earliest_min_fun l (t t' : tick F) : earliest_min l t -> earliest_min l t' -> t = t'.
  Proof.
    intros (a1 & a2 & Ea & A1 & A2) (b1 & b2 & Eb & B1 & B2). rewrite Ea in Eb. clear Ea.
    destruct (app_eq_inv _ _ _ _ Eb) as [(k & E1 & E2)|(k & E1 & E2)].
    - destruct k as [|x k]; simpl in E2; [now injection E2|]. injection E2 as <- ->. subst a1.
      exfalso. pose proof (A1 t' ltac:(set_solver)) as Y. pose proof (B2 t ltac:(set_solver)) as Z. congruence.
    - destruct k as [|x k]; simpl in E2; [now injection E2|]. injection E2 as <- ->. subst b1.
      exfalso. pose proof (B1 t ltac:(set_solver)) as Y. pose proof (A2 t' ltac:(set_solver)) as Z. congruence.
  Qed.
  Lemma concat_split {A} (L : list (list A)) l1 t l2 : concat L = l1 ++ t :: l2 ->
    exists P p1 p2 X Y, L = X ++ P :: Y /\ P = p1 ++ t :: p2 /\ l1 = concat X ++ p1 /\ l2 = p2 ++ concat Y.
  Proof.
    revert l1. induction L as [|P L IH]; intros l1 E; simpl in E; [destruct l1; discriminate|].
    destruct (app_eq_inv _ _ _ _ E) as [(k & E1 & E2)|(k & E1 & E2)].
    - symmetry in E2. destruct k as [|x k].
      + simpl in E2. destruct (IH [] E2) as (P' & p1 & p2 & X & Y & -> & F1 & F2 & F3). rewrite app_nil_r in E1. 
        exists P', p1, p2, (P :: X), Y. split; [auto|]. split; [auto|]. split; [|auto]. symmetry in F2. apply app_eq_nil in F2 as [F4 ->]. simpl. rewrite F4, !app_nil_r in *. congruence.
      + simpl in E2. injection E2 as -> <-. exists P, l1, k, [], L. auto.
    - destruct (IH k E2) as (P' & p1 & p2 & X & Y & -> & F1 & F2 & F3). exists P', p1, p2, (P :: X), Y. split; [auto|]. split; [auto|]. split; [|auto]. simpl. rewrite E1, F2. now rewrite app_assoc.
  Qed.
  Definition nonempty_parts ts (gs : list (frame F)) : Prop := Forall (fun g => summary (part ts g) g) gs.
  Lemma head_concat (L : list (list (tick F))) P : head L = Some P -> P <> [] -> head (concat L) = head P.
  Proof. destruct L as [|Q L]; simpl; [discriminate|]. intros [= ->]. destruct P; [congruence|reflexivity]. Qed.
  Lemma last_app_ne {A} (l k : list A) : k <> [] -> last (l ++ k) = last k.
  Proof. intros N. destruct k as [|x k] using rev_ind; [congruence|]. now rewrite app_assoc, !last_snoc. Qed.
  Lemma summary_ne l (f : frame F) : summary l f -> l <> [].
  Proof. intros (E & _) ->. discriminate. Qed.
  Lemma merge_summary ts gs f : gs <> [] -> nonempty_parts ts gs -> summary (concat (map (part ts) gs)) f -> merges gs f.
  Proof.
    intros Ne Hg (S1 & S2 & S3 & S4 & S5). unfold nonempty_parts in Hg. constructor.
    - destruct gs as [|g gs]; [congruence|]. inversion Hg as [|? ? G Hg']; subst. simpl in *. destruct (part ts g) eqn:E; [now apply summary_ne in G|].
      destruct G as (G & _). simpl in *. congruence.
    - destruct gs as [|g gs _] using rev_ind; [congruence|]. apply Forall_app in Hg as [_ Hg]. rewrite Forall_singleton in Hg.
      rewrite last_snoc. simpl. rewrite map_app, concat_app in S2. simpl in S2. rewrite app_nil_r, last_app_ne in S2 by (eapply summary_ne; eauto).
      destruct Hg as (_ & G & _). congruence.
    - destruct S3 as (l1 & l2 & E & A1 & A2). destruct (concat_split _ _ _ _ E) as (P & p1 & p2 & X & Y & EL & EP & E1 & E2).
      apply map_eq_app in EL as (gX & gY & -> & <- & EL). apply map_eq_cons in EL as (g & gY' & -> & Eg & <-).
      apply Forall_app in Hg as [HX Hg]. inversion Hg as [|? ? G HY]; subst.
      assert (fr_high g = fr_high f) as Eh.
      { destruct G as (_ & _ & G & _). apply (earliest_max_fun (part ts g)); [auto|]. rewrite EP. exists p1, p2. split; [auto|]. split; intros x Hx; [apply A1|apply A2]; set_solver. }
      rewrite map_app. simpl. rewrite Eh. exists (map fr_high gX), (map fr_high gY'). split; [auto|].
      assert (forall l g', Forall (fun g => summary (part ts g) g) l -> g' ∈ map fr_high l -> g' ∈ concat (map (part ts) l)) as Hin.
      { intros l g' Hl. induction Hl as [|h l Hh Hl IH]; simpl; [auto|]. intros Hx. apply elem_of_cons in Hx as [->|Hx]; apply elem_of_app; [left|right; auto].
        destruct Hh as (_ & _ & Hh & _). now apply earliest_max_in. }
      split; intros x Hx; [apply A1|apply A2]; apply elem_of_app; [left|right]; auto.
    - destruct S4 as (l1 & l2 & E & A1 & A2). destruct (concat_split _ _ _ _ E) as (P & p1 & p2 & X & Y & EL & EP & E1 & E2).
      apply map_eq_app in EL as (gX & gY & -> & <- & EL). apply map_eq_cons in EL as (g & gY' & -> & Eg & <-).
      apply Forall_app in Hg as [HX Hg]. inversion Hg as [|? ? G HY]; subst.
      assert (fr_low g = fr_low f) as Eh.
      { destruct G as (_ & _ & _ & G & _). apply (earliest_min_fun (part ts g)); [auto|]. rewrite EP. exists p1, p2. split; [auto|]. split; intros x Hx; [apply A1|apply A2]; set_solver. }
      rewrite map_app. simpl. rewrite Eh. exists (map fr_low gX), (map fr_low gY'). split; [auto|].
      assert (forall l g', Forall (fun g => summary (part ts g) g) l -> g' ∈ map fr_low l -> g' ∈ concat (map (part ts) l)) as Hin.
      { intros l g' Hl. induction Hl as [|h l Hh Hl IH]; simpl; [auto|]. intros Hx. apply elem_of_cons in Hx as [->|Hx]; apply elem_of_app; [left|right; auto].
        destruct Hh as (_ & _ & _ & Hh & _). now apply earliest_min_in. }
      split; intros x Hx; [apply A1|apply A2]; apply elem_of_app; [left|right]; auto.
    - rewrite S5. clear -Hg. induction Hg as [|g l (_ & _ & _ & _ & G) _ IH]; simpl; [reflexivity|]. rewrite app_length, Nat2Z.inj_add, IH, <- G. reflexivity.
  Qed.
  Lemma nested u q mx u' q' mx' z ts fs fs' i f e t : 1 <= mx -> 1 <= mx' -> u <> TICK -> u' <> TICK -> 0 < q -> 0 < q' -> no_skip z -> comparable ts ->
    refines u q u' q' -> fs_run u q mx ts fs -> fs_run u' q' mx' ts fs' -> in_order z ts -> fs_heap fs' !! i = Some f -> fr_end f = Some e ->
    t ∈ ts -> ar_wall (fr_start f) <= tk_wall t < ar_wall e -> merges (parts ts (ar_wall (fr_start f)) (ar_wall e) (fs_heap fs)) f.
  Proof.
    intros Hm Hm' Hu Hu' Hq Hq' Hz Hc Hn Hr Hr' Ho Hf He Ht Hw.
    destruct (frame_covers u' q' mx' z ts fs' i f) as (e' & He' & Hcov & _); auto. rewrite He in He'. injection He' as <-.
    destruct (frames_boundaries u' q' mx' z ts fs' i f) as (e' & He' & B1 & (B2 & B3 & _) & _); auto. rewrite He in He'. injection He' as <-.
    set (s := ar_wall (fr_start f)) in *.
    assert (ticks_in s (ar_wall e) ts = concat (map (part ts) (parts ts s (ar_wall e) (fs_heap fs)))) as E.
    { rewrite <- parts_concat. unfold ticks_in. rewrite (run_chain u q mx z ts fs) at 1 by auto. rewrite filter_concat, map_map. f_equal.
      assert (forall g, g ∈ fs_heap fs -> filter (fun t => s <= tk_wall t < ar_wall e) (part ts g) =
        (if (s <=? ar_wall (fr_start g)) && (ar_wall (fr_start g) <? ar_wall e) then part ts g else [])) as A.
      { intros g Hg. apply elem_of_list_lookup in Hg as [j Hg]. apply part_filter. intros eg Heg.
        destruct (frames_boundaries u q mx z ts fs j g) as (e' & He' & _ & (_ & G2 & G3) & _); auto. rewrite Heg in He'. injection He' as <-.
        apply Hn in B1, B2. pose proof (G3 _ B1). pose proof (G3 _ B2). lia. }
      clear -A. induction (fs_heap fs) as [|g l IH]; simpl; [reflexivity|]. f_equal; [apply A; set_solver|]. apply IH. intros h Hh. apply A. set_solver. }
    assert (ticks_in s (ar_wall e) ts <> []) as Ne.
    { intros N. assert (t ∈ ticks_in s (ar_wall e) ts) as X by (apply elem_of_list_filter; auto). rewrite N in X. inversion X. }
    apply (merge_summary ts); [|unfold nonempty_parts|].
    - intros N. rewrite E, N in Ne. now apply Ne.
    - rewrite Forall_forall. intros g Hg. apply elem_of_list_In, filter_In in Hg as [Hg1 Hg2]. rewrite andb_true_iff in Hg2. destruct Hg2 as [_ Hg2].
      apply received_part in Hg2. apply elem_of_list_In, elem_of_list_lookup in Hg1 as [j Hj].
      destruct (frame_covers u q mx z ts fs j g) as (eg & Heg & Hcg & _); auto. unfold part in *. rewrite Heg in *. auto.
    - rewrite <- E. auto.
  Qed.
End runs.

(** ** Which units nest *)
Lemma refines_finer u q u' q' : finer u q u' q' -> refines u q u' q'.
Proof.
  intros Hf w Hb. destruct Hf as [u q k|u q q' Hu|u q q' Hu|u q q' Hu|q q'|u q' Hu|q q'].
  - remember (k * q) as q'. assert (forall a, (q' | a) -> (q | a)) as D by (intros a (c & ->); exists (c * k); subst q'; ring).
    clear Heqq'. destruct Hb; econstructor; eauto.
  - assert (forall n, boundary SECOND q (n * 60000000)) as A.
    { intros n. replace (n * 60000000) with (n * 60000000 + 0 * 1000000) by ring. constructor; [lia|apply Z.divide_0_r]. }
    destruct Hb; try (exfalso; clear -Hu; intuition discriminate).
    all: match goal with |- boundary SECOND _ ?x => first
      [ replace x with ((n * 60 + m) * 60000000) by ring; apply A | replace x with ((n * 1440 + h * 60) * 60000000) by ring; apply A | replace x with (n * 1440 * 60000000) by ring; apply A ] end.
  - assert (forall n, boundary MINUTE q (n * 3600000000)) as A.
    { intros n. replace (n * 3600000000) with (n * 3600000000 + 0 * 60000000) by ring. constructor; [lia|apply Z.divide_0_r]. }
    destruct Hb; try (exfalso; clear -Hu; intuition discriminate).
    all: match goal with |- boundary MINUTE _ ?x => first
      [ replace x with ((n * 24 + h) * 3600000000) by ring; apply A | replace x with (n * 24 * 3600000000) by ring; apply A ] end.
  - assert (forall n, boundary HOUR q (n * 86400000000)) as A.
    { intros n. replace (n * 86400000000) with (n * 86400000000 + 0 * 3600000000) by ring. constructor; [lia|apply Z.divide_0_r]. }
    destruct Hb; try (exfalso; clear -Hu; intuition discriminate); apply A.
  - inversion Hb as [| | | |? n Hn| |]; subst. constructor. rewrite Hn. apply Z.divide_0_r.
  - destruct Hb; try (exfalso; clear -Hu; intuition discriminate); constructor; apply Z.divide_1_l.
  - inversion Hb as [| | | | | |? n y Hd Hy]; subst. econstructor; [eauto|]. apply Z.divide_0_r.
Qed.
