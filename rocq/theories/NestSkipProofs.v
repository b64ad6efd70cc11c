(** Nested frame sets in zones with clock changes. *)
From Verif Require Export NestProofs FrameSkipProofs.
Open Scope Z_scope.

Section nest_skip.
  Context {F : Type} `{Num F}.
  Implicit Types fs : fset F.
  Implicit Types ts l : list (tick F).

  Lemma linked_chain (l : list (frame F)) f : head l = Some f ->
    (forall i g, l !! i = Some g -> exists e, fr_end g = Some e /\ ar_wall (fr_start g) <= ar_wall e) ->
    (forall i g h, l !! i = Some g -> l !! S i = Some h -> fr_end g = Some (fr_start h)) ->
    exists b, chain (ar_wall (fr_start f)) l b /\ forall g e, last l = Some g -> fr_end g = Some e -> b = ar_wall e.
  Proof.
    revert f. induction l as [|g l IH]; intros f Hf He Hl; [discriminate|]. injection Hf as ->. destruct (He 0%nat f eq_refl) as (e & E1 & E2).
    destruct l as [|h l].
    - exists (ar_wall e). simpl. split; [eauto 10|]. intros g e' [= <-] E. rewrite E in E1. injection E1 as <-. reflexivity.
    - destruct (IH h eq_refl) as (b & Hb & Hbe).
      + intros i g Hg. apply (He (S i) g Hg).
      + intros i g k Hg Hk. apply (Hl (S i)); auto.
      + exists b. split; [|exact Hbe]. split; [auto|]. exists e. split; [auto|]. split; [auto|].
        pose proof (Hl 0%nat f h eq_refl eq_refl) as E. rewrite E1 in E. injection E as ->. exact Hb.
  Qed.
  Lemma skip_run_parts u q mx z ts fs : 1 <= mx -> u <> TICK -> 0 < q -> aligned z u q -> fs_run u q mx ts fs -> in_order_kept z ts ->
    ts = concat (map (part ts) (fs_heap fs)).
  Proof.
    intros Hmx Hu Hq Ha Hr Ho. pose proof (run_good _ _ _ _ _ Hmx Hu Hq Hr) as Hgd.
    destruct (decide (ts = [])) as [->|Hne]; [now rewrite (run_nil _ _ _ _ Hmx Hu Hr)|].
    destruct (SI_run z u q Hgd Ha mx ts fs Hmx Hr Ho Hne) as (HS & _). destruct Ho as [[_ Hs] _].
    destruct (fs_heap fs) as [|f0 l0] eqn:Eh.
    { destruct (si_last _ _ _ _ _ HS) as (b & t & Hb & _). unfold bars in Hb. rewrite Eh in Hb. discriminate. }
    destruct (linked_chain (fs_heap fs) f0) as (b & Hc & Hb).
    - now rewrite Eh.
    - intros i g Hg. destruct (si_bar _ _ _ _ _ HS _ _ (heap_bar _ _ _ Hg)) as (s & e & E1 & E2 & _ & (_ & _ & L & _) & _). simpl in *.
      exists (arrow_of_wall z e). split; [auto|]. rewrite E1. simpl. lia.
    - intros i g h Hg Hh. exact (si_link _ _ _ _ _ HS _ _ _ (heap_bar _ _ _ Hg) (heap_bar _ _ _ Hh)).
    - rewrite <- Eh at 1. rewrite <- (chain_parts ts _ _ _ Hs Hc). symmetry. apply keep_all. intros t Ht.
      destruct (si_in _ _ _ _ _ HS t Ht) as (i & c & e & E1 & E2 & E3).
      destruct (si_last _ _ _ _ _ HS) as (bl & tl & Hbl & _). pose proof (si_bar _ _ _ _ _ HS) as SB. pose proof Hbl as Hbl'. rewrite last_lookup in Hbl'.
      destruct (SB _ _ Hbl') as (sl & el & _ & F2 & _). pose proof (si_all_lt _ _ _ _ _ _ _ _ HS Hbl F2 Ht) as L2. split.
      + destruct i as [|i].
        * unfold bars in E1. rewrite Eh in E1. injection E1 as <-. apply E3.
        * assert (bars fs !! 0%nat = Some (bar_of f0)) as H0 by (unfold bars; now rewrite Eh).
          destruct (SB _ _ H0) as (s & e1 & G1 & G2 & _ & (_ & _ & L & _) & _). pose proof (si_after _ _ _ _ _ _ _ _ _ _ HS H0 E1 ltac:(lia) G2) as L3.
          simpl in *. rewrite G1. simpl in *. lia.
      + unfold bars in Hbl. rewrite fmap_last in Hbl. destruct (last (fs_heap fs)) as [g|] eqn:El; [|discriminate]. injection Hbl as <-.
        rewrite (Hb g _ eq_refl F2). exact L2.
  Qed.
  Lemma skip_nested u q mx u' q' mx' z ts fs fs' i f e t : 1 <= mx -> 1 <= mx' -> u <> TICK -> u' <> TICK -> 0 < q -> 0 < q' ->
    aligned z u q -> aligned z u' q' -> comparable ts ->
    refines u q u' q' -> fs_run u q mx ts fs -> fs_run u' q' mx' ts fs' -> in_order_kept z ts -> fs_heap fs' !! i = Some f -> fr_end f = Some e ->
    t ∈ ts -> ar_wall (fr_start f) <= tk_wall t < ar_wall e -> merges (parts ts (ar_wall (fr_start f)) (ar_wall e) (fs_heap fs)) f.
  Proof.
    intros Hm Hm' Hu Hu' Hq Hq' Hz Hz' Hc Hn Hr Hr' Ho Hf He Ht Hw.
    destruct (skip_covers u' q' mx' z ts fs' i f) as (e' & He' & Hcov & _); auto. rewrite He in He'. injection He' as <-.
    destruct (skip_periods u' q' mx' z ts fs' i f) as (e' & He' & B1 & K1 & (B2 & K2 & B3 & _) & _); auto. rewrite He in He'. injection He' as <-.
    set (s := ar_wall (fr_start f)) in *.
    assert (ticks_in s (ar_wall e) ts = concat (map (part ts) (parts ts s (ar_wall e) (fs_heap fs)))) as E.
    { rewrite <- parts_concat. unfold ticks_in. rewrite (skip_run_parts u q mx z ts fs) at 1 by auto. rewrite filter_concat, map_map. f_equal.
      assert (forall g, g ∈ fs_heap fs -> filter (fun t => s <= tk_wall t < ar_wall e) (part ts g) =
        (if (s <=? ar_wall (fr_start g)) && (ar_wall (fr_start g) <? ar_wall e) then part ts g else [])) as A.
      { intros g Hg. apply elem_of_list_lookup in Hg as [j Hg]. apply part_filter. intros eg Heg.
        destruct (skip_periods u q mx z ts fs j g) as (e' & He' & _ & _ & (_ & _ & G2 & G3) & _); auto. rewrite Heg in He'. injection He' as <-.
        apply Hn in B1, B2. pose proof (G3 _ B1 K1). pose proof (G3 _ B2 K2). lia. }
      clear -A. induction (fs_heap fs) as [|g l IH]; simpl; [reflexivity|]. f_equal; [apply A; set_solver|]. apply IH. intros h Hh. apply A. set_solver. }
    assert (ticks_in s (ar_wall e) ts <> []) as Ne.
    { intros N. assert (t ∈ ticks_in s (ar_wall e) ts) as X by (apply elem_of_list_filter; auto). rewrite N in X. inversion X. }
    apply (merge_summary ts); [|unfold nonempty_parts|].
    - intros N. rewrite E, N in Ne. now apply Ne.
    - rewrite Forall_forall. intros g Hg. apply elem_of_list_In, filter_In in Hg as [Hg1 Hg2]. rewrite andb_true_iff in Hg2. destruct Hg2 as [_ Hg2].
      apply received_part in Hg2. apply elem_of_list_In, elem_of_list_lookup in Hg1 as [j Hj].
      destruct (skip_covers u q mx z ts fs j g) as (eg & Heg & Hcg & _); auto. unfold part in *. rewrite Heg in *. auto.
    - rewrite <- E. auto.
  Qed.
End nest_skip.
