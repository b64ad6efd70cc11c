(** The log of a frame of ticks: the ticks received, cut every [q]. *)
From Verif Require Export ProgramToldProofs.
Open Scope Z_scope.

Lemma cut_logs {A} (l : list (list A)) (rs : list A) n : concat l = rs -> (forall k b, l !! k = Some b -> length b = length (take n (drop (k * n) rs))) ->
  forall k b, l !! k = Some b -> b = take n (drop (k * n) rs).
Proof.
  intros Hc Hn.
  assert (forall k, (k <= length l)%nat -> length (concat (take k l)) = Nat.min (k * n) (length rs)) as Hpre.
  { induction k as [|k IH]; intros Hk; [reflexivity|]. destruct (lookup_lt_is_Some_2 l k Hk) as [b Hb]. specialize (IH ltac:(lia)). rewrite (take_S_r _ _ _ Hb), concat_app, app_length, IH.
    cbn [concat]. rewrite app_nil_r, (Hn k b Hb), take_length, drop_length. lia. }
  intros k b Hb. pose proof (lookup_lt_Some _ _ _ Hb) as Hk. specialize (Hpre k ltac:(lia)). specialize (Hn k b Hb). rewrite take_length, drop_length in Hn.
  rewrite <- (take_drop_middle _ _ _ Hb), concat_app in Hc. cbn [concat] in Hc. set (c0 := concat (take k l)) in *. set (c1 := concat (drop (S k) l)) in *. subst rs. rewrite !app_length in *.
  destruct (Nat.le_gt_cases (k * n) (length c0 + (length b + length c1))) as [Hle|Hgt].
  - replace (k * n)%nat with (length c0) by lia. rewrite drop_app. destruct (Nat.le_gt_cases n (length b)) as [L|L].
    + replace n with (length b) by lia. now rewrite take_app.
    + destruct c1 as [|x c1]; [|cbn [length] in *; lia]. rewrite app_nil_r, take_ge by lia. reflexivity.
  - rewrite drop_ge by (rewrite !app_length; lia). rewrite take_nil. destruct b; [auto|cbn [length] in *; lia].
Qed.

Section proofs.
  Context {F : Type} `{Num F}.
  Lemma tick_growth fuel (fs : fset F) tk mo lst fs' : fs_unit fs = TICK -> 1 <= fs_max fs -> FramesProofs.wf fs -> fs_on_new_tick fuel fs tk mo lst = (fs', Ok ()) ->
    (length (fs_heap fs') = length (fs_heap fs) \/ length (fs_heap fs') = S (length (fs_heap fs)))%nat.
  Proof.
    intros Hu Hmx Hwf. unfold fs_on_new_tick. rewrite Hu. rewrite <- !bars_length. destruct (is_frame_over_tick fs tk lst); intros E.
    - apply create_spec in E as [[_ [x Ex]]|(_ & _ & _ & Eb)]; [discriminate| |auto|auto]. right. rewrite Eb, app_length. simpl. lia.
    - apply add_tick_spec in E as (_ & _ & Eb); [|auto|auto]. left. rewrite Eb. destruct (last (bars fs)) as [b|] eqn:El; [|auto]. apply last_Some in El as (l0 & ->).
      rewrite !app_length. cbn [length]. rewrite take_length, app_length. simpl. lia.
  Qed.
  Lemma tick_concat q ref mx i G fs0 l rs fs : 1 <= mx -> fset_init TICK q ref mx = Ok fs0 -> fs_log (only i) G (fst (add_indicator fs0 i)) l rs fs -> concat l = rs.
  Proof.
    intros Hmx E0 Hh. induction Hh as [|l rs fs j Hh IH Ho|l rs fs e Hh IH|l rs fs fuel tk mo lst fs' Hh IH E HG]; auto.
    destruct (log_summary _ _ _ _ _ _ _ _ _ _ Hmx E0 Hh) as (_ & (_ & Hl & _) & _). pose proof (log_run _ _ _ _ _ _ _ _ _ _ E0 Hh) as Hr.
    destruct (fs_run_wf _ _ _ _ _ Hmx Hr) as (W1 & W2 & W3 & _). pose proof (tick_growth _ _ _ _ _ _ W3 ltac:(lia) W1 E) as Hg. rewrite <- Hl in Hg.
    unfold deal. destruct (last l) as [b|] eqn:El.
    - apply last_Some in El as (l0 & ->). rewrite <- IH. rewrite !app_length in *. cbn [length] in *. destruct (Nat.eqb_spec (length (fs_heap fs')) (length l0 + 1)) as [En|En].
      + replace (length l0 + 1 - 1)%nat with (length l0) by lia. rewrite take_app, !concat_app. cbn [concat]. rewrite !app_nil_r. now rewrite app_assoc.
      + replace (length (fs_heap fs') - (length l0 + 1) - 1)%nat with 0%nat by lia. cbn [replicate app]. rewrite !concat_app. cbn [concat]. now rewrite !app_nil_r.
    - apply last_None in El. subst l. now rewrite <- IH.
  Qed.
  Lemma listening_ticks pr l (i : indicator F) e mx ts fs0 fs : listening pr l i e mx ts fs0 fs -> 1 <= mx -> fs_unit fs0 = TICK -> 1 <= fs_q fs0 ->
    exists q ref lg rs, fset_init TICK q ref mx = Ok fs0 /\ fs_log (only i) any_step (fst (add_indicator fs0 i)) lg rs fs /\ map fst rs = ts /\
      Forall (fun x => snd x = true <-> market_hours e (ar_wall (tk_dt (fst x)))) rs /\ length lg = length (fs_heap fs) /\
      forall k b, lg !! k = Some b -> b = take (Z.to_nat (fs_q fs0)) (drop (k * Z.to_nat (fs_q fs0)) rs).
  Proof.
    intros Hl Hmx Hu Hq. pose proof (listening_epic _ _ _ _ _ _ _ _ Hl Hmx) as Hr. rewrite Hu in Hr. apply listening_log in Hl as ((u & q & ref & E0) & lg & rs & L1 & L2 & L3).
    assert (fs_unit fs0 = u) as Eu by (destruct (fset_init_wf _ _ _ _ _ E0); tauto). rewrite Hu in Eu. subst u.
    destruct (log_summary _ _ _ _ _ _ _ _ _ _ Hmx E0 L1) as (_ & (_ & Hlen & Hent) & _). exists q, ref, lg, rs. split; [auto|]. split; [auto|]. split; [auto|]. split; [auto|]. split; [auto|].
    refine (cut_logs lg rs _ (tick_concat _ _ _ _ _ _ _ _ _ Hmx E0 L1) _). intros k b Hb. destruct (Hent k b Hb) as (v & bb & _ & V2 & (_ & _ & V3 & _) & _).
    destruct (bt_run _ _ _ _ Hmx Hq Hr) as (_ & _ & _ & _ & HB). destruct (bt_bar _ _ _ HB _ _ V2) as (_ & _ & V4 & _). unfold chunk in V4. rewrite <- L2 in V4.
    rewrite V3, map_length in V4. rewrite take_length, drop_length, map_length in V4. rewrite take_length, drop_length. lia.
  Qed.
  Lemma listening_hears_ticks pr l (i : indicator F) e mx ts fs0 fs : listening pr l i e mx ts fs0 fs -> 1 <= mx -> fs_unit fs0 = TICK -> 1 <= fs_q fs0 -> comparable ts ->
    exists rs, map fst rs = ts /\ Forall (fun x => snd x = true <-> market_hours e (ar_wall (tk_dt (fst x)))) rs /\
      forall k f, fs_heap fs !! k = Some f -> hears i (take (Z.to_nat (fs_q fs0)) (drop (k * Z.to_nat (fs_q fs0)) rs)) (value_at fs (in_ref i) k).
  Proof.
    intros Hl Hmx Hu Hq Hc. destruct (listening_ticks _ _ _ _ _ _ _ _ Hl Hmx Hu Hq) as (q & ref & lg & rs & E0 & L1 & L2 & L3 & L4 & L5). exists rs. split; [auto|]. split; [auto|].
    intros k f Hf. destruct (lookup_lt_is_Some_2 lg k) as [b Hb]; [rewrite L4; eapply lookup_lt_Some; eauto|]. rewrite <- (L5 k b Hb).
    rewrite <- L2 in Hc. destruct (log_hears _ _ _ _ _ _ _ _ _ _ Hmx E0 L1 Hc) as (_ & Hh). now apply (Hh k b f).
  Qed.
  Lemma listening_tells_ticks pr l (i : indicator F) e mx ts fs0 fs mk tl : listening pr l i e mx ts fs0 fs -> 1 <= mx -> fs_unit fs0 = TICK -> 1 <= fs_q fs0 -> in_kind i = KCustom mk tl ->
    exists lg rs, map fst rs = ts /\ Forall (fun x => snd x = true <-> market_hours e (ar_wall (tk_dt (fst x)))) rs /\ length lg = length (fs_heap fs) /\
      forall k b, lg !! k = Some b -> b = take (Z.to_nat (fs_q fs0)) (drop (k * Z.to_nat (fs_q fs0)) rs) /\
        exists past, earlier lg fs (in_ref i) k past /\ tells i mk tl past b (value_at fs (in_ref i) k).
  Proof.
    intros Hl Hmx Hu Hq Hk. destruct (listening_ticks _ _ _ _ _ _ _ _ Hl Hmx Hu Hq) as (q & ref & lg & rs & E0 & L1 & L2 & L3 & L4 & L5). exists lg, rs. split; [auto|]. split; [auto|].
    split; [auto|]. intros k b Hb. split; [now apply L5|]. exact (log_tells _ _ _ _ _ _ _ _ _ _ _ _ _ _ Hmx E0 Hk L1 Hb).
  Qed.
End proofs.
