(** The log of a frame is made of the ticks of its period. *)
From Verif Require Export SpecTold LogProofs FrameSkipProofs ProgramNestProofs ProgramToldProofs.
Open Scope Z_scope.

Section proofs.
  Context {F : Type} `{Num F}.
  Notation item := (tick F * bool)%type.
  Implicit Types (rs b : list item) (S T : list (Z * Z)) (p : Z * Z).

  Definition wl (x : item) : Z := tk_wall (fst x).
  Definition chain S : Prop := (forall i p p', S !! i = Some p -> S !! (Datatypes.S i) = Some p' -> snd p = fst p') /\ forall i p, S !! i = Some p -> fst p < snd p.
  Definition holds S rs : Prop := chain S /\ (forall x, x ∈ rs -> exists i p, S !! i = Some p /\ fst p <= wl x < snd p) /\
    (forall x, last rs = Some x -> exists p, last S = Some p /\ fst p <= wl x < snd p).
  Lemma chain_lt S i j p p' : chain S -> S !! i = Some p -> S !! j = Some p' -> (i < j)%nat -> snd p <= fst p'.
  Proof.
    intros [C1 C2] Hi. revert p'. induction j as [|j IH]; intros p' Hj Hlt; [lia|]. destruct (decide (i = j)) as [->|Hne]; [rewrite (C1 _ _ _ Hi Hj); lia|].
    destruct (S !! j) as [p0|] eqn:E0; [|apply lookup_ge_None in E0; apply lookup_lt_Some in Hj; lia]. specialize (IH p0 eq_refl ltac:(lia)). rewrite <- (C1 _ _ _ E0 Hj). specialize (C2 _ _ E0). lia.
  Qed.
  Lemma chain_unique S i j p p' w : chain S -> S !! i = Some p -> S !! j = Some p' -> fst p <= w < snd p -> fst p' <= w < snd p' -> i = j.
  Proof.
    intros C Hi Hj A B. destruct (lt_eq_lt_dec i j) as [[L| ->]|L]; [|auto|].
    - pose proof (chain_lt _ _ _ _ _ C Hi Hj L). lia.
    - pose proof (chain_lt _ _ _ _ _ C Hj Hi L). lia.
  Qed.
  Lemma in_period_app s e rs rs' : in_period s e (rs ++ rs') = in_period s e rs ++ in_period s e rs'.
  Proof. apply filter_app. Qed.
  Lemma in_period_in s e x : s <= wl x < e -> in_period s e [x] = [x].
  Proof. intros Hx. unfold in_period. now rewrite filter_cons_True, filter_nil. Qed.
  Lemma in_period_out s e x : ~ (s <= wl x < e) -> in_period s e [x] = [].
  Proof. intros Hx. unfold in_period. now rewrite filter_cons_False, filter_nil. Qed.
  Lemma in_period_none s e rs : (forall x, x ∈ rs -> ~ (s <= wl x < e)) -> in_period s e rs = [].
  Proof. intros Hx. unfold in_period. induction rs as [|x rs IH]; [auto|]. rewrite filter_cons_False by (apply Hx; left). apply IH. intros y Hy. apply Hx. now right. Qed.
  Lemma before_all s rs : (forall x, x ∈ rs -> wl x < s) -> filter (fun x => tk_wall (fst x) < s) rs = rs.
  Proof. intros Hx. induction rs as [|x rs IH]; [auto|]. rewrite filter_cons_True by (apply Hx; left). f_equal. apply IH. intros y Hy. apply Hx. now right. Qed.
  Lemma before_snoc s rs x : ~ wl x < s -> filter (fun x => tk_wall (fst x) < s) (rs ++ [x]) = filter (fun x : item => tk_wall (fst x) < s) rs.
  Proof. intros Hx. rewrite filter_app, filter_cons_False, filter_nil by exact Hx. apply app_nil_r. Qed.
  Lemma after_none e rs : (forall x, x ∈ rs -> wl x < e) -> filter (fun x => e <= tk_wall (fst x)) rs = [].
  Proof. intros Hx. induction rs as [|x rs IH]; [auto|]. rewrite filter_cons_False by (specialize (Hx x ltac:(left)); unfold wl in Hx; lia). apply IH. intros y Hy. apply Hx. now right. Qed.
  Lemma after_snoc e rs x y : head (filter (fun x => e <= tk_wall (fst x)) rs) = Some y -> head (filter (fun x => e <= tk_wall (fst x)) (rs ++ [x])) = Some y.
  Proof. intros Hy. rewrite filter_app. now destruct (filter _ rs). Qed.
  (** A frame before the last one keeps its log. *)
  Lemma frame_log_keep rs s e b x : s < e -> e <= wl x -> frame_log rs s e b -> frame_log (rs ++ [x]) s e b.
  Proof.
    intros Hlt Hx [A B]. unfold frame_log. rewrite in_period_app, in_period_out by lia. rewrite app_nil_r, before_snoc by lia. split; [exact A|]. intros E.
    destruct (B E) as (t & mo & t' & mo' & B1 & B2 & B3). exists t, mo, t', mo'. split; [exact B1|]. split; [now apply after_snoc|exact B3].
  Qed.

  (** The last frame's log is not a repetition. *)
  Lemma last_log S rs b p x : last rs = Some x -> fst p <= wl x < snd p -> frame_log rs (fst p) (snd p) b -> b = in_period (fst p) (snd p) rs /\ last b = Some x.
  Proof.
    intros Hl Hx [A _]. apply last_Some in Hl as (rs0 & ->). assert (in_period (fst p) (snd p) (rs0 ++ [x]) = in_period (fst p) (snd p) rs0 ++ [x]) as E by (rewrite in_period_app; f_equal; now apply in_period_in).
    rewrite E in *. assert (b = in_period (fst p) (snd p) rs0 ++ [x]) as -> by (apply A; now destruct (in_period (fst p) (snd p) rs0)). split; [auto|apply last_snoc].
  Qed.
  Lemma deal_periods S T l rs tk mo : length l = length S -> (forall k b p, l !! k = Some b -> S !! k = Some p -> frame_log rs (fst p) (snd p) b) ->
    holds S rs -> holds T (rs ++ [(tk, mo)]) -> S `prefix_of` T -> length (deal l (length T) tk mo) = length T -> (S <> [] -> rs <> []) ->
    forall k b p, deal l (length T) tk mo !! k = Some b -> T !! k = Some p -> frame_log (rs ++ [(tk, mo)]) (fst p) (snd p) b.
  Proof.
    intros Hlen HJ (CS & inS & lastS) (CT & inT & lastT) [U ->] Hlen' Hne k b p Hb Hp. set (x := (tk, mo)) in *.
    destruct (lastT x) as (pl & Hpl & Hxl); [apply last_snoc|].
    assert ((S ++ U) !! (length (S ++ U) - 1)%nat = Some pl) as Hlk by (rewrite last_lookup in Hpl; replace (length (S ++ U) - 1)%nat with (Nat.pred (length (S ++ U))) by lia; exact Hpl).
    pose proof (lookup_lt_Some _ _ _ Hp) as Hk. set (n' := length (S ++ U)) in *.
    assert (forall y, y ∈ rs -> (length S <= k)%nat -> wl y < fst p) as Hold.
    { intros y Hy Hge. destruct (inS y Hy) as (i & pi & Hi & Hin). pose proof (lookup_lt_Some _ _ _ Hi). pose proof (chain_lt _ i k pi p CT (lookup_app_l_Some _ _ _ _ Hi) Hp ltac:(lia)). lia. }
    assert (k <> (n' - 1)%nat -> snd p <= wl x) as Hnx. { intros Hkn. pose proof (chain_lt _ k (n' - 1) p pl CT Hp Hlk ltac:(lia)). lia. }
    assert (k = (n' - 1)%nat -> p = pl) as Hpk by (intros ->; congruence).
    assert (fst p < snd p) as Hpos by (eapply CT; eauto).
    unfold deal in Hb, Hlen'. destruct (last l) as [b0|] eqn:El.
    - apply last_Some in El as (l0 & ->). rewrite app_length in Hlen. simpl in Hlen.
      assert (exists p0, S !! length l0 = Some p0) as (p0 & Hp0) by (apply lookup_lt_is_Some_2; lia).
      assert (frame_log rs (fst p0) (snd p0) b0) as Hb0 by (eapply HJ; [|exact Hp0]; now apply list_lookup_middle).
      destruct (last rs) as [y|] eqn:Ey; [|apply last_None in Ey; exfalso; apply Hne; [now intros ->|exact Ey]].
      destruct (lastS y eq_refl) as (p1 & Hp1 & Hy1). assert (p1 = p0) as ->.
      { rewrite last_lookup in Hp1. replace (Nat.pred (length S)) with (length l0) in Hp1 by lia. congruence. }
      destruct (last_log S rs b0 p0 y Ey Hy1 Hb0) as (Eb0 & Elb0).
      assert (n' = (length S + length U)%nat) as En' by apply app_length.
      destruct (Nat.eqb_spec n' (length (l0 ++ [b0]))) as [En|En].
      + (* joined the last frame *)
        rewrite app_length in En, Hb. simpl in En, Hb. replace (length l0 + 1 - 1)%nat with (length l0) in Hb by lia. rewrite take_app in Hb.
        assert (U = []) as -> by (subst n'; rewrite app_length in En; destruct U; [auto|simpl in En; lia]). rewrite app_nil_r in *.
        destruct (decide (k = length l0)) as [->|Hkl].
        * assert (p = pl) as -> by (apply Hpk; lia). assert (pl = p0) as -> by congruence. rewrite list_lookup_middle in Hb by auto. injection Hb as <-.
          unfold frame_log. rewrite in_period_app, in_period_in, <- Eb0 by auto. split; [auto|]. intros E. now destruct b0.
        * rewrite lookup_app_l in Hb by lia. assert (frame_log rs (fst p) (snd p) b) as Hfl by (eapply HJ; [|exact Hp]; now apply lookup_app_l_Some).
          apply frame_log_keep; auto. apply Hnx. lia.
      + (* new frames *)
        rewrite app_length in Hb, Hlen'. simpl in Hb, Hlen'. rewrite Elb0 in Hb, Hlen'. destruct y as [ty my].
        assert (length (l0 ++ [b0]) = length S) as EL by (rewrite app_length; simpl; lia).
        destruct (decide (k < length S)%nat) as [Hks|Hks].
        * rewrite lookup_app_l in Hb by lia. assert (frame_log rs (fst p) (snd p) b) as Hfl by (eapply HJ; [exact Hb|]; now rewrite lookup_app_l in Hp by lia).
          assert (length S < n')%nat as Hlt by lia.
          apply frame_log_keep; auto. apply Hnx. lia.
        * rewrite lookup_app_r in Hb by lia. rewrite EL in Hb. rewrite app_length, app_length, replicate_length in Hlen'. simpl in Hlen'.
          assert (in_period (fst p) (snd p) rs = []) as Eno by (apply in_period_none; intros z Hz; specialize (Hold z Hz ltac:(lia)); lia).
          destruct (decide (k = (n' - 1)%nat)) as [Ekn|Ekn].
          -- rewrite (Hpk Ekn) in *. rewrite lookup_app_r in Hb by (rewrite replicate_length; lia). rewrite replicate_length in Hb.
             replace (k - length S - (n' - (length l0 + 1) - 1))%nat with 0%nat in Hb by lia. simpl in Hb. injection Hb as <-.
             unfold frame_log. rewrite in_period_app, in_period_in, Eno by auto. split; [auto|discriminate].
          -- rewrite lookup_app_l in Hb by (rewrite replicate_length; lia). apply lookup_replicate in Hb as [-> _]. specialize (Hnx Ekn).
             unfold frame_log. rewrite in_period_app, in_period_out, Eno by lia. split; [intros Hc; now elim Hc|]. intros _. exists ty, my, tk, mo. split; [|split; [rewrite filter_app, after_none by (intros z Hz; specialize (Hold z Hz ltac:(lia)); lia); rewrite filter_cons_True by exact Hnx; auto|auto]].
             rewrite before_snoc by lia. rewrite before_all by (intros z Hz; apply Hold; [auto|lia]). exact Ey.
    - apply last_None in El. subst l. simpl in Hlen. destruct S; [|discriminate]. assert (n' = 1%nat) as En by (simpl in Hlen'; lia).
      assert (rs = []) as ->. { destruct rs as [|y rs]; [auto|]. destruct (inS y ltac:(left)) as (i & pi & Hi & _). destruct i; discriminate. }
      assert (k = 0%nat) as -> by lia. simpl in Hb. injection Hb as <-. rewrite (Hpk ltac:(lia)) in *. unfold frame_log. cbn [app]. rewrite in_period_in by auto. split; [auto|discriminate].
  Qed.

  Definition span (b : bar (F:=F)) : Z * Z := (ar_wall (b_start b), match b_end b with Some e => ar_wall e | None => 0 end).
  Definition spans (fs : fset F) : list (Z * Z) := span <$> bars fs.
  Lemma spans_lookup fs k f e : fs_heap fs !! k = Some f -> fr_end f = Some e -> spans fs !! k = Some (ar_wall (fr_start f), ar_wall e).
  Proof. intros Hf He. unfold spans, bars. rewrite !list_lookup_fmap, Hf. cbn. unfold span. cbn. now rewrite He. Qed.
  Lemma spans_length fs : length (spans fs) = length (fs_heap fs).
  Proof. unfold spans, bars. now rewrite !fmap_length. Qed.
  Lemma gaps_spans u q s bs bs' : rtc (gap_bar u q s) bs bs' -> (span <$> bs) `prefix_of` (span <$> bs').
  Proof.
    induction 1 as [|bs bs1 bs' (b & e & e' & _ & _ & _ & _ & ->) _ IH]; [reflexivity|]. etransitivity; [|exact IH]. rewrite fmap_app. now apply prefix_app_r.
  Qed.
  Lemma step_spans u q bs tk bs' : timed_step u q bs tk bs' -> (span <$> bs) `prefix_of` (span <$> bs').
  Proof.
    intros [(b & e & Hl & He & _ & ->)|(s & e & bs1 & _ & _ & _ & Hg & _ & ->)].
    - apply last_Some in Hl as (bs0 & ->). rewrite app_length. cbn [length]. replace (length bs0 + 1 - 1)%nat with (length bs0) by lia. rewrite take_app, !fmap_app. reflexivity.
    - rewrite fmap_app. apply prefix_app_r. eapply gaps_spans; eauto.
  Qed.
  Lemma run_spans u q mx z rs fs : 1 <= mx -> u <> TICK -> 0 < q -> aligned z u q -> fs_run u q mx (map fst rs) fs -> in_order_kept z (map fst rs) -> holds (spans fs) rs.
  Proof.
    intros Hmx Hu Hq Ha Hr Ho.
    assert (forall i p, spans fs !! i = Some p -> exists f e, fs_heap fs !! i = Some f /\ fr_end f = Some e /\ p = (ar_wall (fr_start f), ar_wall e) /\ ar_wall (fr_start f) < ar_wall e) as Hsp.
    { intros i p Hp. destruct (lookup_lt_is_Some_2 (fs_heap fs) i) as [f Hf]; [rewrite <- spans_length; eapply lookup_lt_Some; eauto|].
      destruct (skip_periods u q mx z _ fs i f Hmx Hu Hq Ha Hr Ho Hf) as (e & He & _ & _ & Hn & _). exists f, e. rewrite (spans_lookup _ _ _ _ Hf He) in Hp. injection Hp as <-. split; [auto|]. split; [auto|]. split; [auto|]. apply Hn. }
    split; [split|split].
    - intros i p p' Hi Hj. apply Hsp in Hi as (f & e & Hf & He & -> & _). apply Hsp in Hj as (g & e' & Hg & _ & -> & _). cbn.
      pose proof (skip_contiguous u q mx z _ fs i f g Hmx Hu Hq Ha Hr Ho Hf Hg) as E. rewrite He in E. now injection E as ->.
    - intros i p Hi. apply Hsp in Hi as (f & e & _ & _ & -> & Hlt). exact Hlt.
    - intros x Hx. destruct (skip_one_frame u q mx z _ fs (fst x) Hmx Hu Hq Ha Hr Ho) as (i & (f & e & Hf & He & Hw) & _); [apply elem_of_list_fmap; eauto|].
      exists i, (ar_wall (fr_start f), ar_wall e). split; [now apply spans_lookup|exact Hw].
    - intros x Hx. pose proof (run_good _ _ _ _ _ Hmx Hu Hq Hr) as Hgd. assert (last (map fst rs) = Some (fst x)) as Hl by (change (last (fst <$> rs) = Some (fst x)); now rewrite fmap_last, Hx).
      assert (map fst rs <> []) as Hne by (intros E; rewrite E in Hl; discriminate).
      destruct (SI_run z u q Hgd Ha mx _ fs Hmx Hr Ho Hne) as (HS & Hle). destruct (si_last _ _ _ _ _ HS) as (b & t & Hb & Ht & _). assert (t = fst x) as -> by congruence.
      specialize (Hle _ _ Hl Hb). pose proof Hb as Hb'. rewrite last_lookup in Hb'. destruct (si_bar _ _ _ _ _ HS _ _ Hb') as (s & e & _ & He & _).
      assert (fst x ∈ map fst rs) as Hin by (apply last_Some in Hl as [l' ->]; set_solver). pose proof (si_all_lt _ _ _ _ _ _ _ _ HS Hb He Hin) as Hlt.
      exists (span b). split; [unfold spans; now rewrite fmap_last, Hb|]. unfold span. rewrite He. split; [exact Hle|exact Hlt].
  Qed.
  Lemma log_periods u q ref mx z i G fs0 l rs fs : 1 <= mx -> u <> TICK -> 0 < q -> aligned z u q -> fset_init u q ref mx = Ok fs0 ->
    fs_log (only i) G (fst (add_indicator fs0 i)) l rs fs -> in_order_kept z (map fst rs) ->
    forall k b p, l !! k = Some b -> spans fs !! k = Some p -> frame_log rs (fst p) (snd p) b.
  Proof.
    intros Hmx Hu Hq Ha E0 Hh. induction Hh as [|l rs fs j Hh IH Ho|l rs fs e Hh IH|l rs fs fuel tk mo lst fs' Hh IH E HG].
    - intros _ k b p Hk. discriminate.
    - intros Hio k b p Hk Hp. apply (IH Hio k); [auto|]. unfold spans, bars in *. destruct (add_indicator_frames fs j) as (E1 & _). now rewrite E1 in Hp.
    - exact IH.
    - intros Hio. assert (in_order_kept z (map fst rs)) as Hio' by (rewrite map_app in Hio; destruct Hio as [Ho1 Hk1]; apply in_order_snoc in Ho1 as (Ho1 & _); apply Forall_app in Hk1 as [Hk1 _]; split; auto).
      pose proof (log_tick _ _ _ _ _ _ _ _ _ _ _ Hh E HG) as Hh'. pose proof (log_run _ _ _ _ _ _ _ _ _ _ E0 Hh) as Hr. pose proof (log_run _ _ _ _ _ _ _ _ _ _ E0 Hh') as Hr'.
      destruct (log_summary _ _ _ _ _ _ _ _ _ _ Hmx E0 Hh) as (_ & (_ & Hl & _) & _). destruct (log_summary _ _ _ _ _ _ _ _ _ _ Hmx E0 Hh') as (_ & (_ & Hl' & _) & _).
      intros k b p Hk Hp. rewrite <- (spans_length fs') in Hk, Hl'. rewrite <- (spans_length fs) in Hl.
      apply (deal_periods (spans fs) (spans fs') l rs tk mo Hl (fun k b p => IH Hio' k b p)) with (k := k); auto.
      + eapply run_spans; eauto.
      + eapply run_spans; eauto.
      + destruct (fs_run_wf _ _ _ _ _ Hmx Hr) as (W1 & W2 & W3 & W4 & _). eapply step_spans. eapply timed_tick_bars; [|lia|exact W1|exact E]. congruence.
      + intros Hne ->. apply Hne. unfold spans, bars. now rewrite (run_nil u q mx fs Hmx Hu Hr).
  Qed.

  Lemma listening_order pr l i e mx ts fs0 fs : listening pr l i e mx ts fs0 fs -> instants_exist (ep_tz e) -> in_order_kept (ep_tz e) ts.
  Proof.
    intros [la lb l2 eid fid u q ref made' w1 w -> Efid E0 Hn Hi He Hok Hcl -> Hfin] Hz. destruct (step_tz pr w1 (OAddFrameSet eid fid) eid e He) as (e' & He' & E). split.
    - rewrite <- E. eapply accepted_order'; eauto.
    - eapply accepted_kept; [auto|exact He'|congruence].
  Qed.
  Lemma listening_periods pr l i e mx ts fs0 fs : listening pr l i e mx ts fs0 fs -> 1 <= mx -> fs_unit fs0 <> TICK -> 0 < fs_q fs0 -> instants_exist (ep_tz e) -> aligned (ep_tz e) (fs_unit fs0) (fs_q fs0) ->
    exists u q ref lg rs, fset_init u q ref mx = Ok fs0 /\ fs_log (only i) any_step (fst (add_indicator fs0 i)) lg rs fs /\ map fst rs = ts /\
      Forall (fun x => snd x = true <-> market_hours e (ar_wall (tk_dt (fst x)))) rs /\ length lg = length (fs_heap fs) /\
      forall k b f, lg !! k = Some b -> fs_heap fs !! k = Some f -> exists x, fr_end f = Some x /\ frame_log rs (ar_wall (fr_start f)) (ar_wall x) b.
  Proof.
    intros Hl Hmx Hu Hq Hz Ha. pose proof (listening_order _ _ _ _ _ _ _ _ Hl Hz) as Ho. apply listening_log in Hl as ((u & q & ref & E0) & lg & rs & L1 & L2 & L3).
    exists u, q, ref, lg, rs. split; [auto|]. split; [auto|]. split; [auto|]. split; [auto|]. assert (fs_unit fs0 = u /\ fs_q fs0 = q) as [Eu Eq] by (destruct (fset_init_wf _ _ _ _ _ E0); tauto). rewrite Eu in Hu, Ha. rewrite Eq in Hq, Ha.
    destruct (log_summary _ _ _ _ _ _ _ _ _ _ Hmx E0 L1) as (_ & (_ & Hlen & _) & _). split; [auto|]. intros k b f Hb Hf. rewrite <- L2 in Ho.
    destruct (skip_periods u q mx _ _ fs k f Hmx Hu Hq Ha (log_run _ _ _ _ _ _ _ _ _ _ E0 L1) Ho Hf) as (x & Hx & _). exists x. split; [auto|].
    exact (log_periods _ _ _ _ _ _ _ _ _ _ _ Hmx Hu Hq Ha E0 L1 Ho k b _ Hb (spans_lookup _ _ _ _ Hf Hx)).
  Qed.
  Lemma listening_hears_periods pr l i e mx ts fs0 fs : listening pr l i e mx ts fs0 fs -> 1 <= mx -> fs_unit fs0 <> TICK -> 0 < fs_q fs0 -> instants_exist (ep_tz e) ->
    aligned (ep_tz e) (fs_unit fs0) (fs_q fs0) -> comparable ts ->
    exists rs, map fst rs = ts /\ Forall (fun x => snd x = true <-> market_hours e (ar_wall (tk_dt (fst x)))) rs /\
      forall k f, fs_heap fs !! k = Some f -> exists b x, fr_end f = Some x /\ frame_log rs (ar_wall (fr_start f)) (ar_wall x) b /\ hears i b (value_at fs (in_ref i) k).
  Proof.
    intros Hl Hmx Hu Hq Hz Ha Hc. destruct (listening_periods _ _ _ _ _ _ _ _ Hl Hmx Hu Hq Hz Ha) as (u & q & ref & lg & rs & E0 & L1 & L2 & L3 & L4 & L5). exists rs. split; [auto|]. split; [auto|].
    intros k f Hf. destruct (lookup_lt_is_Some_2 lg k) as [b Hb]; [rewrite L4; eapply lookup_lt_Some; eauto|]. destruct (L5 k b f Hb Hf) as (x & Hx & Hlog). exists b, x. split; [auto|]. split; [auto|].
    rewrite <- L2 in Hc. destruct (log_hears _ _ _ _ _ _ _ _ _ _ Hmx E0 L1 Hc) as (_ & Hh). now apply (Hh k b f).
  Qed.
  Lemma heard_listened i e s x rs : Forall (fun y => snd y = true <-> market_hours e (ar_wall (tk_dt (fst y)))) rs -> heard i (in_period s x rs) = listened i e s x (map fst rs).
  Proof.
    unfold listened, in_period, heard. induction 1 as [|y rs Hy _ IH]; [reflexivity|]. cbn [map]. rewrite !filter_cons. destruct (decide (s <= tk_wall (fst y) < x)) as [Hin|Hout].
    - cbn [List.filter]. destruct (in_mopen i) eqn:Em; cbn [negb orb].
      + destruct (snd y) eqn:Ey.
        * rewrite decide_True by (split; [auto|]; intros _; now apply Hy). cbn [map]. f_equal. exact IH.
        * rewrite decide_False; [exact IH|]. intros [_ Hm]. specialize (Hm eq_refl). apply Hy in Hm. discriminate.
      + rewrite decide_True by (split; [auto|discriminate]). cbn [map]. f_equal. exact IH.
    - rewrite decide_False by tauto. exact IH.
  Qed.
  Lemma in_period_some s x rs t : t ∈ map fst rs -> s <= tk_wall t < x -> in_period s x rs <> [].
  Proof.
    intros Ht Hw E. apply elem_of_list_fmap in Ht as (y & -> & Hy). assert (y ∈ in_period s x rs) as Hin by (apply elem_of_list_filter; auto). rewrite E in Hin. inversion Hin.
  Qed.
  Lemma listening_hours pr l i e mx ts fs0 fs k f x t : listening pr l i e mx ts fs0 fs -> 1 <= mx -> fs_unit fs0 <> TICK -> 0 < fs_q fs0 -> instants_exist (ep_tz e) ->
    aligned (ep_tz e) (fs_unit fs0) (fs_q fs0) -> comparable ts -> fs_heap fs !! k = Some f -> fr_end f = Some x -> t ∈ ts -> ar_wall (fr_start f) <= tk_wall t < ar_wall x ->
    match value_at fs (in_ref i) k with
    | Some iv => isummary (listened i e (ar_wall (fr_start f)) (ar_wall x) ts) iv
    | None => listened i e (ar_wall (fr_start f)) (ar_wall x) ts = []
    end.
  Proof.
    intros Hl Hmx Hu Hq Hz Ha Hc Hf Hx Ht Hw. destruct (listening_hears_periods _ _ _ _ _ _ _ _ Hl Hmx Hu Hq Hz Ha Hc) as (rs & L1 & L2 & L3).
    destruct (L3 k f Hf) as (b & x' & Hx' & [Hb _] & Hh). assert (x' = x) as -> by congruence. rewrite <- L1 in Ht |- *. rewrite (Hb (in_period_some _ _ _ _ Ht Hw)) in Hh.
    unfold hears in Hh. rewrite (heard_listened i e _ _ rs L2) in Hh. exact Hh.
  Qed.
  Lemma listening_tells_periods pr l i e mx ts fs0 fs mk tl : listening pr l i e mx ts fs0 fs -> 1 <= mx -> fs_unit fs0 <> TICK -> 0 < fs_q fs0 -> instants_exist (ep_tz e) ->
    aligned (ep_tz e) (fs_unit fs0) (fs_q fs0) -> in_kind i = KCustom mk tl ->
    exists lg rs, map fst rs = ts /\ Forall (fun x => snd x = true <-> market_hours e (ar_wall (tk_dt (fst x)))) rs /\ length lg = length (fs_heap fs) /\
      forall k b f, lg !! k = Some b -> fs_heap fs !! k = Some f -> (exists x, fr_end f = Some x /\ frame_log rs (ar_wall (fr_start f)) (ar_wall x) b) /\
        exists past, earlier lg fs (in_ref i) k past /\ tells i mk tl past b (value_at fs (in_ref i) k).
  Proof.
    intros Hl Hmx Hu Hq Hz Ha Hk. destruct (listening_periods _ _ _ _ _ _ _ _ Hl Hmx Hu Hq Hz Ha) as (u & q & ref & lg & rs & E0 & L1 & L2 & L3 & L4 & L5). exists lg, rs. split; [auto|]. split; [auto|].
    split; [auto|]. intros k b f Hb Hf. split; [now apply (L5 k)|]. eapply log_tells; eauto.
  Qed.
End proofs.
