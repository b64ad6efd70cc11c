(** Frame sets in zones with clock changes. *)
From Verif Require Export FrameFinalProofs SpecSkip.
Open Scope Z_scope.

(** ** Zones *)
Lemma no_skip_aligned z u q : no_skip z -> aligned z u q.
Proof.
  intros Hz. split; [intros; apply Hz|]. intros s e _ _ (A & B & C). rewrite Hz. repeat split; auto. apply Hz.
Qed.
Lemma changes_aligned z sk u q : changes z sk ->
  (forall a n, sk a n -> (forall b, boundary u q b -> ~ (a <= b < a + n)) \/ (boundary u q a /\ boundary u q (a + n))) -> aligned z u q.
Proof.
  intros [C1 C2] Hb. assert (forall a n w, sk a n -> a <= w < a + n -> ~ kept z w) as Hno.
  { intros a n w Hs Hw. destruct (C2 _ _ Hs) as (P & _ & R). unfold kept. rewrite R by auto. lia. }
  split.
  - intros w s Kw (B & L & M). destruct (C1 s) as [|(a & n & Hs & Hr)]; auto. exfalso.
    destruct (Hb _ _ Hs) as [Hn|[_ Hn]]; [eapply Hn; eauto|].
    assert (~ (a <= w < a + n)) as Hw by (intros Hw; eapply Hno; eauto). specialize (M _ Hn ltac:(lia)). lia.
  - intros s e Bs Ks (Be & Lt & M). destruct (C1 e) as [Ke|(a & n & Hs & Hr)].
    + rewrite Ke. repeat split; auto.
    + destruct (Hb _ _ Hs) as [Hn|[Ba Bn]]; [exfalso; eapply Hn; eauto|]. destruct (C2 _ _ Hs) as (P & Kn & R).
      assert (~ (a <= s < a + n)) as Hsn by (intros Hw; eapply Hno; eauto).
      assert (e = a) as -> by (specialize (M _ Ba ltac:(lia)); lia).
      rewrite R by lia. split; [auto|]. split; [auto|]. split; [lia|]. intros b Bb Kb Hlt.
      specialize (M _ Bb Hlt). destruct (Z.le_gt_cases (a + n) b); auto. exfalso. apply (Hno a n b Hs); [lia|exact Kb].
Qed.

(** Changes of whole hours suit seconds, minutes and single hours; changes away from midnight suit days and longer. *)
Lemma whole_hours_aligned z sk u q : changes z sk -> (forall a n, sk a n -> (3600000000 | a) /\ (3600000000 | n)) ->
  u = SECOND \/ u = MINUTE \/ u = HOUR /\ q = 1 -> aligned z u q.
Proof.
  intros Hc Hh Hu. apply (changes_aligned z sk); [auto|]. intros a n Hs. right. destruct (Hh _ _ Hs) as [D1 D2].
  assert (forall x, (3600000000 | x) -> boundary u q x) as Hb; [|split; apply Hb; auto; now apply Z.divide_add_r].
  intros x (k & ->). destruct Hu as [->|[->|[-> ->]]].
  - replace (k * 3600000000) with ((k * 60) * 60000000 + 0 * 1000000) by ring. constructor; [lia|apply Z.divide_0_r].
  - replace (k * 3600000000) with (k * 3600000000 + 0 * 60000000) by ring. constructor; [lia|apply Z.divide_0_r].
  - rewrite (Z.div_mod k 24) by lia. replace ((24 * (k / 24) + k mod 24) * 3600000000) with ((k / 24) * 86400000000 + (k mod 24) * 3600000000) by ring.
    constructor; [apply Z.mod_pos_bound; lia|apply Z.divide_1_l].
Qed.
Lemma no_midnight_aligned z sk u q : changes z sk -> (forall a n d, sk a n -> ~ (a <= d * 86400000000 < a + n)) ->
  u = DAY \/ u = WEEK \/ u = MONTH \/ u = YEAR -> aligned z u q.
Proof.
  intros Hc Hh Hu. apply (changes_aligned z sk); [auto|]. intros a n Hs. left. intros b Hb.
  destruct Hb; try (exfalso; clear -Hu; intuition discriminate); now apply Hh.
Qed.

(** ** C30 *)
Lemma end_next_skip u q s e : u <> TICK -> 0 < q -> unit_ok u q -> aligned (ar_tz s) u q ->
  boundary u q (ar_wall s) -> kept (ar_tz s) (ar_wall s) -> get_frame_end u q s = Ok e ->
  next_kept (ar_tz s) u q (ar_wall s) (ar_wall e) /\ ar_tz e = ar_tz s /\ forall s', get_frame_start u q e = Ok s' -> s' = e.
Proof.
  intros Hu Hq Hok [_ Ha] Hb Hk E. pose proof (mk_good _ _ Hu Hq Hok) as Hg. pose proof Hb as Hb'. apply boundary_bnd in Hb' as [k Ek]; auto.
  destruct (frame_end_bnd u q s e k Hg Ek E) as [H1 H2]. assert (next_kept (ar_tz s) u q (ar_wall s) (ar_wall e)) as N.
  { rewrite H1. apply Ha; auto. rewrite Ek. now apply next_boundary_bnd. }
  split; [auto|]. split; [auto|]. intros s' E'. destruct N as (N1 & _). destruct (frame_of_dt _ _ _ _ Hg E') as [(A' & B' & C') _].
  specialize (C' _ N1 ltac:(lia)). apply get_frame_start_wall in E' as (_ & T1 & U1); auto.
  apply get_frame_end_inv in E as (w & _ & _ & T2 & U2); auto. assert (ar_wall s' = ar_wall e) by lia. apply arrow_eq; congruence.
Qed.
Lemma partition_skip u q dt s b e : u <> TICK -> 0 < q -> unit_ok u q -> aligned (ar_tz dt) u q -> kept (ar_tz dt) (ar_wall dt) ->
  get_frame_start u q dt = Ok s -> boundary u q (ar_wall b) -> kept (ar_tz dt) (ar_wall b) -> ar_tz b = ar_tz dt -> get_frame_end u q b = Ok e ->
  (ar_wall s = ar_wall b <-> ar_wall b <= ar_wall dt < ar_wall e).
Proof.
  intros Hu Hq Hok Ha Hk E1 Hb Kb Htz E2. pose proof (mk_good _ _ Hu Hq Hok) as Hg. destruct (frame_of_dt _ _ _ _ Hg E1) as [L _].
  pose proof L as (L1 & L2 & L3). assert (kept (ar_tz dt) (ar_wall s)) as Ks by (destruct Ha as [A _]; exact (A _ _ Hk L)).
  rewrite <- Htz in Ha, Ks, Kb. destruct (end_next_skip u q b e Hu Hq Hok Ha Hb Kb E2) as ((N1 & N2 & N3 & N4) & _). split.
  - intros E. split; [lia|]. destruct (Z.le_gt_cases (ar_wall e) (ar_wall dt)) as [G|]; [|auto]. specialize (L3 _ N1 G). lia.
  - intros [G1 G2]. specialize (L3 _ Hb G1). destruct (Z.eq_dec (ar_wall s) (ar_wall b)) as [|N]; [auto|]. specialize (N4 _ L1 Ks ltac:(lia)). lia.
Qed.

Lemma keep_all {A} (P : A -> Prop) `{forall x, Decision (P x)} (l : list A) : (forall x, x ∈ l -> P x) -> filter P l = l.
Proof.
  induction l as [|a l IH]; intros Ha; [reflexivity|]. rewrite filter_cons_True by (apply Ha; set_solver).
  f_equal. apply IH. intros x Hx. apply Ha. set_solver.
Qed.
Lemma keep_none {A} (P : A -> Prop) `{forall x, Decision (P x)} (l : list A) : (forall x, x ∈ l -> ~ P x) -> filter P l = [].
Proof.
  induction l as [|a l IH]; intros Ha; [reflexivity|]. rewrite filter_cons_False by (apply Ha; set_solver).
  apply IH. intros x Hx. apply Ha. set_solver.
Qed.

(** A frame start computed without exception is in Python's range. *)
Lemma frame_start_min u q dt z x : u <> TICK -> 0 < q -> get_frame_start u q dt = Ok (arrow_of_wall z x) -> WALL_MIN <= x.
Proof.
  intros Hu Hq Es. revert Es. unfold get_frame_start, pymod, arrow_sub_td, w_add, w_replace_first. cbv zeta.
  destruct (Z.eqb_spec q 0) as [Eq|_]; [lia|]. cbn [rbind].
  assert (forall y, (let! w := if in_range y then Ok y else Err OverflowError in Ok (arrow_of_wall (ar_tz dt) w)) = Ok (arrow_of_wall z x) -> WALL_MIN <= x) as Hx.
  { intros y. destruct (in_range y) eqn:Ex; [|discriminate]. apply in_range_spec in Ex. simpl. intros E. injection E as _ E _. lia. }
  assert (forall y m, (let! s := if (1 <=? y) && (y <=? 9999) && (1 <=? m) && (m <=? 12) then Ok (w_of_date y m 1) else Err ValueError in
    Ok (arrow_of_wall (ar_tz dt) s)) = Ok (arrow_of_wall z x) -> WALL_MIN <= x) as Hm.
  { intros y m. destruct (_ && _) eqn:Ey; [|discriminate]. simpl. intros E. injection E as _ E _. rewrite <- E.
    rewrite !andb_true_iff, !Z.leb_le in Ey. unfold w_of_date. rewrite wall_min_month.
    replace (days_from_civil y m 1) with (month_first (12 * y + (m - 1))).
    - destruct (Z.eq_dec 12 (12 * y + (m - 1))) as [<-|]; [lia|]. pose proof (month_first_mono 12 (12 * y + (m - 1)) ltac:(lia)). us. lia.
    - unfold month_first. f_equal; [|].
      + rewrite Z.add_comm, Z.mul_comm, Z_div_plus_full, Z.div_small by lia. lia.
      + replace (12 * y + (m - 1)) with (m - 1 + y * 12) by lia. rewrite Z_mod_plus_full, Z.mod_small by lia. lia. }
  destruct u; eauto; congruence.
Qed.

Section skip.
  Context {F : Type} `{Num F}.
  Implicit Types fs : fset F.
  Implicit Types ts l : list (tick F).

  Section exact.
    Context (z : tzinfo) (u : unit_) (q : Z) (Hg : good u q) (Ha : aligned z u q).
    Notation at_ w := (arrow_of_wall z w).
    Definition bk (b : Z) : Prop := boundary u q b /\ kept z b.

    Lemma skip_start_at dt s : ar_tz dt = z -> kept z (ar_wall dt) -> get_frame_start u q dt = Ok s ->
      exists x, s = at_ x /\ bk x /\ x <= ar_wall dt /\ forall b, bk b -> b <= ar_wall dt -> b <= x.
    Proof.
      intros Htz Hk E. pose proof Hg as (Hu & Hq & _). destruct (frame_of_dt _ _ _ _ Hg E) as [Hl Ht].
      pose proof Hl as (L1 & L2 & L3). apply get_frame_start_wall in E as (_ & H4 & H5); auto. exists (ar_wall s).
      split; [apply arrow_eq; simpl; congruence|]. split; [split; [auto|]|].
      - destruct Ha as [A1 _]. eapply A1; eauto.
      - split; [auto|]. intros b [Bb _] Hb. auto.
    Qed.
    Lemma skip_end_at x e : bk x -> get_frame_end u q (at_ x) = Ok e -> exists y, e = at_ y /\ next_kept z u q x y.
    Proof.
      intros [Bx Kx] E. pose proof Hg as (Hu & Hq & _). pose proof Bx as Bx'. apply boundary_bnd in Bx' as [k Hk]; auto.
      destruct (frame_end_bnd u q (at_ x) e k Hg Hk E) as [H1 H2]. apply get_frame_end_inv in E as (w & _ & _ & H3 & H4); auto.
      simpl in *. exists (ar_wall e). split; [apply arrow_eq; simpl; congruence|]. rewrite H1. destruct Ha as [_ A2]. apply A2; auto.
      rewrite Hk. now apply next_boundary_bnd.
    Qed.
    Lemma next_kept_fun x y y' : next_kept z u q x y -> next_kept z u q x y' -> y = y'.
    Proof. intros (A & B & C & D) (A' & B' & C' & D'). specialize (D y' A' B' C'). specialize (D' y A B C). lia. Qed.

    Record SI ts (bs : list bar) : Prop := {
      si_bar : forall i b, bs !! i = Some b -> exists s e, b_start b = at_ s /\ b_end b = Some (at_ e) /\ bk s /\ next_kept z u q s e /\ bcovers ts s e b;
      si_link : forall i b c, bs !! i = Some b -> bs !! S i = Some c -> b_end b = Some (b_start c);
      si_in : forall t, t ∈ ts -> exists i b e, bs !! i = Some b /\ b_end b = Some e /\ ar_wall (b_start b) <= tk_wall t < ar_wall e;
      si_last : exists b t, last bs = Some b /\ last ts = Some t /\ b_last b = t }.

    (** Frames follow each other. *)
    Lemma si_after ts bs i j b c e : SI ts bs -> bs !! i = Some b -> bs !! j = Some c -> (i < j)%nat -> b_end b = Some e ->
      ar_wall e <= ar_wall (b_start c).
    Proof.
      intros HS Hb Hc Hlt He. revert c Hc. induction Hlt as [|j Hlt IH]; intros c Hc.
      - rewrite (si_link _ _ HS _ _ _ Hb Hc) in He. injection He as <-. lia.
      - destruct (lookup_lt_is_Some_2 bs j) as [d Hd]; [apply lookup_lt_Some in Hc; lia|]. specialize (IH d Hd).
        destruct (si_bar _ _ HS j d Hd) as (s1 & e1 & E1 & E2 & _ & (_ & _ & L & _) & _).
        pose proof (si_link _ _ HS _ _ _ Hd Hc) as El. rewrite E2 in El. injection El as El. rewrite <- El. rewrite E1 in IH. simpl in *. lia.
    Qed.
    Lemma si_end_le ts bs i b e b' e' : SI ts bs -> bs !! i = Some b -> b_end b = Some e -> last bs = Some b' -> b_end b' = Some e' -> ar_wall e <= ar_wall e'.
    Proof.
      intros HS Hb He Hl He'. rewrite last_lookup in Hl. pose proof (lookup_lt_Some _ _ _ Hb) as Hi.
      destruct (decide (i = pred (length bs))) as [->|Hne]; [replace e' with e by congruence; lia|].
      pose proof (si_after _ _ _ _ _ _ _ HS Hb Hl ltac:(lia) He) as Hle.
      destruct (si_bar _ _ HS _ _ Hl) as (s1 & e1 & E1 & E2 & _ & (_ & _ & L & _) & _). rewrite E1 in Hle. rewrite E2 in He'. injection He' as <-. simpl in *. lia.
    Qed.
    Lemma si_all_lt ts bs b e t : SI ts bs -> last bs = Some b -> b_end b = Some e -> t ∈ ts -> tk_wall t < ar_wall e.
    Proof.
      intros HS Hb He Ht. destruct (si_in _ _ HS t Ht) as (i & c & e1 & E1 & E2 & E3). pose proof (si_end_le _ _ _ _ _ _ _ HS E1 E2 Hb He). lia.
    Qed.
    Lemma snoc_lookup {A} (l : list A) x i y : (l ++ [x]) !! i = Some y -> l !! i = Some y \/ i = length l /\ y = x.
    Proof.
      intros E. apply lookup_app_Some in E as [E|[Hl E]]; [auto|]. right. destruct (i - length l)%nat as [|j] eqn:Ei; [|destruct j; discriminate].
      injection E as <-. split; [lia|auto].
    Qed.
    Lemma snoc_link (bs : list bar) (d : bar) (x : arrow) : (forall i b c, bs !! i = Some b -> bs !! S i = Some c -> b_end b = Some (b_start c)) ->
      (forall b, last bs = Some b -> b_end b = Some x) -> b_start d = x ->
      forall i b c, (bs ++ [d]) !! i = Some b -> (bs ++ [d]) !! S i = Some c -> b_end (F:=F) b = Some (b_start c).
    Proof.
      intros Hl Hx Hd i b c Hb Hc. apply snoc_lookup in Hc as [Hc|[Hi ->]].
      - apply snoc_lookup in Hb as [Hb|[-> _]]; [eauto|]. apply lookup_lt_Some in Hc. lia.
      - apply snoc_lookup in Hb as [Hb|[-> _]]; [|lia]. rewrite Hd. apply Hx. rewrite last_lookup, <- Hi. exact Hb.
    Qed.

    (** A gap frame. *)
    Lemma SI_gap ts bs b x y : SI ts bs -> last bs = Some b -> b_end b = Some (at_ x) -> bk x -> next_kept z u q x y ->
      SI ts (bs ++ [bar_new (b_last b) (at_ x) (Some (at_ y))]).
    Proof.
      intros HS Hb He Bx Nx. pose proof HS as [S1 S2 S3 (b' & t & S4 & S5 & S6)]. assert (b' = b) as -> by congruence.
      assert (forall t, t ∈ ts -> tk_wall t < x) as Hall by (intros t0 H0; apply (si_all_lt _ _ _ _ _ HS Hb He H0)). split.
      - intros i c Hc. apply snoc_lookup in Hc as [Hc|[-> ->]]; [exact (S1 _ _ Hc)|]. exists x, y. do 4 (split; [auto|]).
        assert (ticks_in x y ts = []) as E by (apply keep_none; intros t0 H0; specialize (Hall _ H0); lia).
        split; [congruence|]. intros _. exists t. rewrite keep_all; [simpl; auto 10|auto].
      - apply (snoc_link _ _ (at_ x)); auto. intros c Hc. congruence.
      - intros t0 H0. destruct (S3 t0 H0) as (i & c & e & E1 & E2 & E3). exists i, c, e. split; [now apply lookup_app_l_Some|auto].
      - eexists _, t. rewrite last_snoc. auto.
    Qed.
    (** A new frame with the tick. *)
    Lemma SI_new ts bs tk x y : SI ts bs -> (forall b, last bs = Some b -> b_end b = Some (at_ x)) -> bk x -> next_kept z u q x y -> x <= tk_wall tk < y ->
      SI (ts ++ [tk]) (bs ++ [bar_new tk (at_ x) (Some (at_ y))]).
    Proof.
      intros HS He Bx Nx Hw. pose proof HS as [S1 S2 S3 (b & t & S4 & S5 & S6)]. pose proof (He _ S4) as Eb.
      assert (forall t, t ∈ ts -> tk_wall t < x) as Hall by (intros t0 H0; apply (si_all_lt _ _ _ _ _ HS S4 Eb H0)). split.
      - intros i c Hc. apply snoc_lookup in Hc as [Hc|[-> ->]].
        + destruct (S1 i c Hc) as (s & e & E1 & E2 & E3 & E4 & E5). exists s, e. do 4 (split; [auto|]).
          pose proof (si_end_le _ _ _ _ _ _ _ HS Hc E2 S4 Eb) as Hle. simpl in Hle. destruct E4 as (_ & _ & L & _). apply bcovers_snoc; auto. lia.
        + exists x, y. do 4 (split; [auto|]).
          assert (ticks_in x y (ts ++ [tk]) = [tk]) as E.
          { rewrite ticks_in_snoc_in by auto. unfold ticks_in. rewrite keep_none; auto. intros t0 H0. specialize (Hall _ H0). lia. }
          split; rewrite E; [intros _; apply bsum_one|discriminate].
      - apply (snoc_link _ _ (at_ x)); auto.
      - intros t0 H0. apply elem_of_app in H0 as [H0|H0].
        + destruct (S3 t0 H0) as (i & c & e & E1 & E2 & E3). exists i, c, e. split; [now apply lookup_app_l_Some|auto].
        + apply elem_of_list_singleton in H0 as ->. exists (length bs), (bar_new tk (at_ x) (Some (at_ y))), (at_ y).
          split; [rewrite lookup_app_r, Nat.sub_diag by lia; reflexivity|]. simpl. auto.
      - eexists _, tk. rewrite !last_snoc. eauto.
    Qed.
    (** The first frame. *)
    Lemma SI_first tk x y : bk x -> next_kept z u q x y -> x <= tk_wall tk < y -> SI [tk] [bar_new tk (at_ x) (Some (at_ y))].
    Proof.
      intros Bx Nx Hw. split.
      - intros i c Hc. destruct i; [|discriminate]. injection Hc as <-. exists x, y. do 4 (split; [auto|]).
        assert (ticks_in x y [tk] = [tk]) as E by (unfold ticks_in; rewrite filter_cons_True by auto; reflexivity).
        split; rewrite E; [intros _; apply bsum_one|discriminate].
      - intros i b c _ Hc. destruct i; discriminate.
      - intros t Ht. apply elem_of_list_singleton in Ht as ->. exists 0%nat. eexists _, _. split; [reflexivity|]. simpl. auto.
      - eexists _, tk. repeat split.
    Qed.
    (** One more tick in the current frame. *)
    Lemma SI_add ts bs b e tk t : SI ts bs -> last bs = Some b -> b_end b = Some e -> last ts = Some t ->
      ar_wall (b_start b) <= tk_wall t -> tk_wall t <= tk_wall tk < ar_wall e ->
      SI (ts ++ [tk]) (take (length bs - 1) bs ++ [bar_tick b tk]).
    Proof.
      intros HS Hb He Ht Hw1 Hw2. pose proof HS as [S1 S2 S3 _]. pose proof Hb as Hb'. apply last_Some in Hb' as [l El].
      assert (take (length bs - 1) bs = l) as -> by (rewrite El, app_length; simpl; replace (length l + 1 - 1)%nat with (length l) by lia; apply take_app).
      assert (bs !! length l = Some b) as Hbl by (rewrite El, lookup_app_r, Nat.sub_diag by lia; reflexivity). split.
      - intros i c Hc. apply snoc_lookup in Hc as [Hc|[-> ->]].
        + assert (bs !! i = Some c) as Hc' by (rewrite El; now apply lookup_app_l_Some).
          destruct (S1 i c Hc') as (s & e1 & E1 & E2 & E3 & E4 & E5). exists s, e1. do 4 (split; [auto|]).
          pose proof (si_after _ _ i (length l) _ _ _ HS Hc' Hbl ltac:(now apply lookup_lt_Some in Hc) E2) as Hle. simpl in Hle.
          destruct E4 as (_ & _ & L & _). apply bcovers_snoc; auto. lia.
        + destruct (S1 _ _ Hbl) as (s & e1 & E1 & E2 & E3 & E4 & E5). exists s, e1. do 4 (split; [auto|]).
          rewrite E2 in He. injection He as <-. rewrite E1 in Hw1. simpl in Hw1, Hw2.
          assert (t ∈ ticks_in s e1 ts) as Hin.
          { apply elem_of_list_filter. split; [lia|]. apply last_Some in Ht as [l' ->]. set_solver. }
          destruct E5 as [E5 _]. assert (ticks_in s e1 ts <> []) as Hne by (intros E; rewrite E in Hin; inversion Hin).
          split; rewrite ticks_in_snoc_in by lia.
          * intros _. apply bsum_snoc. auto.
          * intros E. exfalso. eapply app_cons_not_nil. symmetry. exact E.
      - apply (snoc_link _ _ (b_start b)); auto.
        + intros i c d Hc Hd. apply (S2 i); rewrite El; now apply lookup_app_l_Some.
        + intros c Hc. rewrite last_lookup in Hc. pose proof (lookup_lt_Some _ _ _ Hc). apply (S2 (pred (length l))); [rewrite El; now apply lookup_app_l_Some|].
          replace (S (pred (length l))) with (length l) by lia. exact Hbl.
      - intros t0 H0. apply elem_of_app in H0 as [H0|H0].
        + destruct (S3 t0 H0) as (i & c & e1 & E1 & E2 & E3). rewrite El in E1. apply snoc_lookup in E1 as [E1|[-> ->]].
          * exists i, c, e1. split; [now apply lookup_app_l_Some|auto].
          * exists (length l), (bar_tick b tk), e1. split; [rewrite lookup_app_r, Nat.sub_diag by lia; reflexivity|]. simpl. auto.
        + apply elem_of_list_singleton in H0 as ->. exists (length l), (bar_tick b tk), e.
          split; [rewrite lookup_app_r, Nat.sub_diag by lia; reflexivity|]. simpl. split; [auto|lia].
      - eexists _, tk. rewrite !last_snoc. eauto.
    Qed.

    (** Gap frames stop at or before the start of the new frame. *)
    Definition ends_by (bs : list (bar (F:=F))) (x : Z) : Prop := forall b, last bs = Some b -> exists y, b_end b = Some (at_ y) /\ bk y /\ y <= x.
    Lemma SI_gaps ts bs x bs1 : SI ts bs -> rtc (gap_bar u q (at_ x)) bs bs1 -> bk x -> ends_by bs x -> SI ts bs1 /\ ends_by bs1 x.
    Proof.
      intros HS Hr Bx. induction Hr as [bs|bs bs' bs1 Hs Hr IH]; intros Hk; [auto|].
      destruct Hs as (b & e & e' & Hb & He & Hlt & Hge & ->). destruct (Hk b Hb) as (y & Ey & By & Ly). assert (e = at_ y) as -> by congruence.
      destruct (skip_end_at _ _ By Hge) as (y' & -> & Ny). rewrite arrow_ltb_same in Hlt by auto. apply Z.ltb_lt in Hlt. simpl in Hlt.
      apply IH; [now apply SI_gap|]. intros c Hc. rewrite last_snoc in Hc. injection Hc as <-. exists y'. split; [reflexivity|].
      destruct Ny as (N1 & N2 & N3 & N4). split; [split; auto|]. destruct Bx as [Bx Kx]. auto.
    Qed.

    Lemma SI_run mx ts fs : 1 <= mx -> fs_run u q mx ts fs -> in_order_kept z ts -> ts <> [] ->
      SI ts (bars fs) /\ (forall t b, last ts = Some t -> last (bars fs) = Some b -> ar_wall (b_start b) <= tk_wall t).
    Proof.
      intros Hmx. pose proof Hg as (Hu & Hq & Hok). revert fs. induction ts as [|tk ts IH] using rev_ind; intros fs Hr [Ho Hkp] Hne; [congruence|].
      apply fs_run_bars in Hr as [[E _]|(ts0 & tk0 & fs0 & E & Hr & Hs)]; auto; [destruct ts; discriminate|].
      apply app_inj_2 in E as [<- [= <-]]; [|reflexivity]. apply in_order_snoc in Ho as (Ho & Htz & Hle).
      apply Forall_app in Hkp as [Hkp Hkt]. rewrite Forall_singleton in Hkt.
      destruct (decide (ts = [])) as [->|Hts].
      - assert (bars fs0 = []) as E0.
        { apply fs_run_bars in Hr as [[_ E]|(? & ? & ? & E & _)]; auto. destruct x; discriminate. }
        rewrite E0 in Hs. destruct Hs as [(b & e & Hb & _)|(s & e & bs1 & _ & Hs & He & Hgap & _ & Hbs)]; [discriminate|].
        destruct (skip_start_at _ _ Htz Hkt Hs) as (x & -> & Bx & Lx & Mx). destruct (skip_end_at _ _ Bx He) as (y & -> & Ny).
        assert (bs1 = []) as ->.
        { inversion Hgap as [|x0 y0 w Hx]; subst; auto. destruct Hx as (b & e & e' & Hb & _). discriminate. }
        rewrite Hbs. split.
        + apply SI_first; auto. split; [exact Lx|]. destruct Ny as (N1 & N2 & N3 & N4). destruct (Z.le_gt_cases y (tk_wall tk)) as [L|]; auto.
          specialize (Mx y (conj N1 N2) L). lia.
        + intros t b [= <-] [= <-]. exact Lx.
      - destruct (IH _ Hr (conj Ho Hkp) Hts) as (HS & Hl). clear IH.
        destruct Hs as [(b & e & Hb & He & Hlt & Hbs)|(s & e & bs1 & Hover & Hs & He & Hgap & Hend & Hbs)].
        + destruct (last ts) as [t|] eqn:Et; [|apply last_None in Et; congruence]. specialize (Hl t b eq_refl Hb).
          assert (ar_tz e = z) as Tz.
          { pose proof Hb as Hb'. rewrite last_lookup in Hb'. destruct (si_bar _ _ HS _ _ Hb') as (s1 & e1 & _ & E2 & _). rewrite E2 in He. now injection He as <-. }
          rewrite arrow_ltb_same in Hlt by congruence. apply Z.ltb_lt in Hlt.
          assert (t ∈ ts) as Hin by (apply last_Some in Et as [l' ->]; set_solver). specialize (Hle t Hin).
          rewrite Hbs. split; [eapply SI_add; eauto; unfold tk_wall in *; lia|].
          intros t' b' Ht' Hb'. rewrite last_snoc in Ht'. rewrite last_snoc in Hb'. injection Ht' as <-. injection Hb' as <-. simpl. lia.
        + destruct (skip_start_at _ _ Htz Hkt Hs) as (x & -> & Bx & Lx & Mx). destruct (skip_end_at _ _ Bx He) as (y & -> & Ny).
          assert (ends_by (bars fs0) x) as Hk0.
          { intros b Hb. destruct (Hover b Hb) as (e0 & He0 & Hge). rewrite last_lookup in Hb.
            destruct (si_bar _ _ HS _ _ Hb) as (s1 & e1 & _ & E2 & _ & (N1 & N2 & _) & _). rewrite E2 in He0. injection He0 as <-.
            exists e1. split; [auto|]. split; [split; auto|]. rewrite arrow_ltb_same in Hge by auto. apply Z.ltb_ge in Hge. simpl in Hge. apply Mx; [split; auto|exact Hge]. }
          destruct (SI_gaps _ _ _ _ HS Hgap Bx Hk0) as [HS1 Hk1]. rewrite Hbs. split.
          * apply SI_new; auto.
            -- intros b Hb. destruct (Hk1 b Hb) as (y0 & Ey & By & Ly). rewrite Ey. destruct (Hend b Hb) as (e0 & He0 & Hge).
               rewrite Ey in He0. injection He0 as <-. rewrite arrow_ltb_same in Hge by auto. apply Z.ltb_ge in Hge. simpl in Hge. do 2 f_equal. lia.
            -- split; [exact Lx|]. destruct Ny as (N1 & N2 & N3 & N4). destruct (Z.le_gt_cases y (tk_wall tk)) as [L|]; auto. specialize (Mx y (conj N1 N2) L). lia.
          * intros t' b' Ht' Hb'. rewrite last_snoc in Ht'. rewrite last_snoc in Hb'. injection Ht' as <-. injection Hb' as <-. exact Lx.
    Qed.
  End exact.

  Lemma no_skip_in_order_kept z ts : no_skip z -> in_order z ts -> in_order_kept z ts.
  Proof. intros Hz Ho. split; [auto|]. apply Forall_forall. intros t _. apply Hz. Qed.

  Lemma skip_contiguous u q mx z ts fs i f g : 1 <= mx -> u <> TICK -> 0 < q -> aligned z u q -> fs_run u q mx ts fs -> in_order_kept z ts ->
    fs_heap fs !! i = Some f -> fs_heap fs !! (S i) = Some g -> fr_end f = Some (fr_start g).
  Proof.
    intros Hmx Hu Hq Ha Hr Ho Hf Hg. pose proof (run_good _ _ _ _ _ Hmx Hu Hq Hr) as Hgd.
    destruct (decide (ts = [])) as [->|Hne]; [rewrite (run_nil _ _ _ _ Hmx Hu Hr) in Hf; discriminate|].
    destruct (SI_run z u q Hgd Ha mx ts fs Hmx Hr Ho Hne) as (HS & _).
    exact (si_link _ _ _ _ _ HS _ _ _ (heap_bar _ _ _ Hf) (heap_bar _ _ _ Hg)).
  Qed.
  Lemma skip_periods u q mx z ts fs i f : 1 <= mx -> u <> TICK -> 0 < q -> aligned z u q -> fs_run u q mx ts fs -> in_order_kept z ts ->
    fs_heap fs !! i = Some f -> exists e, fr_end f = Some e /\ boundary u q (ar_wall (fr_start f)) /\ kept z (ar_wall (fr_start f)) /\
      next_kept z u q (ar_wall (fr_start f)) (ar_wall e) /\ ar_tz (fr_start f) = z /\ ar_tz e = z.
  Proof.
    intros Hmx Hu Hq Ha Hr Ho Hf. pose proof (run_good _ _ _ _ _ Hmx Hu Hq Hr) as Hgd.
    destruct (decide (ts = [])) as [->|Hne]; [rewrite (run_nil _ _ _ _ Hmx Hu Hr) in Hf; discriminate|].
    destruct (SI_run z u q Hgd Ha mx ts fs Hmx Hr Ho Hne) as (HS & _).
    destruct (si_bar _ _ _ _ _ HS _ _ (heap_bar _ _ _ Hf)) as (s & e & E1 & E2 & [B K] & N & _). simpl in E1, E2. exists (arrow_of_wall z e).
    rewrite E1. simpl. auto 10.
  Qed.
  Lemma skip_covers u q mx z ts fs i f : 1 <= mx -> u <> TICK -> 0 < q -> aligned z u q -> comparable ts -> fs_run u q mx ts fs -> in_order_kept z ts ->
    fs_heap fs !! i = Some f -> exists e, fr_end f = Some e /\ covers ts (ar_wall (fr_start f)) (ar_wall e) f.
  Proof.
    intros Hmx Hu Hq Ha Hcmp Hr Ho Hf. pose proof (run_good _ _ _ _ _ Hmx Hu Hq Hr) as Hgd.
    destruct (decide (ts = [])) as [->|Hne]; [rewrite (run_nil _ _ _ _ Hmx Hu Hr) in Hf; discriminate|].
    destruct (SI_run z u q Hgd Ha mx ts fs Hmx Hr Ho Hne) as (HS & _).
    destruct (si_bar _ _ _ _ _ HS _ _ (heap_bar _ _ _ Hf)) as (s & e & E1 & E2 & _ & _ & C1 & C2). simpl in E1, E2. exists (arrow_of_wall z e).
    split; [auto|]. rewrite E1. simpl. split.
    - intros Hn. destruct (C1 Hn) as (S1 & S2 & S3 & S4). simpl in *.
      destruct S4 as [S4 S5]; [eapply comparable_sub, Hcmp; intros x Hx; now apply elem_of_list_filter in Hx as [_ Hx]|].
      repeat split; auto.
    - intros Hn. destruct (C2 Hn) as (t & T1 & T2 & T3 & T4 & T5 & T6). exists t. split; [auto|]. repeat split; auto.
  Qed.
  Lemma skip_one_frame u q mx z ts fs t : 1 <= mx -> u <> TICK -> 0 < q -> aligned z u q -> fs_run u q mx ts fs -> in_order_kept z ts -> t ∈ ts ->
    exists i, (exists f e, fs_heap fs !! i = Some f /\ fr_end f = Some e /\ ar_wall (fr_start f) <= tk_wall t < ar_wall e) /\
      forall j, (exists f e, fs_heap fs !! j = Some f /\ fr_end f = Some e /\ ar_wall (fr_start f) <= tk_wall t < ar_wall e) -> j = i.
  Proof.
    intros Hmx Hu Hq Ha Hr Ho Ht. pose proof (run_good _ _ _ _ _ Hmx Hu Hq Hr) as Hgd. assert (ts <> []) as Hne by (intros ->; inversion Ht).
    destruct (SI_run z u q Hgd Ha mx ts fs Hmx Hr Ho Hne) as (HS & _). destruct (si_in _ _ _ _ _ HS t Ht) as (i & b & e & Hb & He & Hw).
    exists i. split.
    - unfold bars in Hb. rewrite list_lookup_fmap in Hb. destruct (fs_heap fs !! i) as [f|]; [|discriminate]. injection Hb as <-. exists f, e. auto.
    - intros j (f & e' & Hf & He' & Hw'). pose proof (heap_bar _ _ _ Hf) as Hf'. destruct (lt_eq_lt_dec i j) as [[L| ->]|L]; [|auto|].
      + pose proof (si_after z u q _ _ _ _ _ _ _ HS Hb Hf' L He). simpl in *. lia.
      + pose proof (si_after z u q _ _ _ _ _ _ _ HS Hf' Hb L He'). lia.
  Qed.

  (** One frame per elapsed period. *)
  Lemma find_start z u q ts (bs : list bar) i j b c x : SI z u q ts bs -> bs !! i = Some b -> bs !! j = Some c -> (i <= j)%nat ->
    ar_wall (b_start b) < x -> x <= ar_wall (b_start c) -> boundary u q x -> kept z x -> exists k d, (i < k <= j)%nat /\ bs !! k = Some d /\ ar_wall (b_start d) = x.
  Proof.
    intros HS Hb Hc Hij Lb Lc Bx Kx. revert c Hc Lc. induction Hij as [|j Hij IH]; intros c Hc Lc; [assert (b = c) as -> by congruence; lia|].
    destruct (Z.eq_dec x (ar_wall (b_start c))) as [->|Nx]; [exists (S j), c; repeat split; auto; lia|].
    destruct (lookup_lt_is_Some_2 bs j) as [d Hd]; [apply lookup_lt_Some in Hc; lia|].
    destruct (si_bar _ _ _ _ _ HS _ _ Hd) as (s & e & E1 & E2 & _ & (_ & _ & _ & N) & _).
    pose proof (si_link _ _ _ _ _ HS _ _ _ Hd Hc) as El. rewrite E2 in El. injection El as El. rewrite <- El in Lc, Nx. simpl in Lc, Nx.
    destruct (IH d Hd) as (k & d' & Hk & Hd' & Ex).
    - rewrite E1. simpl. destruct (Z.le_gt_cases x s) as [|L]; [auto|]. specialize (N x Bx Kx ltac:(lia)). lia.
    - exists k, d'. split; [lia|auto].
  Qed.
  Lemma starts_step u q (bs : list (bar (F:=F))) tk bs' : timed_step u q bs tk bs' ->
    (length bs <= length bs')%nat /\ forall i b, bs !! i = Some b -> exists b', bs' !! i = Some b' /\ b_start b' = b_start b /\ b_end b' = b_end b.
  Proof.
    intros [(b & e & Hb & He & _ & ->)|(s & e & bs1 & _ & _ & _ & Hr & _ & ->)].
    - pose proof Hb as Hb'. apply last_Some in Hb' as [l ->]. rewrite !app_length, take_length. simpl.
      replace (length l + 1 - 1)%nat with (length l) by lia. rewrite take_app, app_length. simpl. split; [lia|]. intros i c Hc.
      apply snoc_lookup in Hc as [Hc|[-> ->]]; [exists c; split; [now apply lookup_app_l_Some|auto]|].
      eexists. split; [rewrite lookup_app_r, Nat.sub_diag by lia; reflexivity|]. auto.
    - enough (exists k, bs1 = bs ++ k) as [k ->].
      { rewrite !app_length. split; [lia|]. intros i b Hb. exists b. split; [|auto]. rewrite <- app_assoc. now apply lookup_app_l_Some. }
      clear -Hr. induction Hr as [bs|bs bs' bs1 Hs Hr IH]; [exists []; now rewrite app_nil_r|]. destruct IH as [k ->]. destruct Hs as (b & e0 & e' & _ & _ & _ & _ & ->).
      eexists. rewrite <- app_assoc. reflexivity.
  Qed.
  Lemma skip_per_period z u q mx ts fs fuel tk mo lst fs' t0 bl : 1 <= mx -> u <> TICK -> 0 < q -> aligned z u q -> fs_run u q mx ts fs ->
    in_order_kept z (ts ++ [tk]) -> last ts = Some t0 -> fs_on_new_tick fuel fs tk mo lst = (fs', Ok ()) -> elapsed_kept z u q (tk_wall t0) (tk_wall tk) bl ->
    length (fs_heap fs') = (length (fs_heap fs) + length bl)%nat.
  Proof.
    intros Hmx Hu Hq Ha Hr Ho Ht0 E [Hnd Hbl]. pose proof (run_good _ _ _ _ _ Hmx Hu Hq Hr) as Hgd.
    pose proof Ho as [Ho1 Hk1]. apply in_order_snoc in Ho1 as (Ho1 & Htz & Hle). apply Forall_app in Hk1 as [Hk1 Hk2].
    assert (ts <> []) as Hne by (intros ->; discriminate). pose proof (run_tick u q mx _ _ _ _ _ _ _ Hr E) as Hr'.
    pose proof (fs_run_wf _ _ _ _ _ Hmx Hr) as (W1 & W2 & W3 & W4 & _). assert (1 <= fs_max fs) as Hmx' by lia.
    pose proof (timed_tick_bars _ _ _ _ _ _ ltac:(rewrite W3; exact Hu) Hmx' W1 E) as Hst. rewrite W3, W4 in Hst.
    destruct (SI_run z u q Hgd Ha mx ts fs Hmx Hr (conj Ho1 Hk1) Hne) as (HS & Hl).
    destruct (SI_run z u q Hgd Ha mx (ts ++ [tk]) fs' Hmx Hr' Ho ltac:(destruct ts; discriminate)) as (HS' & Hl').
    destruct (starts_step _ _ _ _ _ Hst) as [Hlen Hpre].
    assert (length (bars fs) = length (fs_heap fs)) as L1 by (unfold bars; apply fmap_length).
    assert (length (bars fs') = length (fs_heap fs')) as L2 by (unfold bars; apply fmap_length).
    rewrite <- L1, <- L2. clear L1 L2.
    destruct (si_last _ _ _ _ _ HS) as (b0 & t & Hb0 & Ht & _). assert (t = t0) as -> by congruence. specialize (Hl _ _ Ht0 Hb0).
    pose proof Hb0 as Hb0'. rewrite last_lookup in Hb0'. destruct (Hpre _ _ Hb0') as (b0n & Hb0n & Es0 & Ee0).
    destruct (si_bar _ _ _ _ _ HS _ _ Hb0') as (s0 & e0 & S1 & S2 & _ & S4 & _). assert (t0 ∈ ts) as Hin by (apply last_Some in Ht0 as [l' ->]; set_solver).
    pose proof (si_all_lt _ _ _ _ _ _ _ _ HS Hb0 S2 Hin) as Hlt0. rewrite S1 in Hl. simpl in Hl, Hlt0.
    destruct (si_last _ _ _ _ _ HS') as (b1 & t1 & Hb1 & Ht1 & _). rewrite last_snoc in Ht1. injection Ht1 as <-. specialize (Hl' _ _ (last_snoc _ _) Hb1).
    set (n := length (bars fs)) in *. assert (n <> 0%nat) as Hn by (subst n; destruct (bars fs); [discriminate|simpl; lia]).
    assert (Permutation bl ((fun b => ar_wall (b_start b)) <$> drop n (bars fs'))) as Hp.
    { apply NoDup_Permutation; auto.
      - apply NoDup_fmap_2_strong; [|].
        2:{ rewrite NoDup_alt. intros i j x Hi Hj. rewrite lookup_drop in Hi, Hj.
            destruct (lt_eq_lt_dec i j) as [[L| ->]|L]; [exfalso|auto|exfalso];
            destruct (si_bar _ _ _ _ _ HS' _ _ Hi) as (s & e & E1 & E2 & _ & (_ & _ & L3 & _) & _);
            [pose proof (si_after z u q _ _ _ _ _ _ _ HS' Hi Hj ltac:(lia) E2) as L4|pose proof (si_after z u q _ _ _ _ _ _ _ HS' Hj Hi ltac:(lia) E2) as L4];
            rewrite E1 in L4; simpl in L4; lia. }
        intros x y Hx Hy Exy. apply elem_of_list_lookup in Hx as [i Hi]. apply elem_of_list_lookup in Hy as [j Hj]. rewrite lookup_drop in Hi, Hj.
        destruct (si_bar _ _ _ _ _ HS' _ _ Hi) as (s & e & E1 & E2 & _ & (_ & _ & L3 & _) & _).
        destruct (si_bar _ _ _ _ _ HS' _ _ Hj) as (s' & e' & E1' & E2' & _ & (_ & _ & L3' & _) & _).
        destruct (lt_eq_lt_dec i j) as [[L| ->]|L]; [exfalso|congruence|exfalso].
        + pose proof (si_after z u q _ _ _ _ _ _ _ HS' Hi Hj ltac:(lia) E2) as L4. rewrite <- Exy, E1 in L4. simpl in L4. lia.
        + pose proof (si_after z u q _ _ _ _ _ _ _ HS' Hj Hi ltac:(lia) E2') as L4. rewrite Exy, E1' in L4. simpl in L4. lia.
      - intros x. rewrite Hbl, elem_of_list_fmap. split.
        + intros (Bx & Kx & Hx1 & Hx2).
          pose proof Hb1 as Hb1'. rewrite last_lookup in Hb1'.
          destruct (si_bar _ _ _ _ _ HS' _ _ Hb1') as (s1 & e1 & F1 & F2 & _ & (_ & _ & _ & F3) & _).
          assert (x <= s1) as Hx3.
          { destruct (Z.le_gt_cases x s1) as [|L]; [auto|]. specialize (F3 _ Bx Kx ltac:(lia)).
            pose proof (si_all_lt _ _ _ _ _ _ _ tk HS' Hb1 F2 ltac:(set_solver)) as L4. simpl in L4. lia. }
          destruct (find_start z u q _ _ (pred n) _ b0n b1 x HS' Hb0n Hb1') as (k & d & Hk & Hd & <-); auto.
          { apply lookup_lt_Some in Hb0n. lia. }
          { rewrite Es0, S1. simpl. lia. }
          { rewrite F1. exact Hx3. }
          exists d. split; [reflexivity|]. apply elem_of_list_lookup. exists (k - n)%nat. rewrite lookup_drop. replace (n + (k - n))%nat with k by lia. exact Hd.
        + intros (b & -> & Hb). apply elem_of_list_lookup in Hb as [i Hi]. rewrite lookup_drop in Hi.
          destruct (si_bar _ _ _ _ _ HS' _ _ Hi) as (s & e & E1 & E2 & [E3 E4] & _). rewrite E1. simpl. split; [auto|]. split; [auto|]. split.
          * pose proof (si_after z u q _ _ _ _ _ _ _ HS' Hb0n Hi ltac:(lia) ltac:(rewrite Ee0; exact S2)) as L4. rewrite E1 in L4. simpl in L4. lia.
          * rewrite last_lookup in Hb1. destruct (decide (n + i = pred (length (bars fs')))%nat) as [Ei|Ei].
            -- rewrite Ei in Hi. assert (b = b1) as -> by congruence. rewrite E1 in Hl'. exact Hl'.
            -- pose proof (si_after z u q _ _ _ _ _ _ _ HS' Hi Hb1 ltac:(apply lookup_lt_Some in Hi; lia) E2) as L4.
               destruct (si_bar _ _ _ _ _ HS' _ _ Hi) as (s2 & e2 & F1 & F2 & _ & (_ & _ & L5 & _) & _). rewrite F1 in E1. injection E1 as _ <-.
               rewrite F2 in E2. injection E2 as _ <-. simpl in L4. lia. }
    apply Permutation_length in Hp. rewrite Hp, fmap_length, drop_length. lia.
  Qed.

  (** ** No exception without indicators *)
  Lemma skip_no_exception z u q mx ts fs tk mo lst : 1 <= mx -> u <> TICK -> 0 < q -> aligned z u q -> resolves_forward z ->
    fs_run u q mx ts fs -> in_order_kept z (ts ++ [tk]) -> fs_inds fs = [] ->
    (forall t, t ∈ ts ++ [tk] -> WALL_MIN <= tk_wall t) -> (u = YEAR -> q <= w_year (tk_wall tk)) ->
    (forall e, next_boundary u q (tk_wall tk) e -> e <= WALL_MAX) ->
    exists fs', fs_on_new_tick (gap_fuel fs tk) fs tk mo lst = (fs', Ok ()).
  Proof.
    intros Hmx Hu Hq Ha Hzf Hr Ho Hi Hmin Hy Hmax. pose proof (run_good _ _ _ _ _ Hmx Hu Hq Hr) as Hg. pose proof Hg as (_ & _ & Hok).
    pose proof Ho as [Ho1 Hk1]. apply in_order_snoc in Ho1 as (Ho1 & Htz & Hle). apply Forall_app in Hk1 as [Hk1 Hk2]. rewrite Forall_singleton in Hk2.
    pose proof (fs_run_wf _ _ _ _ _ Hmx Hr) as (W1 & W2 & W3 & W4 & _). assert (1 <= fs_max fs) as Hmx' by lia.
    assert (forall (p : fset F * res ()), snd p = Ok () -> exists fs', p = (fs', Ok ())) as Hsnd by (intros [? ?] [= ->]; eauto).
    apply Hsnd. clear Hsnd.
    assert (snd (if is_frame_over_timed fs tk then create_new_frame_timed (gap_fuel fs tk) fs tk mo else add_tick_to_last fs tk mo) = Ok ()) as Hgo;
      [|unfold fs_on_new_tick; rewrite W3; destruct u; [congruence|..]; exact Hgo].
    destruct (is_frame_over_timed fs tk) eqn:Eo.
    2:{ unfold add_tick_to_last. pose proof (current_prev_ok fs Hmx' W1) as Hc. destruct (fs_current_id fs) as [i|]; [|auto].
        simpl in Hc. destruct (lookup_lt_is_Some_2 (fs_heap fs) i Hc) as [cur ->]. unfold frame_on_new_tick. rewrite Hi. reflexivity. }
    destruct (start_bnd u q (tk_wall tk) Hg) as (k & Ek & Hk).
    assert (next_boundary u q (tk_wall tk) (bnd u q (k + 1))) as Hnx.
    { split; [apply boundary_bnd; eauto|]. split; [lia|]. intros b Hb Hlt. apply boundary_bnd in Hb; auto. destruct Hb as [j ->].
      apply bnd_mono_le; auto. assert (k < j); [|lia]. apply (bnd_inj_lt u q); auto. lia. }
    assert (WALL_MIN <= tk_wall tk <= WALL_MAX) as Hrange.
    { split; [apply Hmin; set_solver|]. specialize (Hmax _ Hnx). lia. }
    destruct (frame_start_total u q (tk_dt tk) Hg Hrange Hy) as [start Es].
    destruct (skip_start_at z u q Hg Ha (tk_dt tk) start Htz Hk2 Es) as (x & Est & Bx & Lx & Mx).
    assert (WALL_MIN <= x) as Hmink by (eapply frame_start_min; [exact Hu|exact Hq|rewrite Est in Es; exact Es]).
    assert (forall y, boundary u q y -> y <= tk_wall tk -> forall e, next_boundary u q y e -> e <= WALL_MAX) as Hend.
    { intros y By Ly e (_ & _ & N). specialize (N (bnd u q (k + 1)) ltac:(apply boundary_bnd; eauto) ltac:(lia)). specialize (Hmax _ Hnx). lia. }
    destruct (frame_end_total u q start Hg) as [e1 Ee]; [rewrite Est; apply Bx|rewrite Est; exact Hmink|rewrite Est; apply Hend; [apply Bx|exact Lx]|].
    unfold create_new_frame_timed. rewrite W3, W4, Es, Ee.
    assert (ends_in z (bars fs)) as Hends.
    { destruct (decide (ts = [])) as [->|Hne].
      - apply fs_run_bars in Hr as [[_ ->]|(? & ? & ? & E & _)]; auto; [constructor|destruct x0; discriminate].
      - destruct (SI_run z u q Hg Ha mx ts fs Hmx Hr (conj Ho1 Hk1) Hne) as (HS & _). apply Forall_lookup. intros i b Hb e He.
        destruct (si_bar _ _ _ _ _ HS i b Hb) as (s0 & e0 & _ & E2 & _). rewrite E2 in He. now injection He as <-. }
    assert (ar_tz start = z /\ ar_wall start <= ar_wall (tk_dt tk)) as [S1 S2] by (rewrite Est; split; [auto|apply Lx]).
    destruct (fill_terminates z fs tk mo start (gap_fuel fs tk)) as [r Er]; auto; try congruence; try lia.
    pose proof (fill_loop z start mo _ fs _ ltac:(congruence) ltac:(lia) W1 Hends Er) as Hl.
    rewrite Er. apply ploop_inr in Er as (n & a & _ & Hn & Hra).
    assert (wf a /\ same_conf fs a /\ rtc (gap_bar u q start) (bars fs) (bars a)) as (A1 & A2 & A3).
    { clear -Hn W1 W3 W4 Hmx'. revert a Hn. induction n as [|n IH]; intros a Hn.
      - inversion Hn; subst. split; [auto|]. split; [apply same_conf_refl|apply rtc_refl].
      - replace (S n) with (n + 1)%nat in Hn by lia. apply nsteps_split in Hn as (b & Hb & Hc).
        inversion Hc as [|? ? ? ? Hc1 Hc2]; subst. inversion Hc2; subst. destruct (IH _ Hb) as (X1 & X2 & X3).
        pose proof (fill_step_bars start mo b) as Hf. unfold pstep in Hc1. rewrite Hc1 in Hf.
        pose proof X2 as (_ & C2 & C3 & C4 & _). rewrite C2, C3, C4 in Hf. destruct (Hf Hmx' X1) as (Y1 & Y2 & Y3).
        split; auto. split; [eapply same_conf_trans; eauto|]. eapply rtc_r; eauto. }
    pose proof A2 as (_ & C1 & C2 & C3 & _ & C4). assert (1 <= fs_max a) as Hmxa by lia.
    destruct r as [s [[]|x0]].
    - simpl in Hl. destruct Hl as (L1 & (_ & _ & _ & L2 & _ & L3) & _). apply create_no_ind; auto; [lia|congruence].
    - exfalso. pose proof (current_bar a Hmxa A1) as Hcb. unfold fill_step in Hra. destruct (fs_current a) as [cur|]; [|discriminate].
      simpl in Hcb.
      assert (ts <> []) as Hne.
      { intros ->. apply fs_run_bars in Hr as [[_ E]|(? & ? & ? & E & _)]; auto; [|destruct x1; discriminate].
        rewrite E in A3. apply rtc_inv in A3 as [A3|(y & (b & e & e' & Hb & _) & _)]; [rewrite <- A3 in Hcb|]; discriminate. }
      destruct (SI_run z u q Hg Ha mx ts fs Hmx Hr (conj Ho1 Hk1) Hne) as (HS & _).
      assert (ends_by z u q (bars fs) x) as Hk0.
      { intros b Hb. pose proof (current_bar fs Hmx' W1) as Hcf. rewrite Hb in Hcf.
        unfold is_frame_over_timed in Eo. destruct (fs_current fs) as [cf|]; [|discriminate]. injection Hcf as ->.
        rewrite last_lookup in Hb. destruct (si_bar _ _ _ _ _ HS _ _ Hb) as (s0 & e0 & _ & E2 & _ & (N1 & N2 & _) & _). exists e0. split; [auto|].
        split; [split; auto|]. simpl in E2. rewrite E2 in Eo. unfold arrow_geb in Eo. apply negb_true_iff in Eo.
        rewrite arrow_ltb_same in Eo by auto. apply Z.ltb_ge in Eo. simpl in Eo. apply Mx; [split; auto|exact Eo]. }
      rewrite Est in A3. destruct (SI_gaps z u q Hg Ha ts _ x _ HS A3 Bx Hk0) as [HSa Hka].
      destruct (Hka _ Hcb) as (y & E2 & By & Ly). simpl in E2. rewrite E2 in Hra. destruct (arrow_ltb _ start) eqn:El2; [|discriminate].
      destruct (frame_end_total u q (arrow_of_wall z y) Hg) as [e' Ee'].
      { apply By. }
      { simpl. destruct ts as [|t ts]; [congruence|]. pose proof (Hmin t ltac:(set_solver)).
        pose proof (si_all_lt _ _ _ _ _ _ _ t HSa Hcb E2 ltac:(set_solver)) as L4. simpl in L4. lia. }
      { simpl. apply Hend; [apply By|]. unfold tk_wall. lia. }
      rewrite C1, C2, W3, W4, Ee' in Hra.
      pose proof (create_no_ind a (fr_last cur) (arrow_of_wall z y) (Some e') mo Hmxa A1 ltac:(congruence)) as Hcr.
      destruct (create_new_frame _ _ _ _ _) as [y0 r]. simpl in Hcr. subst r. discriminate.
  Qed.
End skip.
