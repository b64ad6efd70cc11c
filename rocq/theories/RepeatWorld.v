(** C76: programs whose quotes are delivered more than once. *)
From Verif Require Import EpicMoreProofs SimProofs.
From Verif Require Export RepeatSim.
Open Scope Z_scope.

Section proofs.
  Context {F : Type} `{Num F}.
  Implicit Types (w v : world F) (e : epic F) (fs : fset F) (tk : tick F).
  Hypothesis LT : less_than F.

  Definition zones w : Prop := forall j e, w_epics w !! j = Some e -> resolves_forward (ep_tz e).
  Record near w v : Prop := { nr_epics : w_epics v = w_epics w; nr_fsets : Forall2 sr (w_fsets w) (w_fsets v); nr_cast : cast v = cast w }.
  Lemma near_charts w v w' v' : near w v -> charts w' = charts w -> charts v' = charts v -> cast w' = cast w -> cast v' = cast v -> near w' v'.
  Proof. intros [] [E1 E2]%charts_inj [E3 E4]%charts_inj C1 C2. split; congruence. Qed.

  (** ** One tick *)
  Lemma state_near w v s s' : near w v -> fs_recounted s s' -> fs_epic_state v s' = fs_epic_state w s.
  Proof. intros [] R. unfold fs_epic_state. now rewrite nr_epics0, (rs_epic _ _ R). Qed.
  Lemma near_set w v j s s' : near w v -> sr s s' -> near (upd_fsets w (<[j := s]> (w_fsets w))) (upd_fsets v (<[j := s']> (w_fsets v))).
  Proof. intros [] R. split; simpl; auto. now apply Forall2_insert. Qed.
  Lemma near_update tk w v x : near w v -> near (fst (update_frame_set tk w x)) (fst (update_frame_set tk v x)) /\ snd (update_frame_set tk v x) = snd (update_frame_set tk w x).
  Proof.
    intros Hn. unfold update_frame_set. pose proof (F2_lookup _ _ _ x.2 (nr_fsets _ _ Hn)) as Hx. destruct (w_fsets w !! x.2) as [s|], (w_fsets v !! x.2) as [s'|]; try easy.
    destruct Hx as [S R]. rewrite (state_near w v s s' Hn R). destruct (fs_epic_state w s) as [mo lst]. rewrite (rc_fuel s s' tk R).
    pose proof (rc_fs LT (gap_fuel s tk) s s' tk mo lst lst S R) as [A B]. pose proof (so_tick LT (gap_fuel s tk) s tk mo lst S) as S'.
    destruct (fs_on_new_tick _ s tk mo lst) as [s1 r], (fs_on_new_tick _ s' tk mo lst) as [s1' r']. simpl in *. subst r'. split; [|auto]. apply near_set; [auto|now split].
  Qed.
  Lemma near_updates tk l w v : near w v -> near (fst (forM (update_frame_set tk) w l)) (fst (forM (update_frame_set tk) v l)) /\ snd (forM (update_frame_set tk) v l) = snd (forM (update_frame_set tk) w l).
  Proof.
    revert w v. induction l as [|x l IH]; intros w v Hn; [now split|]. cbn [forM]. pose proof (near_update tk w v x Hn) as [A B].
    destruct (update_frame_set tk w x) as [w1 r], (update_frame_set tk v x) as [v1 r']. simpl in A, B. subst r'. destruct r as [[]|]; [now apply IH|now split].
  Qed.
  (** What follows the update of the frame sets leaves the charts. *)
  Lemma tick_charts pr w eid tk e : w_epics w !! eid = Some e -> ~ refused e tk -> let tk' := tick_to (ep_tz e) tk in
    let x := forM (update_frame_set tk') (upd_epics w (<[eid := ep_set_last e tk' (is_market_open e tk')]> (w_epics w))) (ep_fsets e) in
    charts (fst (step pr w (OTick eid tk))) = charts (fst x) /\ cast (fst (step pr w (OTick eid tk))) = cast (fst x) /\ (snd (step pr w (OTick eid tk)) = Ok () -> snd x = Ok ()).
  Proof.
    intros He Hr. cbn [step]. unfold epic_on_new_tick. rewrite He. cbv zeta. unfold refused in Hr. destruct (arrow_ltb _ _) eqn:El; [now elim Hr|]. cbn [ep_fsets ep_set_last ep_prov ep_strats].
    destruct (forM (update_frame_set _) _ (ep_fsets e)) as [w1 [u|er]]; cbn [andthen fst snd]; [|now split].
    pose proof (execute_fsets pr eid (ep_mopen e) (ep_strats e) (update_open_trades w1 (ep_prov e) (tick_to (ep_tz e) tk))) as [X1 X2].
    destruct (value_rest w1 (ep_prov e) (tick_to (ep_tz e) tk)) as (_ & V1 & _ & V2). split; [unfold charts; congruence|]. split; [now rewrite execs_cast, (keeps_cast _ _ (keeps_value _ _ _))|]. now destruct u.
  Qed.
  Lemma near_tick pr pr' w v eid tk : near w v -> near (fst (step pr w (OTick eid tk))) (fst (step pr' v (OTick eid tk))).
  Proof.
    intros Hn. destruct (w_epics w !! eid) as [e|] eqn:Ee; [|cbn [step]; unfold epic_on_new_tick; now rewrite (nr_epics _ _ Hn), Ee].
    destruct (decide (refused e tk)) as [Hr|Hr]; [cbn [step]; rewrite !(tick_refused _ _ eid e) by (rewrite ?(nr_epics _ _ Hn); auto); exact Hn|].
    destruct (tick_charts pr w eid tk e Ee Hr) as (A1 & A2 & _). rewrite <- (nr_epics _ _ Hn) in Ee. destruct (tick_charts pr' v eid tk e Ee Hr) as (B1 & B2 & _).
    eapply near_charts; [|exact A1|exact B1|exact A2|exact B2]. apply near_updates. rewrite (nr_epics _ _ Hn). destruct Hn. split; simpl; auto.
  Qed.

  (** ** The same tick again *)
  Definition heard w tk (x : string * nat) : Prop := exists fs, w_fsets w !! x.2 = Some fs /\ sound_fs fs /\ heard_last fs tk (fst (fs_epic_state w fs)).
  Lemma tick_epic fuel fs tk mo lst : fs_epic (fst (fs_on_new_tick fuel fs tk mo lst)) = fs_epic fs.
  Proof. destruct (fs_tick_conf fuel fs tk mo lst) as (_ & _ & _ & _ & E & _). congruence. Qed.
  Lemma heard_update tk w x : Forall sound_fs (w_fsets w) -> resolves_forward (ar_tz (tk_dt tk)) -> snd (update_frame_set tk w x) = Ok () ->
    heard (fst (update_frame_set tk w x)) tk x /\ (forall y, heard w tk y -> heard (fst (update_frame_set tk w x)) tk y) /\ Forall sound_fs (w_fsets (fst (update_frame_set tk w x))).
  Proof.
    intros Hs Hz. unfold update_frame_set. destruct (w_fsets w !! x.2) as [s|] eqn:Es; [|discriminate]. assert (sound_fs s) as S by (rewrite Forall_lookup in Hs; eauto).
    destruct (fs_epic_state w s) as [mo lst] eqn:Em. pose proof (tick_epic (gap_fuel s tk) s tk mo lst) as Ee. pose proof (so_tick LT (gap_fuel s tk) s tk mo lst S) as S'.
    destruct (fs_on_new_tick _ s tk mo lst) as [s1 r] eqn:E. cbn [fst snd] in *. intros ->. pose proof (tick_hears LT _ _ _ _ _ _ S Hz E) as Hh. pose proof (lookup_lt_Some _ _ _ Es) as Hlt.
    assert (forall z, fs_epic_state (upd_fsets w (<[x.2:=s1]> (w_fsets w))) z = fs_epic_state w z) as Hst by reflexivity.
    assert (heard (upd_fsets w (<[x.2:=s1]> (w_fsets w))) tk x) as Hx.
    { exists s1. split; [now apply list_lookup_insert|]. split; [auto|]. rewrite Hst. assert (fs_epic_state w s1 = (mo, lst)) as -> by (unfold fs_epic_state in *; now rewrite Ee). exact Hh. }
    split; [exact Hx|]. split; [|now apply Forall_insert]. intros y (sy & Ey & Sy & Hy). destruct (Nat.eq_dec y.2 x.2) as [Hn|Hn].
    - destruct Hx as (s2 & X). exists s2. now rewrite Hn.
    - exists sy. rewrite Hst. split; [|now split]. simpl. now rewrite list_lookup_insert_ne by auto.
  Qed.
  Lemma heard_updates tk l w : Forall sound_fs (w_fsets w) -> resolves_forward (ar_tz (tk_dt tk)) -> snd (forM (update_frame_set tk) w l) = Ok () ->
    (forall x, x ∈ l -> heard (fst (forM (update_frame_set tk) w l)) tk x) /\ (forall x, heard w tk x -> heard (fst (forM (update_frame_set tk) w l)) tk x).
  Proof.
    revert w. induction l as [|x l IH]; intros w Hs Hz; cbn [forM]; [intros _; split; [intros x Hx; now apply elem_of_nil in Hx|auto]|].
    pose proof (heard_update tk w x Hs Hz) as Hu. destruct (update_frame_set tk w x) as [w1 [[]|er]]; [|discriminate]. simpl in Hu. intros E. destruct (Hu eq_refl) as (U1 & U2 & U3). destruct (IH w1 U3 Hz E) as [I1 I2].
    split; [|auto]. intros y [->|Hy]%elem_of_cons; auto.
  Qed.
  (** An update by a tick already heard keeps everything near. *)
  Lemma again_update tk w v x : near w v -> heard w tk x -> near w (fst (update_frame_set tk v x)) /\ snd (update_frame_set tk v x) = Ok ().
  Proof.
    intros Hn (s & Es & S & Hh). unfold update_frame_set. pose proof (F2_lookup _ _ _ x.2 (nr_fsets _ _ Hn)) as Hx. rewrite Es in Hx. destruct (w_fsets v !! x.2) as [s'|] eqn:Es'; [|easy].
    destruct Hx as [_ R]. rewrite (state_near w v s s' Hn R). destruct (fs_epic_state w s) as [mo lst]. simpl in Hh.
    destruct (heard_again s tk mo (gap_fuel s' tk) lst (so_unit s S) Hh) as (s1 & E1 & R1). pose proof (rc_fs LT (gap_fuel s' tk) s s' tk mo lst lst S R) as [A B]. rewrite E1 in A, B.
    destruct (fs_on_new_tick _ s' tk mo lst) as [s1' r]. simpl in *. subst r. split; [|auto]. destruct Hn. split; simpl; auto.
    assert (w_fsets w = <[x.2 := s]> (w_fsets w)) as -> by (symmetry; now apply list_insert_id). apply Forall2_insert; [auto|]. split; [auto|]. eapply rs_trans; eauto.
  Qed.
  Lemma again_updates tk l w v : near w v -> (forall x, x ∈ l -> heard w tk x) -> near w (fst (forM (update_frame_set tk) v l)) /\ snd (forM (update_frame_set tk) v l) = Ok ().
  Proof.
    revert v. induction l as [|x l IH]; intros v Hn Hl; cbn [forM]; [now split|]. destruct (again_update tk w v x Hn (Hl x ltac:(left))) as [A B]. destruct (update_frame_set tk v x) as [v1 r]. simpl in A, B. subst r.
    apply IH; [auto|]. intros y Hy. apply Hl. now right.
  Qed.
  Lemma ltb_self (a : arrow) : arrow_ltb a a = false.
  Proof. rewrite arrow_ltb_same by auto. apply Z.ltb_irrefl. Qed.
  Lemma near_sound w v : near w v -> Forall sound_fs (w_fsets w).
  Proof. intros []. apply Forall_lookup. intros j s Hs. pose proof (F2_lookup _ _ _ j nr_fsets0) as Hj. rewrite Hs in Hj. destruct (w_fsets v !! j); [apply Hj|easy]. Qed.
  Lemma tick_again pr pr' w v eid tk : Forall sound_fs (w_fsets w) -> zones w -> (snd (step pr w (OTick eid tk)) = Ok () \/ forall e, w_epics w !! eid = Some e -> refused e tk) ->
    near (fst (step pr w (OTick eid tk))) v -> near (fst (step pr w (OTick eid tk))) (fst (step pr' v (OTick eid tk))).
  Proof.
    intros Hs Hz Hc Hn. destruct (w_epics w !! eid) as [e|] eqn:Ee; [|revert Hn; cbn [step]; unfold epic_on_new_tick; rewrite Ee; intros Hn; simpl in *; now rewrite (nr_epics _ _ Hn), Ee].
    destruct (decide (refused e tk)) as [Hr|Hr].
    { revert Hn. cbn [step]. rewrite (tick_refused _ _ eid e) by auto. intros Hn. simpl in Hn. rewrite (tick_refused _ _ eid e); [auto|now rewrite (nr_epics _ _ Hn)|auto]. }
    destruct Hc as [Hc|Hc]; [|now elim Hr; apply Hc]. destruct (tick_charts pr w eid tk e Ee Hr) as (A1 & A2 & A3). specialize (A3 Hc). cbv zeta in *. set (t := tick_to (ep_tz e) tk) in *.
    set (e' := ep_set_last e t (is_market_open e t)) in *. set (w0 := upd_epics w (<[eid := e']> (w_epics w))) in *.
    destruct (heard_updates t (ep_fsets e) w0 Hs (Hz _ _ Ee) A3) as [Hh _]. set (w1 := fst (forM (update_frame_set t) w0 (ep_fsets e))) in *.
    assert (near w1 v) as Hn1 by (eapply near_charts; [exact Hn|now symmetry|reflexivity|now symmetry|reflexivity]).
    assert (w_epics w1 = <[eid := e']> (w_epics w)) as E1. { unfold w1. now apply (forM_inv (fun w2 => w_epics w2 = w_epics w0)); [intros w2 x _ <-; apply update_fset_epics|]. }
    assert (w_epics v !! eid = Some e') as Ev by (rewrite (nr_epics _ _ Hn1), E1; apply list_lookup_insert; eapply lookup_lt_Some; eauto).
    assert (~ refused e' tk) as Hr' by (unfold refused; simpl; fold t; change (tk_dt t) with (arrow_to (ep_tz e) (tk_dt tk)); rewrite ltb_self; congruence).
    destruct (tick_charts pr' v eid tk e' Ev Hr') as (B1 & B2 & _). change (tick_to (ep_tz e') tk) with t in B1, B2. change (ep_fsets e') with (ep_fsets e) in B1, B2.
    change (ep_set_last e' t (is_market_open e' t)) with e' in B1, B2. rewrite (list_insert_id _ _ _ Ev) in B1, B2. eapply near_charts; [|exact A1|exact B1|exact A2|exact B2].
    apply again_updates; [|auto]. destruct Hn1. split; auto.
  Qed.

  (** ** Whole programs *)
  Lemma F2_snoc {A B} (R : A -> B -> Prop) l l' x y : Forall2 R l l' -> R x y -> Forall2 R (l ++ [x]) (l' ++ [y]).
  Proof. intros Hl Hx. apply Forall2_app; [auto|]. now repeat constructor. Qed.
  Lemma near_step pr pr' w v o : near w v -> calendar_op o -> near (fst (step pr w o)) (fst (step pr' v o)).
  Proof.
    intros Hn Ho. pose proof Hn as [N1 N2 N3]. pose proof (cast_inj _ _ N3) as [C1 C2]. destruct o as [k|ref|u q ref m|ref tz op cl ds hs p|a f|a s|f i|a tk|c]; cbn [step].
    - split; simpl; auto. apply cast_eq; [simpl; rewrite !app_length; congruence|exact C2].
    - split; simpl; auto. apply cast_eq; [exact C1|]. cbn [fst w_strats upd_strats]. rewrite !fmap_app. congruence.
    - destruct (fset_init u q ref m) as [fs|] eqn:Ef; [|exact Hn]. destruct Ho as (O1 & O2 & O3). split; simpl; auto. apply F2_snoc; [auto|]. split; [eapply so_init; eauto|apply rs_refl].
    - unfold new_epic. destruct tz as [z|]; [|exact Hn]. rewrite (cast_valid v w p N3). destruct (valid_id _ _); [|exact Hn].
      destruct p as [p|]; cbn [fst]; (split; [simpl; rewrite N1, ?C1; reflexivity|exact N2|]); (apply cast_eq; [|exact C2]); [exact C1|]. simpl. rewrite !app_length. congruence.
    - unfold add_frame_set. rewrite N1. pose proof (F2_lookup _ _ _ f N2) as Hx. destruct (w_epics w !! a) as [e|]; [|exact Hn]. destruct (w_fsets w !! f) as [x|], (w_fsets v !! f) as [y|]; try easy.
      destruct Hx as [Sx Rx]. rewrite (rs_ref _ _ Rx). destruct (dict_get _ _); [exact Hn|]. split; simpl; [congruence| |exact N3]. apply Forall2_insert; [auto|]. split; [now apply so_epic|]. destruct Rx. now constructor.
    - unfold add_strategy. rewrite N1. destruct (w_epics w !! a) as [e|]; [|exact Hn].
      assert (st_ref <$> w_strats v !! s = st_ref <$> w_strats w !! s) as Es by (rewrite <- !list_lookup_fmap; now rewrite C2).
      destruct (w_strats w !! s) as [x|] eqn:Ex, (w_strats v !! s) as [y|] eqn:Ey; try discriminate Es; [|exact Hn]. apply (inj Some) in Es. rewrite Es.
      destruct (dict_get _ _); [exact Hn|]. split; simpl; [congruence|exact N2|]. apply cast_eq; [exact C1|]. cbn [fst w_strats upd_strats upd_epics].
      etransitivity; [eapply fmap_insert_same; [exact Ey|reflexivity]|]. etransitivity; [exact C2|]. symmetry. eapply fmap_insert_same; [exact Ex|reflexivity].
    - pose proof (F2_lookup _ _ _ f N2) as Hx. destruct (w_fsets w !! f) as [x|], (w_fsets v !! f) as [y|]; try easy. destruct Hx as [Sx Rx]. pose proof (so_indicator x i Ho Sx) as Si.
      assert (fs_recounted (fst (add_indicator x i)) (fst (add_indicator y i))) as Ri. { destruct Rx as [R1 R2 R3 R4 R5 R6 R7 R8]. unfold add_indicator. destruct (in_kind i); rewrite ?R3, ?R8; constructor; simpl; auto; congruence. }
      destruct (add_indicator x i) as [x' rx], (add_indicator y i) as [y' ry]. simpl in Si, Ri. cbn [fst]. now apply near_set.
    - now apply near_tick.
    - pose proof (calls_same pr w (OCmd c) eq_refl) as [A1 A2]. pose proof (calls_same pr' v (OCmd c) eq_refl) as [B1 B2]. eapply near_charts; [exact Hn| | | |]; auto.
  Qed.
  Lemma zones_step pr w o : zones w -> calendar_op o -> zones (fst (step pr w o)).
  Proof.
    intros Hz Ho. destruct o as [k|ref|u q ref m|ref tz op cl ds hs p|a f|a s|f i|a tk|c]; cbn [step]; auto.
    - destruct (fset_init u q ref m); auto.
    - unfold new_epic. destruct tz as [z|]; [|auto]. destruct (valid_id _ _); [|auto]. destruct p as [p|]; cbn [fst]; intros j e; simpl; rewrite lookup_app; (destruct (w_epics w !! j) as [x|] eqn:Ex; [intros [= <-]; eauto|]);
        (destruct (j - length (w_epics w))%nat; [intros [= <-]; exact Ho|discriminate]).
    - unfold add_frame_set. destruct (w_epics w !! a) as [e|] eqn:Ee; [|auto]. destruct (w_fsets w !! f); [|auto]. destruct (dict_get _ _); [auto|]. intros j x. simpl. destruct (Nat.eq_dec a j) as [->|Hj].
      + rewrite list_lookup_insert by (eapply lookup_lt_Some; eauto). intros [= <-]. exact (Hz _ _ Ee).
      + rewrite list_lookup_insert_ne by auto. apply Hz.
    - unfold add_strategy. destruct (w_epics w !! a) as [e|] eqn:Ee; [|auto]. destruct (w_strats w !! s); [|auto]. destruct (dict_get _ _); [auto|]. intros j x. simpl. destruct (Nat.eq_dec a j) as [->|Hj].
      + rewrite list_lookup_insert by (eapply lookup_lt_Some; eauto). intros [= <-]. exact (Hz _ _ Ee).
      + rewrite list_lookup_insert_ne by auto. apply Hz.
    - destruct (w_fsets w !! f); [|auto]. destruct (add_indicator _ _). exact Hz.
    - change (zones (fst (step pr w (OTick a tk)))). destruct (w_epics w !! a) as [e|] eqn:Ee; [|cbn [step]; unfold epic_on_new_tick; now rewrite Ee].
      destruct (decide (refused e tk)) as [Hr|Hr]; [cbn [step]; now rewrite (tick_refused _ _ a e)|]. destruct (tick_charts pr w a tk e Ee Hr) as ([A1 _]%charts_inj & _). intros j x. rewrite A1.
      assert (w_epics (fst (forM (update_frame_set (tick_to (ep_tz e) tk)) (upd_epics w (<[a := ep_set_last e (tick_to (ep_tz e) tk) (is_market_open e (tick_to (ep_tz e) tk))]> (w_epics w))) (ep_fsets e)))
        = <[a := ep_set_last e (tick_to (ep_tz e) tk) (is_market_open e (tick_to (ep_tz e) tk))]> (w_epics w)) as ->.
      { match goal with |- w_epics (fst (forM _ ?w0 _)) = _ => apply (forM_inv (fun w2 => w_epics w2 = w_epics w0)); [intros w2 y _ <-; apply update_fset_epics|reflexivity] end. }
      destruct (Nat.eq_dec a j) as [->|Hj].
      + rewrite list_lookup_insert by (eapply lookup_lt_Some; eauto). intros [= <-]. exact (Hz _ _ Ee).
      + rewrite list_lookup_insert_ne by auto. apply Hz.
    - intros j e. pose proof (calls_same pr w (OCmd c) eq_refl) as [[A1 _]%charts_inj _]. cbn [step] in A1. rewrite A1. apply Hz.
  Qed.
  Lemma echo_near pr pr' l l' : echo l l' -> Forall calendar_op l' -> forall w v, near w v -> zones w -> clean pr' w l' ->
    near (run pr' w l') (run pr v l) /\
    match l, l' with o :: l0, o' :: l0' => forall v1, near (fst (step pr' w o')) v1 -> near (run pr' (fst (step pr' w o')) l0') (run pr v1 l0) | _, _ => True end.
  Proof.
    induction 1 as [|o l l' He IH|eid tk l l' He IH]; intros Hl w v Hn Hz Hc.
    - now split.
    - inversion Hl as [|? ? Ho Hl']; subst. destruct Hc as [_ Hc]. assert (forall v1, near (fst (step pr' w o)) v1 -> near (run pr' (fst (step pr' w o)) l') (run pr v1 l)) as Hv.
      { intros v1 Hv. apply IH; auto. now apply zones_step. }
      split; [|exact Hv]. rewrite !run_cons. apply Hv. now apply near_step.
    - assert (forall v1, near (fst (step pr' w (OTick eid tk))) v1 -> near (run pr' (fst (step pr' w (OTick eid tk))) l') (run pr v1 (OTick eid tk :: l))) as Hv.
      { intros v1 Hv. rewrite run_cons. apply (IH Hl w v Hn Hz Hc). apply (tick_again pr' pr w v1 eid tk); auto; [eapply near_sound; eauto|]. apply Hc. }
      split; [|exact Hv]. rewrite (run_cons pr' w), (run_cons pr v (OTick eid tk)). apply Hv. now apply near_tick.
  Qed.
  Lemma echo_ops l l' (P : op F -> Prop) : echo l l' -> Forall P l <-> Forall P l'.
  Proof.
    induction 1 as [|o l l' He IH|eid tk l l' He IH]; [now split|rewrite !Forall_cons; tauto|]. rewrite Forall_cons, IH, Forall_cons. tauto.
  Qed.
  Lemma echo_charts pr pr' l l' : echo l l' -> Forall calendar_op l' -> clean pr' empty_world l' ->
    w_epics (run pr empty_world l) = w_epics (run pr' empty_world l') /\ Forall2 fs_recounted (w_fsets (run pr' empty_world l')) (w_fsets (run pr empty_world l)).
  Proof.
    intros He Hl Hc. destruct (echo_near pr pr' l l' He Hl empty_world empty_world) as [[N1 N2 _] _]; auto.
    - split; auto. constructor.
    - intros j e. simpl. now rewrite lookup_nil.
    - split; [auto|]. clear -N2. induction N2 as [|x y a b [_ Hx] N2 IH]; constructor; auto.
  Qed.
End proofs.
