(** Histories of frame sets and values of indicators in whole programs. *)
From Verif Require Export SpecBlind SpecIndicators.
From Verif Require Import FramesProofs ChartProofs SimProofs IndicatorFinalProofs.
Open Scope Z_scope.

Section proofs.
  Context {F : Type} `{Num F}.
  Implicit Types (w : world F) (fs : fset F) (l : list (op F)).

  Definition born (N : unit_ -> Z -> string -> Z -> Prop) (I : nat -> indicator F -> Prop) (T : tick F -> res unit -> Prop) (fid : nat) fs : Prop :=
    exists u ref fs0, N u (fs_q fs) ref (fs_max fs) /\ fset_init u (fs_q fs) ref (fs_max fs) = Ok fs0 /\ fs_hist (I fid) T fs0 fs.
  Definition all_born N I T w : Prop := forall fid fs, w_fsets w !! fid = Some fs -> born N I T fid fs.

  Section inv.
    Context (N : unit_ -> Z -> string -> Z -> Prop) (I : nat -> indicator F -> Prop) (T : tick F -> res unit -> Prop).

    Lemma born_tick fuel tk mo lst fid fs fs' r : born N I T fid fs -> fs_on_new_tick fuel fs tk mo lst = (fs', r) -> T tk r -> born N I T fid fs'.
    Proof.
      intros (u & ref & fs0 & B1 & B2 & B3) E Ht. pose proof (fs_tick_conf fuel fs tk mo lst) as C. rewrite E in C. cbn [fst] in C.
      destruct C as (_ & _ & C1 & C2 & _). exists u, ref, fs0. rewrite C1, C2. split; [auto|]. split; [auto|]. eapply hist_tick; eauto.
    Qed.
    Lemma born_forM tk : forall (ks : list (string * nat)) w, all_born N I T w -> (forall r, T tk r) \/ T tk (Ok ()) /\ snd (forM (update_frame_set tk) w ks) = Ok () ->
      all_born N I T (fst (forM (update_frame_set tk) w ks)).
    Proof.
      induction ks as [|x ks IH]; intros w Hb Ht; [exact Hb|]. cbn [forM] in *. unfold update_frame_set at 1. unfold update_frame_set in Ht at 1. destruct (w_fsets w !! x.2) as [fs|] eqn:Ef; [|exact Hb]. destruct (fs_epic_state w fs) as [mo lst].
      destruct (fs_on_new_tick (gap_fuel fs tk) fs tk mo lst) as [fs' r] eqn:E.
      assert (T tk r -> all_born N I T (upd_fsets w (<[x.2 := fs']> (w_fsets w)))) as K.
      { intros Hr fid gs Hg. cbn [w_fsets upd_fsets] in Hg. apply insert_lookup_inv in Hg as [(-> & -> & _)|[Hg _]]; [|exact (Hb _ _ Hg)].
        eapply born_tick; eauto. }
      destruct r as [[]|err].
      - apply IH; [|exact Ht]. apply K. destruct Ht as [Ht|[Ht _]]; auto.
      - apply K. destruct Ht as [Ht|[_ Ht]]; [auto|discriminate Ht].
    Qed.
    Lemma born_step pr w o : all_born N I T w ->
      match o with
      | ONewFrameSet u q ref mx => N u q ref mx
      | OAddIndicator fid i => I fid i
      | OTick eid tk => (forall z r, T (tick_to z tk) r) \/ (forall z, T (tick_to z tk) (Ok ())) /\ charts_ok w eid tk
      | _ => True
      end -> all_born N I T (fst (step pr w o)).
    Proof.
      intros IH Ho. destruct o as [k|ref|u q ref m|ref tz op cl ds hs p|a f|a s|f i|a tk|c]; cbn [step fst].
      - exact IH.
      - exact IH.
      - destruct (fset_init u q ref m) as [fs0|] eqn:E; [|exact IH]. intros fid fs Hf. cbn [fst w_fsets upd_fsets] in Hf. apply lookup_app_Some in Hf as [Hf|[_ Hf]]; [exact (IH _ _ Hf)|].
        apply list_lookup_singleton_Some in Hf as [_ <-]. assert (fs_q fs0 = q /\ fs_max fs0 = m) as [Eq Em].
        { unfold fset_init in E. destruct (check_unit u q); [|discriminate E]. simpl in E. injection E as <-. auto. }
        exists u, ref, fs0. rewrite Eq, Em. split; [auto|]. split; [auto|]. constructor.
      - unfold new_epic. destruct tz as [z|]; [|exact IH]. destruct (valid_id _ _); [|exact IH]. destruct p; exact IH.
      - unfold add_frame_set. destruct (w_epics w !! a); [|exact IH]. destruct (w_fsets w !! f) as [fs0|] eqn:E; [|exact IH]. destruct (dict_get _ _); [exact IH|].
        intros fid fs Hf. cbn [fst w_fsets upd_fsets upd_epics] in Hf. apply insert_lookup_inv in Hf as [(-> & -> & _)|[Hf _]]; [|exact (IH _ _ Hf)].
        destruct (IH _ _ E) as (u & ref & fs1 & B1 & B2 & B3). exists u, ref, fs1. cbn [fs_q fs_max fs_set_epic]. split; [auto|]. split; [auto|]. now constructor.
      - unfold add_strategy. destruct (w_epics w !! a); [|exact IH]. destruct (w_strats w !! s) as [fs0|] eqn:E; [|exact IH]. destruct (dict_get _ _); exact IH.
      - destruct (w_fsets w !! f) as [fs0|] eqn:E; [|exact IH]. destruct (add_indicator fs0 i) as [fs' r] eqn:Ea. intros fid fs Hf. cbn [fst w_fsets upd_fsets] in Hf.
        apply insert_lookup_inv in Hf as [(-> & -> & _)|[Hf _]]; [|exact (IH _ _ Hf)].
        destruct (IH _ _ E) as (u & ref & fs1 & B1 & B2 & B3). destruct (add_indicator_frames fs0 i) as (_ & _ & _ & A1 & A2). rewrite Ea in A1, A2. cbn [fst] in A1, A2.
        exists u, ref, fs1. rewrite A1, A2. split; [auto|]. split; [auto|]. pose proof (hist_indicator _ _ _ _ i B3 Ho) as R. rewrite Ea in R. exact R.
      - unfold epic_on_new_tick. destruct (w_epics w !! a) as [e|] eqn:He; [|exact IH]. cbv zeta. destruct (arrow_ltb _ _) eqn:Ha; [exact IH|]. set (tk' := tick_to _ _) in *.
        set (e' := ep_set_last _ _ _). set (b := upd_epics w _).
        assert (all_born N I T (fst (forM (update_frame_set tk') b (ep_fsets e')))) as E.
        { apply born_forM; [exact IH|]. destruct Ho as [Ho|[Ho Hc]]; [left; intros r; apply Ho|right; split; [apply Ho|]].
          destruct (charts_fsets w a e tk Hc He Ha) as (fs & [] & E). change (ep_fsets e') with (ep_fsets e). fold tk' in E. fold e' in E. fold b in E. now rewrite E. }
        destruct (forM (update_frame_set tk') b _) as [a1 [[]|x]]; cbn [andthen fst] in *; [|exact E].
        intros fid fs Hf. apply (E fid fs).
        destruct (execute_fsets pr a (ep_mopen e) (ep_strats e') (update_open_trades a1 (ep_prov e') tk')) as [E1 _]. rewrite E1 in Hf.
        destruct (value_rest a1 (ep_prov e') tk') as (_ & _ & _ & E2). now rewrite E2 in Hf.
      - pose proof (cmd_charts w c) as E. apply charts_inj in E as [_ E]. intros fid fs Hf. rewrite E in Hf. exact (IH _ _ Hf).
    Qed.
    Definition op_born (o : op F) : Prop :=
      match o with ONewFrameSet u q ref mx => N u q ref mx | OAddIndicator fid i => I fid i | _ => True end.
    Lemma born_run pr l : Forall op_born l -> (forall eid tk, OTick eid tk ∈ l -> forall z r, T (tick_to z tk) r) -> forall w, all_born N I T w -> all_born N I T (run pr w l).
    Proof.
      intros Hl Ht. induction Hl as [|o l Ho Hl IH]; intros w Hw; [exact Hw|]. rewrite run_cons. apply IH; [intros eid tk Hi; apply (Ht eid); now right|].
      apply born_step; [exact Hw|]. destruct o as [| | | | | | |eid tk|]; auto. left. apply (Ht eid). left.
    Qed.
    Lemma born_fine pr l : Forall op_born l -> (forall eid tk, OTick eid tk ∈ l -> forall z, T (tick_to z tk) (Ok ())) -> forall w, charts_fine pr w l -> all_born N I T w -> all_born N I T (run pr w l).
    Proof.
      intros Hl Ht. induction Hl as [|o l Ho Hl IH]; intros w Hc Hw; [exact Hw|]. rewrite run_cons. destruct Hc as [Hc1 Hc2]. apply IH; [intros eid tk Hi; apply (Ht eid); now right|exact Hc2|].
      apply born_step; [exact Hw|]. destruct o as [| | | | | | |eid tk|]; auto. right. split; [apply (Ht eid); left|exact Hc1].
    Qed.
  End inv.

  Lemma ops_born l (I : nat -> indicator F -> Prop) : (forall fid i, OAddIndicator fid i ∈ l -> I fid i) -> Forall (op_born (fun u q ref mx => ONewFrameSet u q ref mx ∈ l) I) l.
  Proof. intros Hi. apply Forall_forall. intros o Ho. destruct o; simpl; auto. Qed.
  Lemma empty_born N I T : all_born N I T empty_world.
  Proof. intros fid fs Hf. discriminate Hf. Qed.
  Lemma run_hist pr l fid fs (I : indicator F -> Prop) (T : tick F -> res unit -> Prop) : (forall i, OAddIndicator fid i ∈ l -> I i) -> (forall eid tk, OTick eid tk ∈ l -> forall z r, T (tick_to z tk) r) ->
    w_fsets (run pr empty_world l) !! fid = Some fs ->
    exists u ref fs0, ONewFrameSet u (fs_q fs) ref (fs_max fs) ∈ l /\ fset_init u (fs_q fs) ref (fs_max fs) = Ok fs0 /\ fs_hist I T fs0 fs.
  Proof.
    intros Hi Ht Hf. destruct (born_run _ _ _ pr l (ops_born l (fun f i => f = fid -> I i) ltac:(intros f i Hm ->; auto)) Ht empty_world (empty_born _ _ _) _ _ Hf) as (u & ref & fs0 & B1 & B2 & B3).
    exists u, ref, fs0. split; [auto|]. split; [auto|]. clear -B3. induction B3 as [|fs i B IH Hi|fs e B IH|fs fuel tk mo lst fs' r B IH E Ht]; [apply hist_start|apply hist_indicator; auto|now apply hist_epic|eapply hist_tick; eauto].
  Qed.
  Lemma run_hist_fine pr l fid fs (I : indicator F -> Prop) (T : tick F -> res unit -> Prop) : (forall i, OAddIndicator fid i ∈ l -> I i) -> (forall eid tk, OTick eid tk ∈ l -> forall z, T (tick_to z tk) (Ok ())) ->
    charts_fine pr empty_world l -> w_fsets (run pr empty_world l) !! fid = Some fs ->
    exists u ref fs0, ONewFrameSet u (fs_q fs) ref (fs_max fs) ∈ l /\ fset_init u (fs_q fs) ref (fs_max fs) = Ok fs0 /\ fs_hist I T fs0 fs.
  Proof.
    intros Hi Ht Hc Hf. destruct (born_fine _ _ _ pr l (ops_born l (fun f i => f = fid -> I i) ltac:(intros f i Hm ->; auto)) Ht empty_world Hc (empty_born _ _ _) _ _ Hf) as (u & ref & fs0 & B1 & B2 & B3).
    exists u, ref, fs0. split; [auto|]. split; [auto|]. clear -B3. induction B3 as [|fs i B IH Hi|fs e B IH|fs fuel tk mo lst fs' r B IH E Ht]; [apply hist_start|apply hist_indicator; auto|now apply hist_epic|eapply hist_tick; eauto].
  Qed.
End proofs.
