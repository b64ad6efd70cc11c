(** Generic facts about world states. *)
From Verif Require Export SpecWorld TradeProofs.
Open Scope Z_scope.

Lemma forM_inv {A W} (I : W -> Prop) (f : W -> A -> W * res unit) l w :
  (forall w x, x ∈ l -> I w -> I (fst (f w x))) -> I w -> I (fst (forM f w l)).
Proof.
  revert w. induction l as [|x l IH]; intros w Hf Hw; simpl; [auto|].
  pose proof (Hf w x ltac:(left) Hw) as H1. destruct (f w x) as [w' [u|e]]; simpl in *; auto.
  apply IH; auto. intros w2 y Hy. apply Hf. now right.
Qed.

Section proofs.
  Context {F : Type} `{Num F}.
  Implicit Types (w : world F) (t : trade F).

  Lemma reach_mono (P Q : cmd F -> Prop) w : (forall c, P c -> Q c) -> reach P w -> reach Q w.
  Proof.
    intros Hi Hr. induction Hr; econstructor; eauto.
  Qed.
  Lemma reach_any P w : reach P w -> reach any_call w.
  Proof. apply reach_mono. intros; exact I. Qed.

  (** ** Every state of a run is reachable *)
  Lemma script_reach P w s : script_ok P s -> reach P w -> reach P (fst (run_script w s)).
  Proof.
    revert w. induction s as [|e|c k IH]; intros w Hs Hw; simpl; auto. destruct Hs as [Hc Hk].
    pose proof (reach_call P w c Hw Hc) as H1. destruct (run_cmd w c) as [w' r] eqn:E. simpl in *. apply IH; auto.
  Qed.
  Lemma callback_reach P pr sid cb eid w : programs_ok P pr -> reach P w -> reach P (fst (run_callback pr sid cb eid w)).
  Proof. intros Hp Hw. apply script_reach; [apply Hp|]. now apply reach_log. Qed.
  Lemma andthen_inv (I : world F -> Prop) x k : I (fst x) -> (forall w, I w -> I (fst (k w))) -> I (fst (andthen x k)).
  Proof. destruct x as [w [u|e]]; simpl; auto. Qed.
  Lemma andthen_inv' (I J : world F -> Prop) x k : I (fst x) -> (forall w, I w -> J (fst (k w))) -> (forall w, I w -> J w) -> J (fst (andthen x k)).
  Proof. destruct x as [w [u|e]]; simpl; auto. Qed.
  Lemma update_fset_epics tk w x : w_epics (fst (update_frame_set tk w x)) = w_epics w.
  Proof.
    unfold update_frame_set. destruct (w_fsets w !! x.2) as [fs|]; [|auto]. destruct (fs_epic_state w fs) as [mo l].
    now destruct (fs_on_new_tick _ fs tk mo l).
  Qed.
  Lemma strategy_reach P pr eid mo w x : programs_ok P pr -> reach P w -> reach P (fst (execute_strategy pr eid mo w x)).
  Proof.
    intros Hp Hw. unfold execute_strategy. destruct (w_strats w !! x.2) as [s|] eqn:Es; [|auto].
    destruct (w_epics w !! eid) as [e|] eqn:Ee; [|auto].
    pose proof (reach_active P w x.2 s (tk_dt (ep_last e)) Hw Es) as H1. destruct (is_active s (tk_dt (ep_last e))) as [s' act].
    simpl in H1. destruct act; [|exact H1].
    apply andthen_inv; [|intros w2 H2; apply andthen_inv; [|intros w3 H3; now apply callback_reach]].
    - destruct (eqb mo (ep_mopen e)); [exact H1|]. destruct mo; now apply callback_reach.
    - destruct (ep_mopen e); [now apply callback_reach|exact H2].
  Qed.
  Lemma tick_reach P pr w eid tk : programs_ok P pr -> reach P w -> reach P (fst (epic_on_new_tick pr w eid tk)).
  Proof.
    intros Hp Hw. unfold epic_on_new_tick. destruct (w_epics w !! eid) as [e|] eqn:Ee; [|auto]. cbv zeta.
    destruct (arrow_ltb _ _) eqn:Ea; [auto|]. set (e' := ep_set_last e _ _). set (tk' := tick_to _ _).
    apply (andthen_inv' (fun w1 => reach P w1 /\ w_epics w1 !! eid = Some e')).
    - apply (forM_inv (fun w1 => reach P w1 /\ w_epics w1 !! eid = Some e')).
      + intros w1 x Hx [H1 H2]. rewrite update_fset_epics. split; [|auto]. now apply (reach_fset P w1 eid e' x).
      + split; [now apply reach_accept|]. simpl. apply list_lookup_insert. eapply lookup_lt_Some; eauto.
    - intros w1 [H1 H2]. apply forM_inv; [|now apply (reach_value P w1 eid e')]. intros w2 x _ H3. now apply strategy_reach.
    - now intros w1 [H1 _].
  Qed.
  Lemma step_reach P pr w o : programs_ok P pr -> op_ok P o -> reach P w -> reach P (fst (step pr w o)).
  Proof.
    intros Hp Ho Hw. destruct o; try (apply (reach_setup P pr); [auto|exact I]; fail).
    - now apply tick_reach.
    - now apply reach_call.
  Qed.
  Lemma run_reach P pr l w : programs_ok P pr -> Forall (op_ok P) l -> reach P w -> reach P (run pr w l).
  Proof.
    intros Hp Hl. revert w. induction Hl as [|o l Ho Hl IH]; intros w Hw; simpl; [auto|]. apply IH. now apply step_reach.
  Qed.

  (** ** Inversion of the calls *)
  Lemma close_from_epic_inv w tid q ref w' ci : close_from_epic w tid q ref = Ok (w', ci) ->
    exists t e t' c, w_trades w !! tid = Some t /\ w_epics w !! tr_epic t = Some e /\
      close_from_tick t (ep_last e) q ref = Ok (t', c) /\ w' = upd_trades w (<[tid := t']> (w_trades w)) /\ ci = length (tr_closes t).
  Proof.
    unfold close_from_epic. destruct (w_trades w !! tid) as [t|] eqn:Et; [|discriminate].
    destruct (w_epics w !! tr_epic t) as [e|] eqn:Ee; [|discriminate].
    destruct (close_from_tick t (ep_last e) q ref) as [[t' c]|x] eqn:Ec; simpl; [|discriminate].
    intros E. injection E as <- <-. now exists t, e, t', c.
  Qed.
  Lemma close_from_epic_ok w tid q ref t e : w_trades w !! tid = Some t -> w_epics w !! tr_epic t = Some e ->
    exists t' c, close_from_tick t (ep_last e) q ref = Ok (t', c) /\
      close_from_epic w tid q ref = Ok (upd_trades w (<[tid := t']> (w_trades w)), length (tr_closes t)).
  Proof.
    intros Et Ee. unfold close_from_epic. rewrite Et, Ee. destruct (close_from_tick_ok t (ep_last e) q ref) as (t' & c & E).
    rewrite E. eauto.
  Qed.

  (** ** What never changes in a trade *)
  Definition fixed t t' : Prop :=
    tr_epic t' = tr_epic t /\ tr_strat t' = tr_strat t /\ tr_dir t' = tr_dir t /\ tr_ov t' = tr_ov t /\
    tr_dt t' = tr_dt t /\ tr_ref t' = tr_ref t.
  Global Instance fixed_pre : PreOrder fixed.
  Proof. split; [now intros t|]. intros a b c (?&?&?&?&?&?) (?&?&?&?&?&?). repeat split; congruence. Qed.
  Lemma same_fixed t t' : same_but_prices t t' -> fixed t t'.
  Proof. unfold same_but_prices, fixed. intuition congruence. Qed.
  Lemma close_fixed t v d q ref t' c : close t v d q ref = Ok (t', c) -> fixed t t'.
  Proof. intros E. apply close_inv in E as (-> & _). now repeat split. Qed.
  Lemma close_tick_fixed t tk q ref t' c : close_from_tick t tk q ref = Ok (t', c) -> fixed t t'.
  Proof.
    unfold close_from_tick. intros E. apply close_fixed in E. etransitivity; [|exact E]. apply same_fixed, update_from_tick_same.
  Qed.
End proofs.
