(** The revaluations of the trades of programs (C07). *)
From Coq Require Import QArith Lqa.
From Verif Require Export SpecEnvelope HistoryProofs.
From Verif Require Import QuantityProofs MarketProofs NettingProofs.
Open Scope Z_scope.

Section proofs.
  Context {F : Type} `{Num F}.
  Implicit Types (w : world F) (t : trade F).

  Lemma watched_trans t t1 t2 l1 l2 : watched t t1 l1 -> watched t1 t2 l2 -> watched t t2 (l2 ++ l1).
  Proof. intros S1. induction 1; cbn [app]; eauto using watched_update, watched_close, watched_close_again, watched_status, watched_close_status. Qed.
  Lemma watched_upd t v : exists l, watched t (update t v) l /\ (closed t = false -> l <> []).
  Proof.
    destruct (closed t) eqn:E; [exists []; split; [|discriminate]; unfold update; rewrite E; constructor|].
    eexists. split; [apply (watched_update t t [] v); [constructor|auto]|discriminate].
  Qed.
  Lemma watched_close_tick t tk q ref t' c : close_from_tick t tk q ref = Ok (t', c) -> exists l, watched t t' l.
  Proof. intros E. destruct (closed t) eqn:Ec; eexists; [eapply watched_close_again|eapply watched_close]; eauto; constructor. Qed.
  Lemma watched_kept t t' l : watched t t' l -> trade_kept t t'.
  Proof.
    induction 1 as [|t' l v _ IH _|t' l tk q ref t2 c _ IH _ E|t' l tk q ref t2 c _ IH _ E|t' l s _ IH|t' l i s _ IH]; [apply trade_kept_refl|..];
      (eapply trade_kept_trans; [exact IH|]).
    - apply same_kept, update_same.
    - eapply close_tick_kept; eauto.
    - eapply close_tick_kept; eauto.
    - repeat (split; [reflexivity|]). intros k c Hc. eauto using close_kept_refl.
    - apply set_closes_kept, kept_alter; [apply close_kept_refl|]. now intros c.
  Qed.
  (** The first close of an open trade is a revaluation. *)
  Lemma watched_closes t t' l : watched t t' l -> tr_closes t = [] -> tr_oq t <> 0 -> l = [] -> tr_closes t' = [].
  Proof.
    intros S0 Hc Hq. induction S0 as [|t' l v S1 IH C|t' l tk q ref t2 c S1 IH C E|t' l tk q ref t2 c S1 IH C E|t' l s S1 IH|t' l i s S1 IH]; intros El; try discriminate; auto.
    - specialize (IH El). exfalso. pose proof (watched_kept _ _ _ S1) as (_ & _ & _ & Eq & _). unfold closed in C. apply Z.eqb_eq in C.
      unfold opened_quantities, closed_quantities in C. rewrite IH in C. cbn in C. lia.
    - cbn. now rewrite (IH El).
  Qed.

  (** ** One step of a program *)
  Definition grows t t' : Prop := exists l, watched t t' l.
  Lemma grows_refl t : grows t t. Proof. exists []. constructor. Qed.
  Lemma grows_trans t1 t2 t3 : grows t1 t2 -> grows t2 t3 -> grows t1 t3.
  Proof. intros [l1 S1] [l2 S2]. exists (l2 ++ l1). eapply watched_trans; eauto. Qed.
  Definition grown w w' : Prop := all_kept grows (w_trades w) (w_trades w').
  Lemma grown_refl w : grown w w. Proof. apply kept_refl, grows_refl. Qed.
  Lemma grown_trans w1 w2 w3 : grown w1 w2 -> grown w2 w3 -> grown w1 w3.
  Proof. apply (kept_trans _ grows_trans). Qed.
  Lemma grown_same w w' : w_trades w' = w_trades w -> grown w w'.
  Proof. intros E. unfold grown. rewrite E. apply kept_refl, grows_refl. Qed.
  (** Trades stay as many, each revalued. *)
  Definition steady w w' : Prop := grown w w' /\ length (w_trades w') = length (w_trades w).
  Lemma steady_refl w : steady w w. Proof. split; [apply grown_refl|auto]. Qed.
  Lemma steady_trans w1 w2 w3 : steady w1 w2 -> steady w2 w3 -> steady w1 w3.
  Proof. intros [A1 B1] [A2 B2]. split; [eapply grown_trans; eauto|congruence]. Qed.
  Lemma steady_same w w' : w_trades w' = w_trades w -> steady w w'.
  Proof. intros E. split; [now apply grown_same|now rewrite E]. Qed.
  Lemma steady_alter w (i : nat) f : (forall t, grows t (f t)) -> steady w (upd_trades w (alter f i (w_trades w))).
  Proof. intros Hf. split; [apply kept_alter; auto using grows_refl|apply alter_length]. Qed.
  Lemma steady_close_epic w tid q ref w' ci : close_from_epic w tid q ref = Ok (w', ci) -> steady w w'.
  Proof.
    intros E. apply close_from_epic_inv in E as (t & e & t' & c & Ht & He & Hc & -> & _). split; [|apply insert_length].
    apply kept_insert; [apply grows_refl|]. intros x Hx. assert (x = t) as -> by congruence. eapply watched_close_tick; eauto.
  Qed.
  Lemma steady_epic_close w eid tid q ref : steady w (fst (epic_close_trade w eid tid q ref)).
  Proof.
    unfold epic_close_trade. destruct (w_epics w !! eid) as [e|]; [|apply steady_refl]. destruct (close_from_epic w tid q ref) as [[w1 ci]|] eqn:E; [|apply steady_refl].
    eapply steady_trans; [eapply steady_close_epic; eauto|]. now apply steady_same.
  Qed.
  Lemma steady_strategy_close w tid q ref : steady w (fst (strategy_close_trade w tid q ref)).
  Proof. unfold strategy_close_trade. destruct (w_trades w !! tid); [apply steady_epic_close|apply steady_refl]. Qed.
  Lemma steady_thread w pid k : steady w (run_thread w pid k).
  Proof.
    unfold run_thread. destruct (w_provs w !! pid) as [p|]; [|apply steady_refl]. destruct (pv_threads p !! k) as [th|]; [|apply steady_refl]. destruct (th_done th); [apply steady_refl|].
    assert (forall t s, grows t (set_status t s)) as G1 by (intros t s; exists []; apply watched_status; constructor).
    assert (forall t c s, grows t (set_closes t (alter (fun y => set_cstatus y s) c (tr_closes t)))) as G2 by (intros t c s; exists []; apply watched_close_status; constructor).
    unfold job_effect. destruct (pv_kind p) as [| |so sc]; [|now apply steady_same|]; destruct (th_job th);
      (match goal with |- steady w (upd_provs (upd_trades w (alter ?f ?i _)) _) => eapply (steady_trans _ (upd_trades w (alter f i (w_trades w)))); [apply steady_alter; auto|now apply steady_same] end).
  Qed.
  Lemma steady_value w pid tk : steady w (update_open_trades w pid tk).
  Proof.
    unfold update_open_trades. destruct (w_provs w !! pid) as [p|]; [|apply steady_refl]. unfold steady, grown. cbn [w_trades upd_trades]. generalize (opened_trades w p), (w_trades w). clear.
    induction l as [|i l IH]; intros ts; cbn; [split; [apply kept_refl, grows_refl|auto]|]. destruct (IH (alter (fun t => update_from_tick t tk) i ts)) as [A B].
    split; [|now rewrite B, alter_length]. eapply (kept_trans _ grows_trans); [|exact A]. apply kept_alter; [apply grows_refl|]. intros t. destruct (watched_upd t (match tr_dir t with BUY => tk_bid tk | SELL => tk_ask tk end)) as (l' & S1 & _).
    exists l'. exact S1.
  Qed.
  (** An opening adds one trade, whose quantity netting may have lowered. *)
  Definition fresh w' (q : Z) t : Prop := exists t0, created q t0 /\ t = set_oq t0 (tr_oq t) /\ (tr_oq t = q \/ 0 <= tr_oq t < q /\ backtested w' t).
  Lemma open_grown w eid d q s ref : wfg increasing w -> qinv w -> 0 < q -> let w' := fst (epic_open_trade w eid d q s ref) in
    grown w w' /\ forall i t, w_trades w !! i = None -> w_trades w' !! i = Some t -> exists q, fresh w' q t.
  Proof.
    intros W Q Hq. destruct (open_cases w eid d q s ref W) as [(e & d' & p & -> & He & Hp & Hs)|(x & ->)].
    2:{ simpl. split; [apply grown_refl|]. intros i t E1 E2. congruence. }
    assert (pv_kind p = PBacktests \/ pv_kind p <> PBacktests) as [Hk|Hk] by (destruct (pv_kind p); auto; right; discriminate).
    - destruct (open_backtest w eid e p d' q s ref W He Hp Hk Hs Hq) as (t & w' & Ho & -> & T1 & T2 & T3 & T4 & T5 & _ & T7 & _).
      { intros i Hi. eapply qinv_open_pos; eauto. }
      simpl. set (l := open_trades_of w p s (other d')) in *. set (a := map (open_qty w) l) in *. destruct (open_fields _ _ _ _ _ _ _ Ho) as (_ & _ & E1 & _ & _ & E4 & _ & Hc). split.
      + intros i x Hx. destruct (decide (i ∈ l)) as [Hi|Hi].
        * apply elem_of_list_lookup in Hi as (k & Hk'). destruct (T3 k i x Hk' Hx) as (eo & o' & c & _ & Hcl & _ & Ho'). exists o'. split; [auto|]. eapply watched_close_tick; eauto.
        * exists x. split; [|apply grows_refl]. rewrite T4; auto. eapply lookup_lt_Some; eauto.
      + intros i x Hn Hx. assert (i = length (w_trades w)) as -> by (apply lookup_ge_None in Hn; apply lookup_lt_Some in Hx; lia). rewrite T1 in Hx. injection Hx as <-.
        exists q, t. split; [auto|]. split; [reflexivity|]. cbn [tr_oq set_oq].
        assert (0 <= total a) as Ha.
        { apply total_pos, Forall_forall. intros y Hy. apply elem_of_list_In, in_map_iff in Hy as (j & <- & Hj). apply elem_of_list_In in Hj. eapply qinv_open_pos; eauto. }
        destruct (decide (total a = 0)) as [->|Hne]; [left; lia|]. right. split; [lia|]. exists e. cbn [tr_epic set_oq]. rewrite T7, E1. split; [auto|].
        unfold is_backtest. rewrite T5. eexists. split; [apply list_lookup_insert; eapply lookup_lt_Some; eauto|reflexivity].
    - destruct (open_simple w eid e p d' q s ref He Hp Hk Hs) as (t & Ho & ->). simpl. destruct (open_fields _ _ _ _ _ _ _ Ho) as (_ & _ & _ & _ & _ & E4 & _ & Hc).
      destruct (register_rest (upd_trades w (w_trades w ++ [t])) (ep_prov e) (length (w_trades w))) as (R1 & _). unfold grown. rewrite R1. cbn [w_trades upd_trades]. split; [apply HistoryProofs.kept_app, grows_refl|].
      intros i x Hn Hx. apply lookup_ge_None in Hn. rewrite lookup_app_r in Hx by auto. apply list_lookup_singleton_Some in Hx as [_ <-].
      exists q, t. split; [auto|]. split; [rewrite E4; destruct Hc; reflexivity|auto].
  Qed.
  Lemma cmd_grown w c : wfg increasing w -> qinv w -> quoted_call c -> let w' := fst (run_cmd w c) in
    grown w w' /\ forall i t, w_trades w !! i = None -> w_trades w' !! i = Some t -> exists q, fresh w' q t.
  Proof.
    intros W Q [Hm Hs]. assert (forall w', steady w w' -> grown w w' /\ forall i t, w_trades w !! i = None -> w_trades w' !! i = Some t -> exists q, fresh w' q t) as K.
    { intros w' [G L]. split; [auto|]. intros i t E1 E2. exfalso. apply lookup_ge_None in E1. apply lookup_lt_Some in E2. lia. }
    destruct c as [e d q s ref|t q ref|e t q ref|s q ref|t v|t|t v d q ref|t q ref|s u|s b|p k]; cbn [run_cmd fst]; try contradiction.
    - pose proof (open_grown w e d q s ref W Q Hs) as O. destruct (epic_open_trade w e d q s ref). exact O.
    - apply K, steady_strategy_close.
    - apply K, steady_epic_close.
    - apply K. unfold close_opened_trades. destruct (w_strats w !! s); [|apply steady_refl]. apply (forM_inv (steady w)); [|apply steady_refl]. intros w1 x _ S1.
      eapply steady_trans; [exact S1|]. unfold close_opened_step. destruct (trade_open_b w1 x); [apply steady_strategy_close|apply steady_refl].
    - apply K, steady_alter. intros x. destruct (watched_upd x v) as (l & S1 & _). now exists l.
    - apply K. destruct (w_trades w !! t) as [x|] eqn:E; [|apply steady_refl]. destruct (w_epics w !! tr_epic x) as [ep|]; [|apply steady_refl]. split; [|apply insert_length].
      apply kept_insert; [apply grows_refl|]. intros y Hy. assert (y = x) as -> by congruence. destruct (watched_upd x (match tr_dir x with BUY => tk_bid (ep_last ep) | SELL => tk_ask (ep_last ep) end)) as (l & S1 & _). exists l. exact S1.
    - apply K. destruct (close_from_epic w t q ref) as [[w' ci]|] eqn:E; [|apply steady_refl]. eapply steady_close_epic; eauto.
    - apply K. now apply steady_same.
    - apply K. now apply steady_same.
    - apply K, steady_thread.
  Qed.

  (** ** All states of a program *)
  Definition told w t : Prop := exists q t0 l, created q t0 /\ watched (set_oq t0 (tr_oq t)) t l /\ (tr_oq t = q \/ 0 <= tr_oq t < q /\ backtested w t).
  Lemma backtested_kept w w' t t' : remembered w w' -> tr_epic t' = tr_epic t -> backtested w t -> backtested w' t'.
  Proof.
    intros (_ & Rp & _ & Re & _) E (e & He & p & Hp & Hk). destruct (Re _ _ He) as (e' & He' & K). destruct (Rp _ _ Hp) as (p' & Hp' & Kp & _). exists e'. rewrite E. split; [auto|].
    destruct K as (_ & _ & _ & _ & _ & _ & -> & _). exists p'. split; [auto|congruence].
  Qed.
  Lemma told_grows w w' t t' : remembered w w' -> grows t t' -> told w t -> told w' t'.
  Proof.
    intros R [l S1] (q & t0 & l0 & Hc & S0 & Hq). pose proof (watched_kept _ _ _ S1) as (K1 & _ & _ & K4 & _). exists q, t0, (l ++ l0). split; [auto|]. rewrite K4. split; [eapply watched_trans; eauto|].
    destruct Hq as [Hq|[Hq Hb]]; [auto|]. right. split; [auto|]. eapply backtested_kept; eauto.
  Qed.
  Lemma told_step w w' : remembered w w' -> grown w w' -> (forall i t, w_trades w !! i = None -> w_trades w' !! i = Some t -> exists q, fresh w' q t) ->
    (forall i t, w_trades w !! i = Some t -> told w t) -> forall i t, w_trades w' !! i = Some t -> told w' t.
  Proof.
    intros R G N IH i t Ht. destruct (w_trades w !! i) as [t0|] eqn:E0.
    - destruct (G i t0 E0) as (t1 & E1 & Hg). assert (t1 = t) as -> by congruence. eapply told_grows; eauto.
    - destruct (N i t E0 Ht) as (q & t0 & Hc & Et & Hq). exists q, t0, []. split; [auto|]. rewrite <- Et. split; [constructor|auto].
  Qed.
  Lemma steady_new w w' : steady w w' -> grown w w' /\ forall i t, w_trades w !! i = None -> w_trades w' !! i = Some t -> exists q, fresh w' q t.
  Proof. intros [G L]. split; [auto|]. intros i t E1 E2. exfalso. apply lookup_ge_None in E1. apply lookup_lt_Some in E2. lia. Qed.
  Lemma sane_quoted w : reach quoted_call w -> wfg increasing w /\ qinv w.
  Proof. intros R. split; [eapply reach_wf; eauto|]. apply reach_qinv. eapply reach_mono; [|exact R]. now intros c []. Qed.
  Lemma fset_trades tk w x : w_trades (fst (update_frame_set tk w x)) = w_trades w.
  Proof. unfold update_frame_set. destruct (w_fsets w !! x.2) as [fs|]; [|auto]. destruct (fs_epic_state w fs). now destruct (fs_on_new_tick _ _ _ _ _). Qed.
  Lemma reach_told w : reach quoted_call w -> forall i t, w_trades w !! i = Some t -> told w t.
  Proof.
    induction 1 as [|w c R IH Hc|pr w o R IH Ho|w eid e tk R IH He Ha|w eid e x R IH He Hx|w eid e R IH He|w sid s d R IH Hs|w l R IH].
    - intros i t E. discriminate.
    - destruct (sane_quoted w R) as [W Q]. destruct (cmd_grown w c W Q Hc) as [G N]. eapply told_step; eauto using cmd_kept.
    - destruct (steady_new w (fst (step pr w o)) (steady_same _ _ (setup_trades pr w o Ho))) as [G N]. eapply told_step; eauto using setup_kept.
    - match goal with |- forall i t, w_trades ?v !! _ = _ -> _ => destruct (steady_new w v (steady_same _ _ eq_refl)) as [G N] end. eapply told_step; eauto using accept_kept.
    - destruct (steady_new w _ (steady_same _ _ (fset_trades (ep_last e) w x))) as [G N]. eapply told_step; eauto using fset_tick_kept.
    - destruct (steady_new w _ (steady_value w (ep_prov e) (ep_last e))) as [G N]. eapply told_step; eauto using value_kept.
    - match goal with |- forall i t, w_trades ?v !! _ = _ -> _ => destruct (steady_new w v (steady_same _ _ eq_refl)) as [G N] end. eapply told_step; eauto using active_kept.
    - match goal with |- forall i t, w_trades ?v !! _ = _ -> _ => destruct (steady_new w v (steady_same _ _ eq_refl)) as [G N] end. eapply told_step; eauto using log_kept.
  Qed.

  (** ** From one state of a run to a later one *)
  Definition since w w' : Prop := reach quoted_call w' /\ grown w w'.
  Lemma embed_ok' P (pr : programs F) : programs_ok P pr -> rprograms_ok P (embed_programs pr).
  Proof.
    intros Hp sid cb eid w. unfold embed_programs. specialize (Hp sid cb eid w). induction (pr sid cb eid w) as [|x|c k IH]; simpl in *; auto. destruct Hp as [Hc Hk]. split; [auto|]. auto.
  Qed.
  Lemma run_since pr l w : programs_ok quoted_call pr -> Forall (op_ok quoted_call) l -> reach quoted_call w -> since w (run pr w l).
  Proof.
    intros Hp Hl R. rewrite <- (embed_run 0). apply (rrun_inv quoted_call (since w)); auto using embed_ok'.
    - intros w1 c [R1 G1] Hc. split; [now apply reach_call|]. destruct (sane_quoted w1 R1) as [W Q]. eapply grown_trans; [exact G1|]. now apply cmd_grown.
    - intros q w1 o [R1 G1] Ho. split; [now apply reach_setup|]. eapply grown_trans; [exact G1|]. now apply grown_same, setup_trades.
    - intros w1 eid e tk [R1 G1] He Ha. split; [now apply reach_accept|]. exact G1.
    - intros w1 eid e x [R1 G1] He Hx. split; [eapply reach_fset; eauto|]. eapply grown_trans; [exact G1|]. now apply grown_same, fset_trades.
    - intros w1 eid e [R1 G1] He. split; [eapply reach_value; eauto|]. eapply grown_trans; [exact G1|]. apply steady_value.
    - intros w1 sid s d [R1 G1] Hs. split; [eapply reach_active; eauto|]. exact G1.
    - intros w1 l1 [R1 G1]. split; [now apply reach_log|]. exact G1.
    - split; [auto|apply grown_refl].
  Qed.
End proofs.

Section tick.
  Context {F : Type} `{Num F}.
  Implicit Types (w : world F) (t : trade F).
  Lemma exec_since pr eid mo w w1 x : programs_ok quoted_call pr -> since w w1 -> since w (fst (execute_strategy pr eid mo w1 x)).
  Proof.
    intros Hp. rewrite <- (embed_exec (fun w _ _ => (w, Ok ()))). apply (rexecute_inv quoted_call (since w)); auto using embed_ok'.
    - intros w2 c [R1 G1] Hc. split; [now apply reach_call|]. destruct (sane_quoted w2 R1) as [W Q]. eapply grown_trans; [exact G1|]. now apply cmd_grown.
    - intros q w2 o [R1 G1] Ho. split; [now apply reach_setup|]. eapply grown_trans; [exact G1|]. now apply grown_same, setup_trades.
    - intros w2 sid s d [R1 G1] Hs. split; [eapply reach_active; eauto|]. exact G1.
    - intros w2 l1 [R1 G1]. split; [now apply reach_log|]. exact G1.
  Qed.
  Lemma fold_grows tk (l : list nat) (ts : list (trade F)) : all_kept grows ts (fold_left (fun ts i => alter (fun t => update_from_tick t tk) i ts) l ts).
  Proof.
    revert ts. induction l as [|i l IH]; intros ts; cbn; [apply kept_refl, grows_refl|]. eapply (kept_trans _ grows_trans); [|apply IH]. apply kept_alter; [apply grows_refl|].
    intros t. destruct (watched_upd t (match tr_dir t with BUY => tk_bid tk | SELL => tk_ask tk end)) as (l' & S1 & _). exists l'. exact S1.
  Qed.
  Lemma fold_revalues tk (l : list nat) (ts : list (trade F)) i t : i ∈ l -> ts !! i = Some t -> closed t = false ->
    exists t' l', fold_left (fun ts i => alter (fun t => update_from_tick t tk) i ts) l ts !! i = Some t' /\ watched t t' l' /\ l' <> [].
  Proof.
    revert ts. induction l as [|j l IH]; intros ts Hi Ht C; [inversion Hi|]. cbn. destruct (decide (j = i)) as [->|Hn].
    - destruct (watched_upd t (match tr_dir t with BUY => tk_bid tk | SELL => tk_ask tk end)) as (l1 & S1 & N1).
      assert (alter (fun t => update_from_tick t tk) i ts !! i = Some (update_from_tick t tk)) as E by now rewrite list_lookup_alter, Ht.
      destruct (fold_grows tk l _ i _ E) as (t' & E' & l2 & S2). exists t', (l2 ++ l1). split; [auto|]. split; [eapply watched_trans; eauto|]. intros El. apply (N1 C). now destruct l2, l1.
    - apply elem_of_cons in Hi as [->|Hi]; [congruence|]. apply IH; auto. now rewrite list_lookup_alter_ne.
  Qed.
  Lemma tick_revalues pr w eid e tk i t : programs_ok quoted_call pr -> reach quoted_call w -> w_epics w !! eid = Some e -> registered w (ep_prov e) i ->
    w_trades w !! i = Some t -> closed t = false -> snd (step pr w (OTick eid tk)) = Ok () ->
    exists t1 t2 l, watched t t1 l /\ l <> [] /\ grows t1 t2 /\ w_trades (fst (step pr w (OTick eid tk))) !! i = Some t2.
  Proof.
    intros Hp R He Hi Ht C. cbn [step]. unfold epic_on_new_tick. rewrite He. cbv zeta. destruct (arrow_ltb _ _) eqn:Ea; [discriminate|]. set (e' := ep_set_last e _ _). set (tk' := tick_to _ _).
    set (w1 := upd_epics w _). assert (reach quoted_call w1) as R1 by (eapply reach_accept; eauto).
    assert (forall (l : list (string * nat)), (forall x, x ∈ l -> x ∈ ep_fsets e') -> let w2 := fst (forM (update_frame_set tk') w1 l) in
      reach quoted_call w2 /\ w_trades w2 = w_trades w /\ w_provs w2 = w_provs w /\ w_epics w2 = w_epics w1) as K.
    { intros l Hl. apply (forM_inv (fun w2 => reach quoted_call w2 /\ w_trades w2 = w_trades w /\ w_provs w2 = w_provs w /\ w_epics w2 = w_epics w1)); [|split; [exact R1|auto]].
      intros w2 x Hx (A1 & A2 & A3 & A4). assert (w_epics w2 !! eid = Some e') as E2 by (rewrite A4; apply list_lookup_insert; eapply lookup_lt_Some; eauto).
      split; [exact (reach_fset _ w2 eid e' x A1 E2 (Hl x Hx))|]. rewrite fset_trades, update_fset_epics. split; [auto|]. split; [|auto].
      unfold update_frame_set. destruct (w_fsets w2 !! x.2) as [fs|]; [|auto]. destruct (fs_epic_state w2 fs). now destruct (fs_on_new_tick _ _ _ _ _). }
    specialize (K (ep_fsets e') ltac:(auto)). destruct (forM (update_frame_set tk') w1 (ep_fsets e')) as [w2 [u|x]]; [|discriminate]. cbn [fst andthen] in *. destruct K as (R2 & T2 & P2 & E2). intros _.
    destruct Hi as (p & Hp' & Hi). set (w3 := update_open_trades w2 (ep_prov e') tk').
    assert (reach quoted_call w3) as R3 by (apply (reach_value _ w2 eid e' R2); rewrite E2; apply list_lookup_insert; eapply lookup_lt_Some; eauto).
    assert (exists t1 l, w_trades w3 !! i = Some t1 /\ watched t t1 l /\ l <> []) as (t1 & l & H1 & S1 & N1).
    { unfold w3, update_open_trades. rewrite P2. change (ep_prov e') with (ep_prov e). rewrite Hp'. cbn [w_trades upd_trades]. apply fold_revalues; [|congruence|auto].
      unfold opened_trades. apply elem_of_list_In, filter_In. split; [apply elem_of_list_In; now rewrite elem_of_reverse|]. unfold trade_open_b. rewrite T2, Ht. now rewrite C. }
    assert (since w3 (fst (forM (execute_strategy pr eid (ep_mopen e)) w3 (ep_strats e')))) as [_ G].
    { apply (forM_inv (since w3)); [|split; [exact R3|apply grown_refl]]. intros w4 x _. now apply exec_since. }
    destruct (G i t1 H1) as (t2 & H2 & G2). exists t1, t2, l. auto.
  Qed.
End tick.

Open Scope Q_scope.
Lemma watched_env (t0 t : trade Q) l r : tr_max t0 = r -> tr_min t0 = r -> watched t0 t l ->
  is_max (tr_max t) (l ++ [r]) /\ is_min (tr_min t) (l ++ [r]) /\ match l with [] => result t == result t0 | x :: _ => result t == x end.
Proof.
  intros Hx Hn. assert (forall (t : trade Q) l v, is_max (tr_max t) (l ++ [r]) -> is_min (tr_min t) (l ++ [r]) -> closed t = false ->
    is_max (tr_max (update t v)) (result (update t v) :: l ++ [r]) /\ is_min (tr_min (update t v)) (result (update t v) :: l ++ [r])) as K.
  { clear. intros t l v (Hmx & x1 & Hx1 & Ex1) (Hmn & x2 & Hx2 & Ex2) C. unfold update. rewrite C. set (t1 := set_cv t v) in *. destruct (update_min_max_env t1) as (Emx & Emn & Er).
    change (tr_max t1) with (tr_max t) in *. change (tr_min t1) with (tr_min t) in *. rewrite Er. split.
    - split.
      * intros y Hy. rewrite Emx. apply elem_of_cons in Hy as [->|Hy]; [|apply Hmx in Hy]; destruct (Qlt_le_dec (tr_max t) (result t1)); lra.
      * destruct (Qlt_le_dec (tr_max t) (result t1)); [exists (result t1)|exists x1]; (split; [now constructor|]); rewrite Emx; [reflexivity|auto].
    - split.
      * intros y Hy. rewrite Emn. apply elem_of_cons in Hy as [->|Hy]; [|apply Hmn in Hy]; destruct (Qlt_le_dec (result t1) (tr_min t)); lra.
      * destruct (Qlt_le_dec (result t1) (tr_min t)); [exists (result t1)|exists x2]; (split; [now constructor|]); rewrite Emn; [reflexivity|auto]. }
  induction 1 as [|t l v S1 IH C|t l tk q ref t2 c S1 IH C E|t l tk q ref t2 c S1 IH C E|t l s S1 IH|t l i s S1 IH].
  - rewrite Hx, Hn. split; [|split; [|reflexivity]]; (split; [intros x Hx'; apply elem_of_list_singleton in Hx' as ->; lra|exists r; split; [constructor|reflexivity]]).
  - destruct IH as (H1 & H2 & _). destruct (K t l v H1 H2 C) as [K1 K2]. split; [exact K1|]. split; [exact K2|reflexivity].
  - destruct IH as (H1 & H2 & _). destruct (K t l (match tr_dir t with BUY => tk_bid tk | SELL => tk_ask tk end) H1 H2 C) as [K1 K2]. pose proof (close_tick_result _ _ _ _ _ _ E) as Hr. apply close_from_tick_inv in E as (-> & _).
    split; [exact K1|]. split; [exact K2|exact Hr].
  - destruct IH as (H1 & H2 & H3). pose proof (close_tick_result _ _ _ _ _ _ E) as Hr. apply close_from_tick_inv in E as (-> & _). assert (update_from_tick t tk = t) as Eu by (unfold update_from_tick, update; now rewrite C).
    rewrite Eu in *. split; [exact H1|]. split; [exact H2|]. destruct l; rewrite Hr; exact H3.
  - exact IH.
  - destruct IH as (H1 & H2 & H3). split; [exact H1|]. split; [exact H2|]. destruct l; rewrite alter_status_result; exact H3.
Qed.
Definition bracketed (t : trade Q) : Prop := tr_min t <= result t <= tr_max t.
Lemma watched_bracket (t0 t : trade Q) l r : tr_max t0 = r -> tr_min t0 = r -> watched t0 t l -> l <> [] \/ result t0 == r -> bracketed t.
Proof.
  intros Hx Hn S Hl. destruct (watched_env t0 t l r Hx Hn S) as ((M1 & _) & (M2 & _) & M3). unfold bracketed. destruct l as [|x l].
  - destruct Hl as [Hl|Hl]; [congruence|]. rewrite M3, Hl. split; [apply M2|apply M1]; left.
  - rewrite M3. split; [apply M2|apply M1]; left.
Qed.
Lemma created_extrema q (t0 : trade Q) q' : created q t0 -> tr_max (set_oq t0 q') = result t0 /\ tr_min (set_oq t0 q') = result t0 /\ tr_closes (set_oq t0 q') = [] /\ tr_oq (set_oq t0 q') = q' /\ set_oq t0 q = t0.
Proof. intros []. repeat split. Qed.

Theorem program_extrema (w : world Q) i t : reach quoted_call w -> w_trades w !! i = Some t -> exists q t0 l, created q t0 /\ watched (set_oq t0 (tr_oq t)) t l /\
  is_max (tr_max t) (l ++ [result t0]) /\ is_min (tr_min t) (l ++ [result t0]) /\ ((tr_oq t = q)%Z \/ (0 <= tr_oq t < q)%Z /\ backtested w t).
Proof.
  intros R Ht. destruct (reach_told w R i t Ht) as (q & t0 & l & Hc & S & Hq). exists q, t0, l. split; [auto|]. split; [auto|].
  destruct (created_extrema q t0 (tr_oq t) Hc) as (E1 & E2 & _). destruct (watched_env _ _ _ _ E1 E2 S) as (M1 & M2 & _). auto.
Qed.
Theorem program_bracket (w : world Q) i t : reach quoted_call w -> w_trades w !! i = Some t -> ~ backtested w t \/ tr_closes t <> [] /\ tr_oq t <> 0%Z -> bracketed t.
Proof.
  intros R Ht Hb. destruct (reach_told w R i t Ht) as (q & t0 & l & Hc & S & Hq). destruct (created_extrema q t0 (tr_oq t) Hc) as (E1 & E2 & E3 & E4 & E5).
  apply (watched_bracket _ _ _ _ E1 E2 S). destruct Hb as [Hb|[Hb Hz]].
  - right. destruct Hq as [->|[_ Hq]]; [rewrite E5; reflexivity|contradiction].
  - left. intros El. apply Hb. eapply watched_closes; eauto.
Qed.
(** Revalued once since, whatever happens next. *)
Lemma later_bracket (w : world Q) i t t1 t' l : reach quoted_call w -> w_trades w !! i = Some t -> watched t t1 l -> l <> [] -> grows t1 t' -> bracketed t'.
Proof.
  intros R Ht S1 Hl [l2 S2]. destruct (reach_told w R i t Ht) as (q & t0 & l0 & Hc & S0 & _). destruct (created_extrema q t0 (tr_oq t) Hc) as (E1 & E2 & _).
  eapply (watched_bracket _ _ _ _ E1 E2); [eapply watched_trans; [eapply watched_trans; [exact S0|exact S1]|exact S2]|]. left. destruct l2, l; simpl; congruence.
Qed.
Theorem program_ticked pr l1 eid tk l2 (e : epic Q) i t t' : programs_ok quoted_call pr -> Forall (op_ok quoted_call) (l1 ++ l2) -> let w := run pr empty_world l1 in
  w_epics w !! eid = Some e -> registered w (ep_prov e) i -> w_trades w !! i = Some t -> closed t = false -> snd (step pr w (OTick eid tk)) = Ok () ->
  w_trades (run pr empty_world (l1 ++ OTick eid tk :: l2)) !! i = Some t' -> tr_min t' <= result t' <= tr_max t'.
Proof.
  intros Hp Hl w He Hi Ht C Hs. apply Forall_app in Hl as [Hl1 Hl2]. assert (reach quoted_call w) as R by (apply run_reach; auto; apply reach_empty).
  destruct (tick_revalues pr w eid e tk i t Hp R He Hi Ht C Hs) as (t1 & t2 & l & S1 & N1 & G2 & H2). unfold run. rewrite fold_left_app. fold (run pr empty_world l1). fold w. cbn [fold_left].
  assert (reach quoted_call (fst (step pr w (OTick eid tk)))) as R2 by (apply (run_reach quoted_call pr [OTick eid tk]); auto; repeat constructor).
  destruct (run_since pr l2 _ Hp Hl2 R2) as [_ G]. destruct (G i t2 H2) as (t3 & H3 & G3). unfold run in H3. rewrite H3. intros [= <-].
  eapply (later_bracket w i t t1 t3 l); eauto. eapply grows_trans; eauto.
Qed.
