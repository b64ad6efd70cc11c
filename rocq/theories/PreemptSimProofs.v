(** Each interruptible function against the function of World.v (C78). *)
From Verif Require Export PreemptProofs ThreadProofs.
Open Scope Z_scope.

Section proofs.
  Context {F : Type} `{Num F}.
  Implicit Types (w : world F) (t : trade F) (s : istate F).

  Definition RR {A} (x : istate F * A) (y : world F * A) : Prop := R x.1 y.1 /\ x.2 = y.2.

  (** ** Reads *)
  Definition same t t' : Prop := erase_trade t = erase_trade t'.
  Lemma same_reads t t' : same t t' -> closed t = closed t' /\ opened_quantities t = opened_quantities t' /\ tr_dir t = tr_dir t' /\ tr_epic t = tr_epic t' /\
    tr_strat t = tr_strat t' /\ tr_oq t = tr_oq t' /\ tr_cv t = tr_cv t' /\ length (tr_closes t) = length (tr_closes t') /\ (forall q, close_quantity t q = close_quantity t' q).
  Proof.
    intros E. unfold same in E. rewrite <- (erase_closed t), <- (erase_opened t), E, erase_closed, erase_opened.
    pose proof (f_equal tr_dir E). pose proof (f_equal tr_epic E). pose proof (f_equal tr_strat E). pose proof (f_equal tr_oq E). pose proof (f_equal tr_cv E).
    pose proof (f_equal (fun x => length (tr_closes x)) E) as El. simpl in *. rewrite !fmap_length in El. repeat split; auto.
    intros q. rewrite <- (erase_close_quantity t), E. apply erase_close_quantity.
  Qed.
  Lemma R_trade s w i : R s w -> (w_trades s.1 !! i = None /\ w_trades w !! i = None) \/
    exists t t', w_trades s.1 !! i = Some t /\ w_trades w !! i = Some t' /\ same t t'.
  Proof.
    intros HR. pose proof (R_erase s w HR) as E. pose proof (erase_t s.1 i) as E1. pose proof (erase_t w i) as E2. rewrite E in E1. rewrite E1 in E2.
    destruct (w_trades s.1 !! i) as [t|]; destruct (w_trades w !! i) as [t'|]; try discriminate; [right|auto]. exists t, t'. repeat split; auto. simpl in E2. unfold same. congruence.
  Qed.
  Lemma R_prov s w i : R s w -> (w_provs s.1 !! i = None /\ w_provs w !! i = None) \/
    exists p p', w_provs s.1 !! i = Some p /\ w_provs w !! i = Some p' /\ pv_kind p = pv_kind p' /\ opened_trades s.1 p = opened_trades w p'.
  Proof.
    intros HR. pose proof (R_erase s w HR) as E. pose proof (erase_p s.1 i) as E1. pose proof (erase_p w i) as E2. rewrite E in E1. rewrite E1 in E2.
    destruct (w_provs s.1 !! i) as [p|]; destruct (w_provs w !! i) as [p'|]; try discriminate; [right|auto]. exists p, p'. simpl in E2. assert (erase_prov p = erase_prov p') as E3 by congruence.
    repeat split; auto; [exact (f_equal pv_kind E3)|]. now rewrite <- erase_opened_trades, E3, E, erase_opened_trades.
  Qed.
  Lemma R_parts s w : R s w -> w_strats s.1 = w_strats w /\ w_epics s.1 = w_epics w /\ w_fsets s.1 = w_fsets w /\ w_log s.1 = w_log w.
  Proof. intros HR. apply erase_parts. now apply R_erase. Qed.
  Lemma R_ntrades s w : R s w -> length (w_trades s.1) = length (w_trades w).
  Proof. intros HR. apply R_erase in HR. apply (f_equal (fun x => length (w_trades x))) in HR. simpl in HR. now rewrite !fmap_length in HR. Qed.
  Lemma R_open_b s w i : R s w -> trade_open_b s.1 i = trade_open_b w i.
  Proof.
    intros HR. unfold trade_open_b. destruct (R_trade s w i HR) as [(-> & ->)|(t & t' & -> & -> & E)]; [auto|]. f_equal. now apply same_reads in E as (E & _).
  Qed.

  (** ** Plain changes of a trade *)
  Lemma erase_mark c st t : erase_trade (mark c st t) = erase_trade t.
  Proof.
    unfold mark, erase_trade, set_closes. simpl. f_equal. apply list_eq. intros n. rewrite !list_lookup_fmap. destruct (decide (c = n)) as [->|Hn].
    - rewrite list_lookup_alter. now destruct (tr_closes t !! n).
    - now rewrite list_lookup_alter_ne.
  Qed.
  Lemma result_mark c st t : result (mark c st t) = result t.
  Proof. now rewrite <- erase_result, erase_mark, erase_result. Qed.
  Lemma plain_cv v : plain (fun t => set_cv t v).
  Proof. intros t. repeat split; auto. Qed.
  Lemma plain_oq q : plain (fun t => set_oq t (tr_oq t - q)).
  Proof. intros t. repeat split; auto. Qed.
  Lemma plain_max : plain up_max.
  Proof.
    intros t. repeat split; unfold up_max.
    - now destruct (fltb (tr_max t) (result t)).
    - intros st. change (result (set_status t st)) with (result t). change (tr_max (set_status t st)) with (tr_max t). now destruct (fltb (tr_max t) (result t)).
    - intros c st _. rewrite result_mark. change (tr_max (mark c st t)) with (tr_max t). now destruct (fltb (tr_max t) (result t)).
  Qed.
  Lemma plain_min : plain up_min.
  Proof.
    intros t. repeat split; unfold up_min.
    - now destruct (fltb (result t) (tr_min t)).
    - intros st. change (result (set_status t st)) with (result t). change (tr_min (set_status t st)) with (tr_min t). now destruct (fltb (result t) (tr_min t)).
    - intros c st _. rewrite result_mark. change (tr_min (mark c st t)) with (tr_min t). now destruct (fltb (result t) (tr_min t)).
  Qed.
  Lemma plain_close c : plain (fun t => set_closes t (tr_closes t ++ [c])).
  Proof.
    intros t. repeat split.
    - simpl. rewrite app_length. lia.
    - intros k st Hk. unfold mark, set_closes. simpl. f_equal. symmetry. now apply alter_app_l.
  Qed.

  (** ** Trades *)
  Lemma alter_at {A} (f : A -> A) i x (l : list A) : l !! i = Some x -> alter f i l = <[i := f x]> l.
  Proof.
    intros E. apply list_eq. intros n. destruct (decide (i = n)) as [->|Hn].
    - rewrite list_lookup_alter, E, list_lookup_insert by (eapply lookup_lt_Some; eauto). auto.
    - now rewrite list_lookup_alter_ne, list_lookup_insert_ne by auto.
  Qed.
  Lemma alter_none {A} (f : A -> A) i (l : list A) : l !! i = None -> alter f i l = l.
  Proof.
    intros E. apply list_eq. intros n. destruct (decide (i = n)) as [->|Hn]; [now rewrite list_lookup_alter, E|now rewrite list_lookup_alter_ne].
  Qed.
  Lemma upd_same w : upd_trades w (w_trades w) = w.
  Proof. now destruct w. Qed.
  Lemma on_trade_none w i f : w_trades w !! i = None -> on_trade i f w = w.
  Proof. intros E. unfold on_trade. rewrite alter_none by auto. apply upd_same. Qed.
  Lemma on_trade_at w i f t : w_trades w !! i = Some t -> on_trade i f w = upd_trades w (<[i := f t]> (w_trades w)).
  Proof. intros E. unfold on_trade. now rewrite (alter_at f i t). Qed.
  Lemma on_trade_look w i f t : w_trades w !! i = Some t -> w_trades (on_trade i f w) !! i = Some (f t).
  Proof. intros E. unfold on_trade. simpl. now rewrite list_lookup_alter, E. Qed.
  Lemma sim_update s w tid v : R s w -> R (iupdate s tid v) (on_trade tid (fun x => update x v) w).
  Proof.
    intros HR. unfold iupdate. destruct (R_trade s w tid HR) as [(E & E')|(t & t' & E & E' & Es)]; rewrite E; [now rewrite on_trade_none|].
    apply same_reads in Es as (-> & _). rewrite (on_trade_at _ _ _ t' E'). unfold update at 1. destruct (closed t').
    - rewrite list_insert_id by auto. now rewrite upd_same.
    - assert (upd_trades w (<[tid := update_min_max (set_cv t' v)]> (w_trades w)) = on_trade tid up_min (on_trade tid up_max (on_trade tid (fun x => set_cv x v) w))) as ->.
      { rewrite (on_trade_at w tid _ t' E'). unfold on_trade, upd_trades. simpl. f_equal. rewrite !list_alter_insert || idtac.
        assert (forall (x : trade F) g, alter g tid (<[tid := x]> (w_trades w)) = <[tid := g x]> (w_trades w)) as Ha.
        { intros x g. rewrite (alter_at g tid x); [apply list_insert_insert|]. apply list_lookup_insert. eapply lookup_lt_Some; eauto. }
        now rewrite !Ha. }
      apply R_stmt_all; [apply smooth_trade, plain_min|]. apply R_stmt_all; [apply smooth_trade, plain_max|]. apply R_stmt_all; [apply smooth_trade, plain_cv|]. exact HR.
  Qed.
  Lemma sim_update_tick s w tid tk : R s w -> R (iupdate_tick s tid tk) (on_trade tid (fun x => update_from_tick x tk) w).
  Proof.
    intros HR. unfold iupdate_tick. destruct (R_trade s w tid HR) as [(E & E')|(t & t' & E & E' & Es)]; rewrite E; [now rewrite on_trade_none|].
    apply same_reads in Es as (_ & _ & -> & _). set (v := match tr_dir t' with BUY => tk_bid tk | SELL => tk_ask tk end).
    assert (on_trade tid (fun x => update_from_tick x tk) w = on_trade tid (fun x => update x v) w) as -> by (rewrite !(on_trade_at _ _ _ t' E'); reflexivity).
    exact (sim_update s w tid v HR).
  Qed.
  (** [close] and [close_from_epic] on a state. *)
  Definition aclose w (tid : nat) (v : F) (d : dtarg) (q : option Z) (ref : string) : world F * res nat :=
    match w_trades w !! tid with
    | None => (w, Err Dangling)
    | Some t => match close t v d q ref with Err e => (w, Err e) | Ok (t', _) => (upd_trades w (<[tid := t']> (w_trades w)), Ok (length (tr_closes t))) end
    end.
  Definition aclose_epic w (tid : nat) (q : option Z) (ref : string) : world F * res nat :=
    match close_from_epic w tid q ref with Ok (w', n) => (w', Ok n) | Err e => (w, Err e) end.
  Lemma R_skip s w : R s w -> R (stmt (fun w => w) s) w.
  Proof. apply (R_stmt_all (fun w => w)). apply smooth_elsewhere. intros w0. auto. Qed.
  Lemma sim_close s w tid v d q ref : R s w -> RR (iclose s tid v d q ref) (aclose w tid v d q ref).
  Proof.
    intros HR. unfold iclose, aclose. destruct (R_trade s w tid HR) as [(E & E')|(t & t' & E & E' & Es)]; rewrite E, E'; [now split|].
    unfold close. destruct (timed_set d) as [dt|e]; simpl; [|now split]. apply same_reads in Es as (_ & _ & _ & _ & _ & _ & _ & El & Eq). rewrite Eq, El. split; [|auto]. simpl.
    set (c := {| tc_value := v |}). set (g := fun x : trade F => set_closes x (tr_closes x ++ [c])).
    change (set_closes t' (tr_closes t' ++ [c])) with (g t'). rewrite <- (on_trade_at w tid g t' E').
    apply R_stmt_all; [apply smooth_trade, plain_close|]. apply R_skip. exact HR.
  Qed.
  Lemma aclose_epic_eq w tid q ref t e : w_trades w !! tid = Some t -> w_epics w !! tr_epic t = Some e ->
    aclose_epic w tid q ref = aclose (on_trade tid (fun x => update_from_tick x (ep_last e)) w) tid (tr_cv (update_from_tick t (ep_last e))) (DtAware (tk_dt (ep_last e))) q ref.
  Proof.
    intros E Ee. unfold aclose_epic, aclose, close_from_epic. rewrite (on_trade_look _ _ _ t E), E, Ee. unfold close_from_tick, close. simpl. f_equal.
    - unfold on_trade, upd_trades. simpl. f_equal. now rewrite (alter_at _ tid t _ E), list_insert_insert.
    - f_equal. unfold update_from_tick, update, update_min_max. destruct (closed t); [auto|].
      repeat match goal with |- context [if ?b then _ else _] => destruct b end; reflexivity.
  Qed.
  Lemma sim_close_epic s w tid q ref : R s w -> RR (iclose_from_epic s tid q ref) (aclose_epic w tid q ref).
  Proof.
    intros HR. pose proof (R_parts s w HR) as (_ & Eep & _). unfold iclose_from_epic. destruct (R_trade s w tid HR) as [(E & E')|(t & t' & E & E' & Es)]; rewrite E.
    - unfold aclose_epic, close_from_epic. rewrite E'. now split.
    - pose proof (same_reads _ _ Es) as (_ & _ & _ & -> & _). rewrite Eep. destruct (w_epics w !! tr_epic t') as [e|] eqn:Ee.
      + rewrite (aclose_epic_eq w tid q ref t' e E' Ee). pose proof (sim_update_tick s w tid (ep_last e) HR) as H1.
        destruct (R_trade _ _ tid H1) as [(_ & E2)|(t1 & t1' & E1 & E1' & Es1)]; [now rewrite (on_trade_look _ _ _ t' E') in E2|].
        rewrite E1. rewrite (on_trade_look _ _ _ t' E') in E1'. assert (t1' = update_from_tick t' (ep_last e)) as -> by congruence.
        apply same_reads in Es1 as (_ & _ & _ & _ & _ & _ & -> & _). now apply sim_close.
      + unfold aclose_epic, close_from_epic. rewrite E', Ee. now split.
  Qed.
  (** The close made is there. *)
  Lemma aclose_epic_there w tid q ref w' n : aclose_epic w tid q ref = (w', Ok n) -> target (w_trades w') (JClose tid n).
  Proof.
    unfold aclose_epic, close_from_epic. destruct (w_trades w !! tid) as [t|] eqn:E; [|discriminate]. destruct (w_epics w !! tr_epic t) as [e|]; [|discriminate].
    unfold close_from_tick, close. simpl. intros E1. assert (length (tr_closes t) = n) as <- by congruence. apply (f_equal fst) in E1. simpl in E1. subst w'. simpl.
    eexists. split; [apply list_lookup_insert; eapply lookup_lt_Some; eauto|]. simpl. rewrite app_length. simpl.
    assert (tr_closes (update_from_tick t (ep_last e)) = tr_closes t) as ->; [|lia].
    unfold update_from_tick, update, update_min_max. destruct (closed t); [auto|]. repeat match goal with |- context [if ?b then _ else _] => destruct b end; reflexivity.
  Qed.

  (** ** Providers *)
  Lemma sim_add s w pid j : R s w -> target (w_trades w) j -> R (stmt (fun w => add_thread w pid j) s) (add_thread w pid j).
  Proof.
    intros HR Ht. apply (R_stmt (fun w => target (w_trades w) j) (fun w => add_thread w pid j)); auto.
    - intros w0 Hj Ht0. now apply smooth_add.
    - intros w0 w1 E. now apply target_erase.
  Qed.
  Lemma sim_provider_close s w pid tid q ref : R s w ->
    RR (match iclose_from_epic s tid q ref with (s1, Err x) => (s1, Err x) | (s1, Ok ci) => (stmt (fun w => provider_close_trade w pid tid ci) s1, Ok ()) end)
       (match close_from_epic w tid q ref with Err x => (w, Err x) | Ok (w1, ci) => (provider_close_trade w1 pid tid ci, Ok ()) end).
  Proof.
    intros HR. pose proof (sim_close_epic s w tid q ref HR) as (H1 & H2). pose proof (aclose_epic_there w tid q ref) as Ht. unfold aclose_epic in *.
    destruct (iclose_from_epic s tid q ref) as [s1 [ci|x]]; destruct (close_from_epic w tid q ref) as [(w1 & n)|y]; simpl in *; try discriminate.
    - assert (ci = n) as -> by congruence. split; [|auto]. simpl. apply sim_add; [auto|]. now apply Ht.
    - split; [auto|]. simpl. congruence.
  Qed.
  Lemma strats_elsewhere (f : list strategy -> list strategy) : elsewhere (fun w => upd_strats w (f (w_strats w))).
  Proof. intros w. auto. Qed.
  Lemma sim_base_open s w pid tid : R s w -> R (ibase_open_trade s pid tid) (base_open_trade w pid tid).
  Proof.
    intros HR. unfold ibase_open_trade, base_open_trade. destruct (R_trade s w tid HR) as [(E & E')|(t & t' & E & E' & Es)]; rewrite E, E'; [auto|].
    apply same_reads in Es as (_ & _ & _ & _ & -> & _). apply lookup_lt_Some in E'.
    assert (R (stmt (fun w => upd_provs w (alter (fun p => pv_set_trades p (pv_trades p ++ [tid])) pid (w_provs w))) s)
              (upd_provs w (alter (fun p => pv_set_trades p (pv_trades p ++ [tid])) pid (w_provs w)))) as H1.
    { apply (R_stmt_all (fun w => upd_provs w (alter (fun p => pv_set_trades p (pv_trades p ++ [tid])) pid (w_provs w)))); [|auto]. intros w0 Hj. now apply smooth_register. }
    cbv zeta. apply sim_add.
    - destruct (tr_strat t') as [x|]; [|exact H1].
      apply (R_stmt_all (fun w => upd_strats w (alter (fun y => st_set_trades y (st_trades y ++ [tid])) x (w_strats w)))); [|exact H1].
      apply smooth_elsewhere, strats_elsewhere.
    - simpl. destruct (tr_strat t'); exact E'.
  Qed.
  Lemma sim_net s w pid tid ref oid : R s w -> RR (inet_step pid tid ref s oid) (net_step pid tid ref w oid).
  Proof.
    intros HR. unfold inet_step, net_step. destruct (R_trade s w tid HR) as [(E & E')|(t & t' & E & E' & Es)]; rewrite E, E'; [now split|].
    destruct (R_trade s w oid HR) as [(Eo & Eo')|(o & o' & Eo & Eo' & Eso)]; rewrite Eo, Eo'; [now split|].
    apply same_reads in Es as (_ & _ & -> & _ & -> & -> & _). apply same_reads in Eso as (_ & -> & -> & _ & -> & _).
    destruct (dir_eqb _ _); [|now split]. destruct (bool_decide _); [|now split].
    set (qc := Z.min _ _). pose proof (sim_provider_close s w pid oid (Some qc) ref HR) as (H1 & H2).
    destruct (iclose_from_epic s oid (Some qc) ref) as [s1 [ci|x]]; destruct (close_from_epic w oid (Some qc) ref) as [(w1 & n)|y]; simpl in *; try discriminate; [|now split].
    split; [|auto]. refine (R_stmt_all (on_trade tid (fun x => set_oq x (tr_oq x - qc))) _ (provider_close_trade w1 pid oid n) _ H1). apply smooth_trade, plain_oq.
  Qed.
  Lemma sim_forM {A} (f : istate F -> A -> istate F * res unit) g : (forall s w x, R s w -> RR (f s x) (g w x)) -> forall l s w, R s w -> RR (forM f s l) (forM g w l).
  Proof.
    intros Hf. induction l as [|x l IH]; intros s w HR; [now split|]. simpl. destruct (Hf s w x HR) as (H1 & H2).
    destruct (f s x) as [s1 r1]; destruct (g w x) as [w1 r2]; simpl in *; subst r2. destruct r1; [now apply IH|now split].
  Qed.
  Lemma sim_backtest s w pid tid ref : R s w -> RR (ibacktest_open_trade s pid tid ref) (backtest_open_trade w pid tid ref).
  Proof.
    intros HR. unfold ibacktest_open_trade, backtest_open_trade. destruct (R_prov s w pid HR) as [(E & E')|(p & p' & E & E' & _ & Eo)]; rewrite E, E'; [now split|].
    rewrite Eo. pose proof (sim_forM (inet_step pid tid ref) (net_step pid tid ref) (fun s w x HR => sim_net s w pid tid ref x HR) (opened_trades w p') s w HR) as (H1 & H2).
    destruct (forM (inet_step pid tid ref) s (opened_trades w p')) as [s1 r1]; destruct (forM (net_step pid tid ref) w (opened_trades w p')) as [w1 r2]; simpl in *; subst r2.
    destruct r1; [|now split]. destruct (R_trade s1 w1 tid H1) as [(Et & Et')|(t & t' & Et & Et' & Es)]; rewrite Et, Et'; [now split|].
    apply same_reads in Es as (_ & _ & _ & _ & _ & -> & _). destruct (tr_oq t' <=? 0); split; auto. now apply sim_base_open.
  Qed.
  Lemma sim_provider_open s w pid tid ref : R s w -> RR (iprovider_open_trade s pid tid ref) (provider_open_trade w pid tid ref).
  Proof.
    intros HR. unfold iprovider_open_trade, provider_open_trade. destruct (R_prov s w pid HR) as [(E & E')|(p & p' & E & E' & Ek & _)]; rewrite E, E'; [now split|]. rewrite Ek.
    destruct (pv_kind p'); [now apply sim_backtest| |]; split; auto; now apply sim_base_open.
  Qed.

  (** ** Calls *)
  Lemma sim_open s w eid d q st ref : R s w ->
    RR (iepic_open_trade s eid d q st ref) (let '(w', r) := epic_open_trade w eid d q st ref in (w', rmap (fun _ => ()) r)).
  Proof.
    intros HR. pose proof (R_parts s w HR) as (Est & Eep & _). unfold iepic_open_trade, epic_open_trade. rewrite Est, Eep.
    destruct (w_epics w !! eid) as [e|]; [|now split]. destruct (valid_id (w_strats w) st); [|now split].
    destruct (open_from_tick (ep_last e) eid d q st ref) as [t|x]; [|now split]. rewrite (R_ntrades s w HR).
    assert (R (stmt (fun w => upd_trades w (w_trades w ++ [t])) s) (upd_trades w (w_trades w ++ [t]))) as H1.
    { apply (R_stmt_all (fun w => upd_trades w (w_trades w ++ [t]))); [|auto]. intros w0 Hj. now apply smooth_new_trade. }
    destruct (sim_provider_open _ _ (ep_prov e) (length (w_trades w)) ref H1) as (H2 & H3). cbv zeta.
    destruct (iprovider_open_trade _ _ _ _) as [s1 r1]; destruct (provider_open_trade _ _ _ _) as [w1 r2]; simpl in *; subst r2.
    destruct r1 as [[]|]; now split.
  Qed.
  Lemma sim_epic_close s w eid tid q ref : R s w -> RR (iepic_close_trade s eid tid q ref) (epic_close_trade w eid tid q ref).
  Proof.
    intros HR. pose proof (R_parts s w HR) as (_ & Eep & _). unfold iepic_close_trade, epic_close_trade. rewrite Eep. destruct (w_epics w !! eid) as [e|]; [|now split].
    now apply sim_provider_close.
  Qed.
  Lemma sim_strategy_close s w tid q ref : R s w -> RR (istrategy_close_trade s tid q ref) (strategy_close_trade w tid q ref).
  Proof.
    intros HR. unfold istrategy_close_trade, strategy_close_trade. destruct (R_trade s w tid HR) as [(E & E')|(t & t' & E & E' & Es)]; rewrite E, E'; [now split|].
    apply same_reads in Es as (_ & _ & _ & -> & _). now apply sim_epic_close.
  Qed.
  Lemma sim_close_all s w sid q ref : R s w -> RR (iclose_opened_trades s sid q ref) (close_opened_trades w sid q ref).
  Proof.
    intros HR. pose proof (R_parts s w HR) as (Est & _). unfold iclose_opened_trades, close_opened_trades. rewrite Est. destruct (w_strats w !! sid) as [x|]; [|now split].
    apply sim_forM; [|auto]. intros s0 w0 i H0. unfold iclose_opened_step, close_opened_step. rewrite (R_open_b s0 w0 i H0). destruct (trade_open_b w0 i); [|now split].
    now apply sim_strategy_close.
  Qed.
  Lemma sim_cmd s w c : not_run c -> R s w -> RR (irun_cmd s c) (run_cmd w c).
  Proof.
    intros Hc HR. pose proof (R_parts s w HR) as (_ & Eep & _).
    destruct c as [e d q st ref|tid q ref|e tid q ref|sid q ref|tid v|tid|tid v d q ref|tid q ref|sid u|sid b|a k]; cbn [irun_cmd run_cmd]; [| | | | | | | | | |destruct Hc].
    - now apply sim_open.
    - now apply sim_strategy_close.
    - now apply sim_epic_close.
    - now apply sim_close_all.
    - split; [|auto]. now apply sim_update.
    - destruct (R_trade s w tid HR) as [(E & E')|(t & t' & E & E' & Es)]; rewrite E, E'; [now split|].
      apply same_reads in Es as (_ & _ & _ & -> & _). rewrite Eep. destruct (w_epics w !! tr_epic t') as [e|]; [|now split]. split; [|auto]. simpl.
      rewrite <- (on_trade_at w tid (fun x => update_from_tick x (ep_last e)) t' E'). now apply sim_update_tick.
    - pose proof (sim_close s w tid v d q ref HR) as (H1 & H2). unfold aclose in *. destruct (iclose s tid v d q ref) as [s1 r1]. simpl in *.
      destruct (w_trades w !! tid) as [x|]; [|simpl in *; subst r1; now split]. destruct (close x v d q ref) as [(x' & y)|e]; simpl in *; subst r1; now split.
    - pose proof (sim_close_epic s w tid q ref HR) as (H1 & H2). unfold aclose_epic in *. destruct (iclose_from_epic s tid q ref) as [s1 r1]. simpl in *.
      destruct (close_from_epic w tid q ref) as [(w' & y)|e]; simpl in *; subst r1; now split.
    - split; [|auto]. simpl. apply (R_stmt_all (fun w => upd_strats w (alter (fun x => st_set_paused x u) sid (w_strats w)))); [|auto]. apply smooth_elsewhere, strats_elsewhere.
    - split; [|auto]. simpl. apply (R_stmt_all (fun w => upd_strats w (alter (fun x => st_set_stopped x b) sid (w_strats w)))); [|auto]. apply smooth_elsewhere, strats_elsewhere.
  Qed.

  (** ** Callbacks and ticks *)
  Lemma sim_script x x' : heedless x x' -> forall s w, R s w -> RR (irun_script s x) (run_script w x').
  Proof.
    induction 1 as [|e|c k k' Hc Hk IH]; intros s w HR; [now split..|]. simpl. pose proof (sim_cmd _ w c Hc (R_skip s w HR)) as (H1 & H2).
    destruct (irun_cmd (stmt (fun w => w) s) c) as [s1 r1]; destruct (run_cmd w c) as [w1 r2]; simpl in *; subst r2. apply IH; [|auto]. now apply R_erase.
  Qed.
  Lemma sim_callback pr sid cb eid s w : heedless_programs pr -> R s w -> RR (irun_callback pr sid cb eid s) (run_callback pr sid cb eid w).
  Proof.
    intros Hp HR. unfold irun_callback, run_callback. apply sim_script; [apply Hp; now apply R_erase|].
    apply (R_stmt_all (fun w => upd_log w (w_log w ++ [_]))); [|auto]. apply smooth_elsewhere. intros w0. auto.
  Qed.
  Lemma sim_andthen x y (f : istate F -> istate F * res unit) g : RR x y -> (forall s w, R s w -> RR (f s) (g w)) -> RR (iandthen x f) (andthen y g).
  Proof. intros (H1 & H2) Hf. destruct x as [s r]; destruct y as [w r']; simpl in *; subst r'. destruct r; [now apply Hf|now split]. Qed.
  Lemma sim_strategy pr eid mo s w x : heedless_programs pr -> R s w -> RR (iexecute_strategy pr eid mo s x) (execute_strategy pr eid mo w x).
  Proof.
    intros Hp HR. pose proof (R_parts s w HR) as (Est & Eep & _). unfold iexecute_strategy, execute_strategy. rewrite Est, Eep.
    destruct (w_strats w !! x.2) as [st|]; [|now split]. destruct (w_epics w !! eid) as [e|]; [|now split]. destruct (is_active st (tk_dt (ep_last e))) as [st' act].
    assert (R (stmt (fun w => upd_strats w (<[x.2 := st']> (w_strats w))) s) (upd_strats w (<[x.2 := st']> (w_strats w)))) as H1.
    { apply (R_stmt_all (fun w => upd_strats w (<[x.2 := st']> (w_strats w)))); [|auto]. apply smooth_elsewhere, (strats_elsewhere (fun l => <[x.2 := st']> l)). }
    cbv zeta. destruct act; [|now split]. apply sim_andthen.
    - destruct (eqb mo (ep_mopen e)); [now split|]. destruct mo; now apply sim_callback.
    - intros s2 w2 H2. apply sim_andthen; [destruct (ep_mopen e); [now apply sim_callback|now split]|]. intros s3 w3 H3. now apply sim_callback.
  Qed.
  Lemma sim_value s w pid tk : R s w -> R (iupdate_open_trades s pid tk) (update_open_trades w pid tk).
  Proof.
    intros HR. unfold iupdate_open_trades, update_open_trades. destruct (R_prov s w pid HR) as [(E & E')|(p & p' & E & E' & _ & Eo)]; rewrite E, E'; [auto|]. rewrite Eo.
    generalize (opened_trades w p') as l. intros l. clear E E' Eo. revert s w HR. induction l as [|i l IH]; intros s w HR; simpl; [now rewrite upd_same|].
    pose proof (IH _ _ (sim_update_tick s w i tk HR)) as H1. exact H1.
  Qed.
  Lemma frame_elsewhere tk x : elsewhere (fun w => fst (update_frame_set tk w x)).
  Proof.
    intros w. unfold update_frame_set. change (fs_epic_state (upd_provs (upd_trades w ?a) ?b)) with (fs_epic_state w). simpl. destruct (w_fsets w !! x.2) as [fs|]; [|auto].
    assert (forall ts ps, fs_epic_state (upd_provs (upd_trades w ts) ps) fs = fs_epic_state w fs) as E by reflexivity.
    repeat split; try (destruct (fs_epic_state w fs) as [mo last]; destruct (fs_on_new_tick (gap_fuel fs tk) fs tk mo last); reflexivity).
  Qed.
  Lemma frame_result tk s w x : R s w -> snd (update_frame_set tk s.1 x) = snd (update_frame_set tk w x).
  Proof.
    intros HR. pose proof (R_parts s w HR) as (_ & Eep & Efs & _). unfold update_frame_set. rewrite Efs. destruct (w_fsets w !! x.2) as [fs|]; [|auto].
    assert (fs_epic_state s.1 fs = fs_epic_state w fs) as -> by (unfold fs_epic_state; now rewrite Eep).
    destruct (fs_epic_state w fs) as [mo last]; now destruct (fs_on_new_tick (gap_fuel fs tk) fs tk mo last).
  Qed.
  Lemma sim_frame tk s w x : R s w -> RR (iupdate_frame_set tk s x) (update_frame_set tk w x).
  Proof.
    intros HR. split; [|now apply frame_result]. simpl. apply (R_stmt_all (fun w => fst (update_frame_set tk w x))); [|auto]. apply smooth_elsewhere, frame_elsewhere.
  Qed.
  Lemma sim_tick pr s w eid tk : heedless_programs pr -> R s w -> RR (iepic_on_new_tick pr s eid tk) (epic_on_new_tick pr w eid tk).
  Proof.
    intros Hp HR. pose proof (R_parts s w HR) as (_ & Eep & _). unfold iepic_on_new_tick, epic_on_new_tick. rewrite Eep. destruct (w_epics w !! eid) as [e|]; [|now split].
    cbv zeta. destruct (arrow_ltb _ _); [now split|]. set (e' := ep_set_last e _ _). apply sim_andthen.
    - apply sim_forM; [intros; now apply sim_frame|]. apply (R_stmt_all (fun w => upd_epics w (<[eid := e']> (w_epics w)))); [|auto]. apply smooth_elsewhere. intros w0. auto.
    - intros s2 w2 H2. apply sim_forM; [intros; now apply sim_strategy|]. now apply sim_value.
  Qed.

  (** ** Operations *)
  Lemma smooth_new_epic ref tz o c ds hs pv w : jobs_ok w -> let f := fun w => fst (new_epic w ref tz o c ds hs pv) in smooth f w /\ jobs_ok (f w).
  Proof.
    intros Hj f. assert (forall w x, length (w_provs (run_thread w x.1 x.2)) = length (w_provs w)) as Hlen.
    { intros w0 x. pose proof (f_equal (fun y => length (w_provs y)) (erase_run_thread w0 x.1 x.2)) as E. simpl in E. now rewrite !fmap_length in E. }
    set (add := fun pid w => upd_epics w (w_epics w ++ [{| ep_ref := ref; ep_tz := match tz with Some z => z | None => tz_UTC end; ep_open := o; ep_close := c;
                     ep_days := match ds with None | Some [] => [0; 1; 2; 3; 4] | Some l => l end; ep_holidays := match hs with None => [] | Some l => l end; ep_prov := pid; ep_last := fake_tick; ep_fsets := [];
                             ep_strats := []; ep_mopen := false |}]) : world F).
    assert (forall pid w, jobs_ok w -> smooth (add pid) w /\ jobs_ok (add pid w)) as Hadd by (intros pid; apply smooth_elsewhere; intros w0; auto).
    destruct tz as [z|]; [|split; [intros x Hx; auto|auto]].
    destruct pv as [pid|].
    - assert (forall w, f w = if valid_id (w_provs w) (Some pid) then add pid w else w) as Ef.
      { intros w0. unfold f, new_epic. destruct (valid_id (w_provs w0) (Some pid)); [|auto]. now destruct w0. }
      destruct (Hadd pid w Hj) as (H1 & H2). rewrite Ef. split; [|now destruct (valid_id _ _)].
      intros x Hx. rewrite !Ef. unfold valid_id. rewrite Hlen. destruct (bool_decide _); [now apply H1|auto].
    - set (np := fun w : world F => upd_provs w (w_provs w ++ [{| pv_kind := PBacktests; pv_trades := []; pv_threads := [] |}])).
      assert (forall w, f w = add (length (w_provs w)) (np w)) as Ef by reflexivity.
      pose proof (smooth_new_provider PBacktests w Hj) as (H1 & H2). change (smooth np w) in H1. change (jobs_ok (np w)) in H2.
      destruct (Hadd (length (w_provs w)) (np w) H2) as (H3 & H4). rewrite Ef. split; [|auto].
      intros x Hx. destruct (H1 x Hx) as (Hk & E1). destruct (H3 x Hk) as (Hk' & E2). rewrite !Ef. split; [auto|]. now rewrite Hlen, E1, E2.
  Qed.
  Lemma sim_step pr s w o : heedless_programs pr -> heedless_op o -> R s w -> RR (istep pr s o) (step pr w o).
  Proof.
    intros Hp Ho HR. pose proof (R_parts s w HR) as (Est & Eep & Efs & _).
    destruct o as [k|ref|u q ref m|ref tz op cl ds hs pv|e f|e x|f i|e tk|c]; [| | | | | | |now apply sim_tick|now apply sim_cmd]; cbn [istep]; split.
    - apply (R_stmt_all (fun w => fst (step pr w (ONewProvider k)))); [|auto]. intros w0 Hj. now apply smooth_new_provider.
    - reflexivity.
    - apply (R_stmt_all (fun w => fst (step pr w (ONewStrategy ref)))); [|auto]. apply smooth_elsewhere. intros w0. auto.
    - reflexivity.
    - apply (R_stmt_all (fun w => fst (step pr w (ONewFrameSet u q ref m)))); [|auto]. apply smooth_elsewhere. intros w0. simpl. now destruct (fset_init u q ref m).
    - simpl. now destruct (fset_init u q ref m).
    - apply (R_stmt_all (fun w => fst (step pr w (ONewEpic ref tz op cl ds hs pv)))); [|auto]. intros w0 Hj. now apply smooth_new_epic.
    - simpl. unfold new_epic. destruct tz as [z|]; [|auto].
      assert (valid_id (w_provs s.1) pv = valid_id (w_provs w) pv) as ->.
      { destruct pv; [|auto]. simpl. pose proof (f_equal (fun y => length (w_provs y)) (R_erase s w HR)) as E. simpl in E. rewrite !fmap_length in E. now rewrite E. }
      destruct (valid_id (w_provs w) pv); [|auto]. now destruct pv.
    - apply (R_stmt_all (fun w => fst (step pr w (OAddFrameSet e f)))); [|auto]. apply smooth_elsewhere. intros w0. simpl. unfold add_frame_set. simpl.
      destruct (w_epics w0 !! e); [|auto]. destruct (w_fsets w0 !! f); [|auto]. now destruct (dict_get _ _).
    - simpl. unfold add_frame_set. rewrite Eep, Efs. destruct (w_epics w !! e); [|auto]. destruct (w_fsets w !! f); [|auto]. now destruct (dict_get _ _).
    - apply (R_stmt_all (fun w => fst (step pr w (OAddStrategy e x)))); [|auto]. apply smooth_elsewhere. intros w0. simpl. unfold add_strategy. simpl.
      destruct (w_epics w0 !! e); [|auto]. destruct (w_strats w0 !! x); [|auto]. now destruct (dict_get _ _).
    - simpl. unfold add_strategy. rewrite Eep, Est. destruct (w_epics w !! e); [|auto]. destruct (w_strats w !! x); [|auto]. now destruct (dict_get _ _).
    - apply (R_stmt_all (fun w => fst (step pr w (OAddIndicator f i)))); [|auto]. apply smooth_elsewhere. intros w0. simpl.
      destruct (w_fsets w0 !! f) as [fs|]; [|auto]. now destruct (add_indicator fs i).
    - simpl. rewrite Efs. destruct (w_fsets w !! f) as [fs|]; [|auto]. now destruct (add_indicator fs i).
  Qed.
  Lemma sim_run pr l : heedless_programs pr -> Forall heedless_op l -> forall s w, R s w -> R (irun pr s l) (run pr w l).
  Proof.
    intros Hp. induction 1 as [|o l Ho Hl IH]; intros s w HR; [auto|]. apply IH. now apply sim_step.
  Qed.
  Lemma R_empty sch : R (F:=F) (empty_world, sch) empty_world.
  Proof. split; [intros a p k th Ep; discriminate Ep|]. exists []. auto. Qed.
  Lemma run_threads pr b : forall w, run pr w (threads_run b) = batch w b.
  Proof. induction b as [|x b IH]; intros w; [auto|]. apply (IH (run_thread w x.1 x.2)). Qed.

  Lemma preempt_run pr l sch : heedless_programs pr -> Forall heedless_op l ->
    exists b, fst (irun pr (empty_world, sch) l) = run pr empty_world (l ++ threads_run b).
  Proof.
    intros Hp Hl. destruct (sim_run pr l Hp Hl _ _ (R_empty sch)) as (_ & b & _ & E). exists b. unfold run. rewrite fold_left_app.
    change (fst (irun pr (empty_world, sch) l) = run pr (run pr empty_world l) (threads_run b)). now rewrite run_threads.
  Qed.
  Lemma preempt_outcome pr l sch o : heedless_programs pr -> Forall heedless_op l -> heedless_op o ->
    snd (istep pr (irun pr (empty_world, sch) l) o) = snd (step pr (run pr empty_world l) o).
  Proof. intros Hp Hl Ho. apply sim_step; auto. apply sim_run; auto. apply R_empty. Qed.
  Lemma preempt_erase pr l sch : heedless_programs pr -> Forall heedless_op l -> erase (fst (irun pr (empty_world, sch) l)) = erase (run pr empty_world l).
  Proof. intros Hp Hl. apply R_erase. apply sim_run; auto. apply R_empty. Qed.
  Lemma preempt_figures pr l sch i t : heedless_programs pr -> Forall heedless_op l -> w_trades (fst (irun pr (empty_world, sch) l)) !! i = Some t ->
    exists t', w_trades (run pr empty_world l) !! i = Some t' /\
      opened_quantities t' = opened_quantities t /\ closed_quantities t' = closed_quantities t /\ result t' = result t /\
      tr_cv t' = tr_cv t /\ tr_max t' = tr_max t /\ tr_min t' = tr_min t /\ tr_oq t' = tr_oq t /\
      map tc_value (tr_closes t') = map tc_value (tr_closes t) /\ map tc_qty (tr_closes t') = map tc_qty (tr_closes t).
  Proof. intros Hp Hl. apply erase_same_trade. now apply preempt_erase. Qed.
  Lemma preempt_reach P pr l sch : heedless_programs pr -> Forall heedless_op l -> programs_ok P pr -> Forall (op_ok P) l -> (forall a k, P (CRun a k)) ->
    reach P (fst (irun pr (empty_world, sch) l)).
  Proof.
    intros Hp Hl Hok Ho HP. destruct (preempt_run pr l sch Hp Hl) as (b & ->). apply run_reach; [auto| |constructor]. apply Forall_app. split; [auto|].
    unfold threads_run. apply Forall_fmap. apply Forall_true. intros x. apply HP.
  Qed.
  Lemma any_script (x : script F) : script_ok (fun _ => True) x.
  Proof. induction x as [|e|c k IH]; simpl; auto. Qed.
  Lemma preempt_confirmed pr l sch a p : heedless_programs pr -> Forall heedless_op l ->
    let w := fst (irun pr (empty_world, sch) l) in
    w_provs w !! a = Some p -> pv_kind p = PBacktests -> is_alive p = false ->
    (forall i, i ∈ pv_trades p -> confirmed w (JOpen i)) /\ (forall j, handed w a j -> confirmed w j).
  Proof.
    intros Hp Hl w. apply (all_confirmed (fun _ => True)). apply preempt_reach; auto; [intros sid cb eid w0; apply any_script|].
    apply Forall_true. now intros [].
  Qed.
  Lemma threads_keep_trades pr w l b : length (w_trades (run pr w (l ++ threads_run b))) = length (w_trades (run pr w l)).
  Proof.
    unfold run. rewrite fold_left_app. change (length (w_trades (run pr (run pr w l) (threads_run b))) = length (w_trades (run pr w l))). rewrite run_threads.
    pose proof (f_equal (fun w => length (w_trades w)) (batch_erase b (run pr w l))) as E. simpl in E. now rewrite !fmap_length in E.
  Qed.
End proofs.
