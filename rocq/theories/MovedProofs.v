(** Programs moved to other dates (C74). *)
From Verif Require Export MovedFrames.
Open Scope Z_scope.

Section moved.
  Context {F : Type} `{Num F}.
  Variable d : Z.
  Hypothesis Hd : whole_weeks d.
  Implicit Types (w : world F) (tk : tick F).
  Local Notation TM := (tick_moved (F:=F) d).
  Local Notation TRM := (trade_moved (F:=F) d).
  Local Notation EM := (epic_moved (F:=F) d).
  Local Notation SM := (fset_moved (F:=F) d).
  Local Notation WM := (world_moved (F:=F) d).
  Definition wmr {A} (x y : world F * res A) : Prop := WM x.1 y.1 /\ y.2 = x.2.

  (** ** Trades *)
  Lemma tm_cq t t' : TRM t t' -> closed_quantities t' = closed_quantities t.
  Proof.
    intros Ht. unfold closed_quantities. f_equal. pose proof (tm_closes _ _ _ Ht) as Hc. revert Hc. generalize (tr_closes t) (tr_closes t'). intros l l' Hc.
    induction Hc as [|x y l l' Hx Hc IH]; simpl; [auto|]. f_equal; [apply (cm_qty _ _ _ Hx)|auto].
  Qed.
  Lemma tm_opened t t' : TRM t t' -> opened_quantities t' = opened_quantities t.
  Proof. intros Ht. unfold opened_quantities. now rewrite (tm_cq t t'), (tm_oq _ _ _ Ht). Qed.
  Lemma tm_closed t t' : TRM t t' -> closed t' = closed t.
  Proof. intros Ht. unfold closed. now rewrite (tm_opened t t'). Qed.
  Lemma tm_closed_result t t' : TRM t t' -> closed_result t' = closed_result t.
  Proof.
    intros Ht. unfold closed_result. f_equal. pose proof (tm_closes _ _ _ Ht) as Hc. revert Hc. generalize (tr_closes t) (tr_closes t'). intros l l' Hc.
    induction Hc as [|x y l l' Hx Hc IH]; simpl; [auto|]. f_equal; [|auto]. unfold close_result, close_result_avg. now rewrite (tm_dir _ _ _ Ht), (tm_ov _ _ _ Ht), (cm_qty _ _ _ Hx), (cm_value _ _ _ Hx).
  Qed.
  Lemma tm_opened_result t t' : TRM t t' -> opened_result t' = opened_result t.
  Proof. intros Ht. unfold opened_result, opened_result_avg. now rewrite (tm_closed t t'), (tm_opened t t'), (tm_dir _ _ _ Ht), (tm_ov _ _ _ Ht), (tm_cv _ _ _ Ht). Qed.
  Lemma tm_result t t' : TRM t t' -> result t' = result t.
  Proof. intros Ht. unfold result. now rewrite (tm_opened_result t t'), (tm_closed_result t t'). Qed.
  Lemma tm_set_cv t t' v : TRM t t' -> TRM (set_cv t v) (set_cv t' v). Proof. intros []. constructor; simpl; auto. Qed.
  Lemma tm_set_maxmin t t' a b : TRM t t' -> TRM (set_maxmin t a b) (set_maxmin t' a b). Proof. intros []. constructor; simpl; auto. Qed.
  Lemma tm_set_oq t t' q : TRM t t' -> TRM (set_oq t q) (set_oq t' q). Proof. intros []. constructor; simpl; auto. Qed.
  Lemma tm_set_status t t' s : TRM t t' -> TRM (set_status t s) (set_status t' s). Proof. intros []. constructor; simpl; auto. Qed.
  Lemma tm_set_cstatus t t' s c : TRM t t' -> TRM (set_closes t (alter (fun y => set_cstatus y s) c (tr_closes t))) (set_closes t' (alter (fun y => set_cstatus y s) c (tr_closes t'))).
  Proof. intros []. constructor; simpl; auto. apply F2_alter; [|auto]. intros x y []. constructor; simpl; auto. Qed.
  Lemma tm_update t t' v : TRM t t' -> TRM (update t v) (update t' v).
  Proof.
    intros Ht. unfold update. rewrite (tm_closed t t' Ht). destruct (closed t); [auto|]. pose proof (tm_set_cv t t' v Ht) as H1. revert H1. generalize (set_cv t v) (set_cv t' v). intros a b H1.
    unfold update_min_max. cbv zeta. rewrite (tm_result a b H1), (tm_max _ _ _ H1), (tm_min _ _ _ H1).
    assert (TRM (if fltb (tr_max a) (result a) then set_maxmin a (result a) (tr_min a) else a) (if fltb (tr_max a) (result a) then set_maxmin b (result a) (tr_min a) else b)) as H2 by (destruct (fltb _ _); [now apply tm_set_maxmin|auto]).
    revert H2. generalize (if fltb (tr_max a) (result a) then set_maxmin a (result a) (tr_min a) else a) (if fltb (tr_max a) (result a) then set_maxmin b (result a) (tr_min a) else b). intros x y H2.
    rewrite (tm_result x y H2), (tm_max _ _ _ H2), (tm_min _ _ _ H2). destruct (fltb _ _); [now apply tm_set_maxmin|auto].
  Qed.
  Lemma last_prices tk tk' : last_rel d tk tk' -> tk_bid tk' = tk_bid tk /\ tk_ask tk' = tk_ask tk /\ date_rel (F:=F) d (tk_dt tk) (tk_dt tk').
  Proof. intros [[? ? ?]|[-> ->]]; repeat split; auto; [now left|now right]. Qed.
  Lemma tm_updk t t' tk tk' : TRM t t' -> last_rel d tk tk' -> TRM (update_from_tick t tk) (update_from_tick t' tk').
  Proof. intros Ht Hk. destruct (last_prices tk tk' Hk) as (E1 & E2 & _). unfold update_from_tick. rewrite (tm_dir _ _ _ Ht), E1, E2. now apply tm_update. Qed.
  Lemma tm_close t t' v a a' q ref : TRM t t' -> date_rel (F:=F) d a a' ->
    match close t v (DtAware a) q ref, close t' v (DtAware a') q ref with Ok (x, _), Ok (y, _) => TRM x y | _, _ => False end.
  Proof.
    intros Ht Ha. unfold close. simpl. assert (close_quantity t' q = close_quantity t q) as -> by (unfold close_quantity; now rewrite (tm_opened t t')).
    destruct Ht. constructor; simpl; auto. apply Forall2_app; [auto|]. constructor; [|constructor]. constructor; simpl; auto.
  Qed.
  Lemma tm_closek t t' tk tk' q ref : TRM t t' -> last_rel d tk tk' ->
    match close_from_tick t tk q ref, close_from_tick t' tk' q ref with Ok (x, _), Ok (y, _) => TRM x y | _, _ => False end.
  Proof.
    intros Ht Hk. unfold close_from_tick. cbv zeta. pose proof (tm_updk t t' tk tk' Ht Hk) as Hu. rewrite (tm_cv _ _ _ Hu). apply tm_close; [auto|]. apply (last_prices tk tk' Hk).
  Qed.
  Lemma tm_open tk tk' e dr q s ref : last_rel d tk tk' ->
    match open_from_tick tk e dr q s ref, open_from_tick tk' e dr q s ref with Ok x, Ok y => TRM x y | Err x, Err y => x = y | _, _ => False end.
  Proof.
    intros Hk. destruct (last_prices tk tk' Hk) as (E1 & E2 & E3). unfold open_from_tick. rewrite E1, E2. destruct dr as [[]|]; auto.
    - unfold trade_init. cbv zeta. set (a := {| tr_epic := e; tr_dt := tk_dt tk |}). set (b := {| tr_epic := e; tr_dt := tk_dt tk' |}). assert (TRM a b) as Hab by (unfold a, b; constructor; simpl; auto).
      rewrite (tm_result a b Hab). now apply tm_set_maxmin.
    - unfold trade_init. cbv zeta. set (a := {| tr_epic := e; tr_dt := tk_dt tk |}). set (b := {| tr_epic := e; tr_dt := tk_dt tk' |}). assert (TRM a b) as Hab by (unfold a, b; constructor; simpl; auto).
      rewrite (tm_result a b Hab). now apply tm_set_maxmin.
  Qed.

  (** ** Parts of the state *)
  Lemma wm_trade w w' i : WM w w' -> match w_trades w !! i, w_trades w' !! i with Some t, Some t' => TRM t t' | None, None => True | _, _ => False end.
  Proof. intros R. apply F2_lookup. apply (wm_trades _ _ _ R). Qed.
  Lemma wm_epic w w' i : WM w w' -> match w_epics w !! i, w_epics w' !! i with Some e, Some e' => EM e e' | None, None => True | _, _ => False end.
  Proof. intros R. apply F2_lookup. apply (wm_epics _ _ _ R). Qed.
  Lemma wm_strat w w' i : WM w w' -> match w_strats w !! i, w_strats w' !! i with Some e, Some e' => strategy_moved d e e' | None, None => True | _, _ => False end.
  Proof. intros R. apply F2_lookup. apply (wm_strats _ _ _ R). Qed.
  Lemma wm_fset w w' i : WM w w' -> match w_fsets w !! i, w_fsets w' !! i with Some e, Some e' => SM e e' | None, None => True | _, _ => False end.
  Proof. intros R. apply F2_lookup. apply (wm_fsets _ _ _ R). Qed.
  Lemma wm_upd_trades w w' ts ts' : WM w w' -> Forall2 TRM ts ts' -> WM (upd_trades w ts) (upd_trades w' ts'). Proof. intros [] Ht. constructor; auto. Qed.
  Lemma wm_upd_provs w w' ps : WM w w' -> WM (upd_provs w ps) (upd_provs w' ps). Proof. intros []. constructor; auto. Qed.
  Lemma wm_upd_strats w w' ss ss' : WM w w' -> Forall2 (strategy_moved d) ss ss' -> WM (upd_strats w ss) (upd_strats w' ss'). Proof. intros [] Hs. constructor; auto. Qed.
  Lemma wm_upd_epics w w' es es' : WM w w' -> Forall2 EM es es' -> WM (upd_epics w es) (upd_epics w' es'). Proof. intros [] He. constructor; auto. Qed.
  Lemma wm_upd_fsets w w' fs fs' : WM w w' -> Forall2 SM fs fs' -> WM (upd_fsets w fs) (upd_fsets w' fs'). Proof. intros [] Hf. constructor; auto. Qed.
  Lemma wm_upd_log w w' l : WM w w' -> WM (upd_log w l) (upd_log w' l). Proof. intros []. constructor; auto. Qed.
  Lemma wm_alter w w' i (f g : trade F -> trade F) : WM w w' -> (forall t t', TRM t t' -> TRM (f t) (g t')) -> WM (upd_trades w (alter f i (w_trades w))) (upd_trades w' (alter g i (w_trades w'))).
  Proof. intros R Hf. apply wm_upd_trades; [auto|]. apply F2_alter; [auto|apply (wm_trades _ _ _ R)]. Qed.
  Lemma wm_insert w w' i t t' : WM w w' -> TRM t t' -> WM (upd_trades w (<[i := t]> (w_trades w))) (upd_trades w' (<[i := t']> (w_trades w'))).
  Proof. intros R Ht. apply wm_upd_trades; [auto|]. apply Forall2_insert; [apply (wm_trades _ _ _ R)|auto]. Qed.
  Lemma wm_add_thread w w' p j : WM w w' -> WM (add_thread w p j) (add_thread w' p j).
  Proof. intros R. unfold add_thread. rewrite (wm_provs _ _ _ R). now apply wm_upd_provs. Qed.
  Lemma wm_open_b w w' i : WM w w' -> trade_open_b w' i = trade_open_b w i.
  Proof. intros R. unfold trade_open_b. pose proof (wm_trade w w' i R). destruct (w_trades w !! i), (w_trades w' !! i); try easy. f_equal. now apply tm_closed. Qed.
  Lemma wm_opened w w' p : WM w w' -> opened_trades w' p = opened_trades w p.
  Proof. intros R. unfold opened_trades. apply List.filter_ext. intros i. now apply wm_open_b. Qed.
  Lemma wm_forM {A} (f g : world F -> A -> world F * res unit) l w w' : (forall x w w', x ∈ l -> WM w w' -> wmr (f w x) (g w' x)) -> WM w w' -> wmr (forM f w l) (forM g w' l).
  Proof.
    revert w w'. induction l as [|x l IH]; intros w w' Hf R; simpl; [now split|]. pose proof (Hf x w w' (elem_of_list_here _ _) R) as [R1 E1].
    destruct (f w x) as [w1 r1], (g w' x) as [w1' r1']. simpl in R1, E1. subst r1'. destruct r1; [|now split]. apply IH; auto. intros y v v' Hy. apply Hf. now apply elem_of_list_further.
  Qed.

  (** ** Calls *)
  Definition wmx {A} (x y : res (world F * A)) : Prop := match x, y with Ok (a, i), Ok (b, j) => WM a b /\ j = i | Err e, Err e' => e' = e | _, _ => False end.
  Lemma wm_close_from_epic w w' tid q ref : WM w w' -> wmx (close_from_epic w tid q ref) (close_from_epic w' tid q ref).
  Proof.
    intros R. unfold close_from_epic. pose proof (wm_trade w w' tid R) as Ht. destruct (w_trades w !! tid) as [t|], (w_trades w' !! tid) as [t'|]; try easy.
    rewrite (tm_epic _ _ _ Ht). pose proof (wm_epic w w' (tr_epic t) R) as He. destruct (w_epics w !! tr_epic t) as [e|], (w_epics w' !! tr_epic t) as [e'|]; try easy.
    pose proof (tm_closek t t' _ _ q ref Ht (em_last _ _ _ He)) as Hc. destruct (close_from_tick t (ep_last e) q ref) as [[a ca]|x], (close_from_tick t' (ep_last e') q ref) as [[b cb]|y]; try easy.
    simpl. split; [now apply wm_insert|]. symmetry. apply (Forall2_length _ _ _ (tm_closes _ _ _ Ht)).
  Qed.
  Lemma wm_epic_close w w' eid tid q ref : WM w w' -> wmr (epic_close_trade w eid tid q ref) (epic_close_trade w' eid tid q ref).
  Proof.
    intros R. unfold epic_close_trade. pose proof (wm_epic w w' eid R) as He. destruct (w_epics w !! eid) as [e|], (w_epics w' !! eid) as [e'|]; try easy.
    pose proof (wm_close_from_epic w w' tid q ref R) as Hc. destruct (close_from_epic w tid q ref) as [[a i]|x], (close_from_epic w' tid q ref) as [[b j]|y]; try easy.
    - destruct Hc as [Ra ->]. rewrite (em_prov _ _ _ He). split; [now apply wm_add_thread|auto].
    - simpl in Hc. subst y. now split.
  Qed.
  Lemma wm_strategy_close w w' tid q ref : WM w w' -> wmr (strategy_close_trade w tid q ref) (strategy_close_trade w' tid q ref).
  Proof.
    intros R. unfold strategy_close_trade. pose proof (wm_trade w w' tid R) as Ht. destruct (w_trades w !! tid) as [t|], (w_trades w' !! tid) as [t'|]; try easy.
    rewrite (tm_epic _ _ _ Ht). now apply wm_epic_close.
  Qed.
  Lemma wm_base_open w w' pid tid : WM w w' -> WM (base_open_trade w pid tid) (base_open_trade w' pid tid).
  Proof.
    intros R. unfold base_open_trade. pose proof (wm_trade w w' tid R) as Ht. destruct (w_trades w !! tid) as [t|], (w_trades w' !! tid) as [t'|]; try easy.
    cbv zeta. apply wm_add_thread. rewrite (tm_strat _ _ _ Ht), (wm_provs _ _ _ R). destruct (tr_strat t) as [s|]; [|now apply wm_upd_provs].
    apply wm_upd_strats; [now apply wm_upd_provs|]. apply F2_alter; [|apply (wm_strats _ _ _ R)]. intros x y []. constructor; simpl; auto. congruence.
  Qed.
  Lemma wm_net_step pid tid ref w w' oid : WM w w' -> wmr (net_step pid tid ref w oid) (net_step pid tid ref w' oid).
  Proof.
    intros R. unfold net_step. pose proof (wm_trade w w' tid R) as Ht. pose proof (wm_trade w w' oid R) as Ho.
    destruct (w_trades w !! tid) as [t|], (w_trades w' !! tid) as [t'|]; try easy. destruct (w_trades w !! oid) as [o|], (w_trades w' !! oid) as [o'|]; try easy.
    rewrite (tm_dir _ _ _ Ht), (tm_dir _ _ _ Ho). destruct (dir_eqb _ _); [|now split]. rewrite (tm_strat _ _ _ Ht), (tm_strat _ _ _ Ho).
    destruct (bool_decide _); [|now split]. cbv zeta. rewrite (tm_opened _ _ Ho), (tm_oq _ _ _ Ht). set (qc := Z.min _ _).
    pose proof (wm_close_from_epic w w' oid (Some qc) ref R) as Hc. destruct (close_from_epic w oid (Some qc) ref) as [[a i]|x], (close_from_epic w' oid _ ref) as [[b j]|y]; try easy.
    - destruct Hc as [Ra ->]. split; [|auto]. apply (wm_alter (provider_close_trade a pid oid i) (provider_close_trade b pid oid i)); [now apply wm_add_thread|].
      intros x y Hx. rewrite (tm_oq _ _ _ Hx). now apply tm_set_oq.
    - simpl in Hc. subst y. now split.
  Qed.
  Lemma wm_provider_open w w' pid tid ref : WM w w' -> wmr (provider_open_trade w pid tid ref) (provider_open_trade w' pid tid ref).
  Proof.
    intros R. unfold provider_open_trade. rewrite (wm_provs _ _ _ R). destruct (w_provs w !! pid) as [p|] eqn:Ep; [|now split].
    destruct (pv_kind p); [|split; [now apply wm_base_open|auto]|split; [now apply wm_base_open|auto]].
    unfold backtest_open_trade. rewrite (wm_provs _ _ _ R), Ep, (wm_opened w w' p R).
    pose proof (wm_forM (net_step pid tid ref) (net_step pid tid ref) (opened_trades w p) w w' ltac:(intros; now apply wm_net_step) R) as [R1 E1].
    destruct (forM _ w _) as [w1 r1], (forM _ w' _) as [w1' r1']. simpl in R1, E1. subst r1'. destruct r1; [|now split].
    pose proof (wm_trade w1 w1' tid R1) as Ht. destruct (w_trades w1 !! tid) as [t|], (w_trades w1' !! tid) as [t'|]; try easy. rewrite (tm_oq _ _ _ Ht).
    destruct (tr_oq t <=? 0); split; auto. now apply wm_base_open.
  Qed.
  Lemma wm_valid {A B} (R : A -> B -> Prop) l l' o : Forall2 R l l' -> valid_id l' o = valid_id l o.
  Proof. intros Hr. unfold valid_id. now rewrite (Forall2_length _ _ _ Hr). Qed.
  Lemma wm_epic_open w w' eid dr q s ref : WM w w' -> wmr (epic_open_trade w eid dr q s ref) (epic_open_trade w' eid dr q s ref).
  Proof.
    intros R. unfold epic_open_trade. rewrite (wm_valid _ _ _ s (wm_strats _ _ _ R)). pose proof (wm_epic w w' eid R) as He.
    destruct (w_epics w !! eid) as [e|], (w_epics w' !! eid) as [e'|]; try easy. destruct (valid_id (w_strats w) s); [|now split].
    pose proof (tm_open _ _ eid dr q s ref (em_last _ _ _ He)) as Ho. destruct (open_from_tick (ep_last e) eid dr q s ref) as [t|x], (open_from_tick (ep_last e') eid dr q s ref) as [t'|x']; try easy; [|subst; now split].
    cbv zeta. rewrite <- (Forall2_length _ _ _ (wm_trades _ _ _ R)), (em_prov _ _ _ He).
    assert (WM (upd_trades w (w_trades w ++ [t])) (upd_trades w' (w_trades w' ++ [t']))) as R1.
    { apply wm_upd_trades; [auto|]. apply Forall2_app; [apply (wm_trades _ _ _ R)|]. constructor; [auto|constructor]. }
    pose proof (wm_provider_open _ _ (ep_prov e) (length (w_trades w)) ref R1) as [R2 E2].
    destruct (provider_open_trade (upd_trades w _) _ _ _) as [v r], (provider_open_trade (upd_trades w' _) _ _ _) as [v' r']. simpl in R2, E2. subst r'. destruct r; now split.
  Qed.
  Lemma wm_run_thread w w' p k : WM w w' -> WM (run_thread w p k) (run_thread w' p k).
  Proof.
    intros R. unfold run_thread. rewrite (wm_provs _ _ _ R). destruct (w_provs w !! p) as [x|]; [|auto]. destruct (pv_threads x !! k) as [th|]; [|auto].
    destruct (th_done th); [auto|]. apply wm_upd_provs.
    assert (forall s i, WM (upd_trades w (alter (fun x => set_status x s) i (w_trades w))) (upd_trades w' (alter (fun x => set_status x s) i (w_trades w')))) as H1.
    { intros s i. apply wm_alter; auto. intros. now apply tm_set_status. }
    assert (forall s c i, WM (upd_trades w (alter (fun x => set_closes x (alter (fun y => set_cstatus y s) c (tr_closes x))) i (w_trades w)))
      (upd_trades w' (alter (fun x => set_closes x (alter (fun y => set_cstatus y s) c (tr_closes x))) i (w_trades w')))) as H2.
    { intros s c i. apply wm_alter; auto. intros. now apply tm_set_cstatus. }
    unfold job_effect. destruct (pv_kind x), (th_job th); auto. all: destruct w, w'; exact R.
  Qed.
  Lemma wm_cmd w w' c c' : WM w w' -> cmd_moved d c c' -> wmr (run_cmd w c) (run_cmd w' c').
  Proof.
    intros R Hc. destruct Hc as [t v q ref a a' Ha|s p p' Hp|c Hc]; cbn [run_cmd].
    - pose proof (wm_trade w w' t R) as Ht. destruct (w_trades w !! t) as [x|], (w_trades w' !! t) as [x'|]; try easy.
      pose proof (tm_close x x' v a a' q ref Ht (or_introl Ha)) as Hc. destruct (close x v _ q ref) as [[y ?]|?], (close x' v _ q ref) as [[y' ?]|?]; try easy. split; [|auto]. now apply wm_insert.
    - split; [|auto]. apply wm_upd_strats; [auto|]. apply F2_alter; [|apply (wm_strats _ _ _ R)]. intros x y []. constructor; simpl; auto.
    - destruct c as [e dr q s ref|t q ref|e t q ref|s q ref|t v|t|t v dt q ref|t q ref|s p|s b|p k]; try easy; cbn [run_cmd].
      + pose proof (wm_epic_open w w' e dr q s ref R) as [R1 E1]. destruct (epic_open_trade w e dr q s ref), (epic_open_trade w' e dr q s ref). simpl in *. subst. now split.
      + now apply wm_strategy_close.
      + now apply wm_epic_close.
      + unfold close_opened_trades. pose proof (wm_strat w w' s R) as Hs. destruct (w_strats w !! s) as [x|], (w_strats w' !! s) as [x'|]; try easy. rewrite (ym_trades _ _ _ Hs).
        apply wm_forM; [|auto]. intros i v v' _ Rv1. unfold close_opened_step. rewrite (wm_open_b v v' i Rv1). destruct (trade_open_b v i); [now apply wm_strategy_close|now split].
      + split; [|auto]. apply wm_alter; [auto|]. intros. now apply tm_update.
      + pose proof (wm_trade w w' t R) as Ht. destruct (w_trades w !! t) as [x|], (w_trades w' !! t) as [x'|]; try easy. rewrite (tm_epic _ _ _ Ht).
        pose proof (wm_epic w w' (tr_epic x) R) as He. destruct (w_epics w !! tr_epic x) as [e|], (w_epics w' !! tr_epic x) as [e'|]; try easy. split; [|auto]. apply wm_insert; [auto|].
        apply tm_updk; [auto|apply (em_last _ _ _ He)].
      + destruct dt; [|easy]. pose proof (wm_trade w w' t R) as Ht. destruct (w_trades w !! t) as [x|], (w_trades w' !! t) as [x'|]; try easy.
      + pose proof (wm_close_from_epic w w' t q ref R) as Hx. destruct (close_from_epic w t q ref) as [[a i]|x], (close_from_epic w' t q ref) as [[b j]|y]; try easy; [|simpl in Hx; subst; now split].
        destruct Hx as [Ra _]. now split.
      + split; [|auto]. apply wm_upd_strats; [auto|]. apply F2_alter; [|apply (wm_strats _ _ _ R)]. intros x y []. constructor; simpl; auto.
      + split; [now apply wm_run_thread|auto].
  Qed.
  Lemma wm_script w w' s s' : alongside WM (fun _ => cmd_moved d) w w' s s' -> WM w w' -> wmr (run_script w s) (run_script w' s').
  Proof.
    intros Hs. induction Hs as [w w'|w w' e|w w' c c' k k' v v' r r' Hc E E' _ IH]; intros R; [now split|now split|]. cbn [run_script].
    pose proof (wm_cmd w w' c c' R Hc) as [R1 E1]. rewrite E, E' in *. simpl in R1, E1. subst r'. now apply IH.
  Qed.

  (** ** Strategies *)
  (** The epic has received a tick. *)
  Definition ticked w w' eid : Prop := forall e e', w_epics w !! eid = Some e -> w_epics w' !! eid = Some e' -> TM (ep_last e) (ep_last e').
  Definition wmt eid (x y : world F * res unit) : Prop := wmr x y /\ ticked x.1 y.1 eid.
  Lemma wmt_forM {A} eid (f g : world F -> A -> world F * res unit) l w w' : (forall x w w', x ∈ l -> WM w w' -> ticked w w' eid -> wmt eid (f w x) (g w' x)) -> WM w w' -> ticked w w' eid -> wmt eid (forM f w l) (forM g w' l).
  Proof.
    revert w w'. induction l as [|x l IH]; intros w w' Hf R Hj; simpl; [now split|]. pose proof (Hf x w w' (elem_of_list_here _ _) R Hj) as [[R1 E1] J1].
    destruct (f w x) as [w1 r1], (g w' x) as [w1' r1']. simpl in R1, E1, J1. subst r1'. destruct r1; [|now split]. apply IH; auto. intros y v v' Hy. apply Hf. now apply elem_of_list_further.
  Qed.
  Lemma wmt_andthen eid (x y : world F * res unit) f g : wmt eid x y -> (forall w w', WM w w' -> ticked w w' eid -> wmt eid (f w) (g w')) -> wmt eid (andthen x f) (andthen y g).
  Proof. destruct x as [w [u|e]], y as [w' r']; intros [[R E] Hj] Hf; simpl in *; subst r'; simpl; [now apply Hf|now split]. Qed.
  Lemma wm_callback pr pr' sid cb eid w w' : programs_moved d pr pr' -> WM w w' -> ticked w w' eid -> wmt eid (run_callback pr sid cb eid w) (run_callback pr' sid cb eid w').
  Proof.
    intros Hp R Hq. split.
    - unfold run_callback. cbv zeta. apply (wm_script (at_callback w sid cb eid) (at_callback w' sid cb eid)); [now apply Hp|]. unfold at_callback. rewrite (wm_log _ _ _ R). now apply wm_upd_log.
    - unfold run_callback, ticked. cbv zeta. rewrite !script_epics. exact Hq.
  Qed.
  Lemma wm_strategy pr pr' eid mo x w w' : programs_moved d pr pr' -> WM w w' -> ticked w w' eid -> wmt eid (execute_strategy pr eid mo w x) (execute_strategy pr' eid mo w' x).
  Proof.
    intros Hp R Hq. unfold execute_strategy. pose proof (wm_strat w w' x.2 R) as Hs. destruct (w_strats w !! x.2) as [s|], (w_strats w' !! x.2) as [s'|]; try easy.
    pose proof (wm_epic w w' eid R) as He. destruct (w_epics w !! eid) as [e|] eqn:Ee, (w_epics w' !! eid) as [e'|] eqn:Ee'; try easy. rewrite (em_mopen _ _ _ He).
    pose proof (Hq e e' Ee Ee') as Hk.
    assert (strategy_moved d (fst (is_active s (tk_dt (ep_last e)))) (fst (is_active s' (tk_dt (ep_last e')))) /\ snd (is_active s' (tk_dt (ep_last e'))) = snd (is_active s (tk_dt (ep_last e)))) as [Ha Hb].
    { unfold is_active. rewrite (ym_stopped _ _ _ Hs). destruct (st_stopped s); [now split|]. pose proof (ym_paused _ _ _ Hs) as Hpz. destruct (st_paused s) as [u|], (st_paused s') as [u'|]; try (inversion Hpz; fail); [|now split].
      assert (date_moved d u u') as Hu by now inversion Hpz. rewrite (moved_ltb d _ _ _ _ (km_dt _ _ _ Hk) Hu). destruct (arrow_ltb _ u); [now split|]. split; [|auto]. destruct Hs. constructor; simpl; auto. constructor. }
    destruct (is_active s _) as [s1 act], (is_active s' _) as [s1' act']. simpl in Ha, Hb. subst act'. cbv zeta.
    assert (WM (upd_strats w (<[x.2:=s1]> (w_strats w))) (upd_strats w' (<[x.2:=s1']> (w_strats w')))) as R1.
    { apply wm_upd_strats; [auto|]. apply Forall2_insert; [apply (wm_strats _ _ _ R)|auto]. }
    assert (ticked (upd_strats w (<[x.2:=s1]> (w_strats w))) (upd_strats w' (<[x.2:=s1']> (w_strats w'))) eid) as Q1.
    { unfold ticked. simpl. exact Hq. }
    destruct act; [|now split]. apply wmt_andthen.
    - destruct (eqb mo (ep_mopen e)); [now split|]. destruct mo; now apply wm_callback.
    - intros w2 w2' R2 Q2. apply wmt_andthen; [destruct (ep_mopen e); [now apply wm_callback|now split]|]. intros w3 w3' R3 Q3. now apply wm_callback.
  Qed.

  (** ** Ticks *)
  Lemma moved_market e e' tk tk' : EM e e' -> TM tk tk' -> is_market_open e' tk' = is_market_open e tk.
  Proof.
    intros He Hk. unfold is_market_open, in_market_hours. cbv zeta. rewrite (dm_wall _ _ _ (km_dt _ _ _ Hk)), moved_tod, moved_weekday, moved_days by auto.
    rewrite (em_open _ _ _ He), (em_close _ _ _ He), (em_days _ _ _ He), (em_holidays _ _ _ He).
    assert (forall x l, existsb (Z.eqb (x + d / US_DAY)) (days_moved d l) = existsb (Z.eqb x) l) as ->; [|reflexivity].
    intros x l. induction l as [|y l IH]; [auto|]. simpl. rewrite IH. f_equal. destruct (Z.eqb_spec x y); [apply Z.eqb_eq; lia|apply Z.eqb_neq; lia].
  Qed.
  Lemma moved_tick_to z z' tk tk' : zone_moved d z z' -> TM tk tk' -> TM (tick_to z tk) (tick_to z' tk').
  Proof. intros Hz []. constructor; simpl; auto. now apply moved_to. Qed.
  Definition young (tk : tick F) : Prop := day_one <= ar_utc (tk_dt tk) /\ day_one <= ar_wall (tk_dt tk).
  Lemma recent_young z z' tk tk' : zone_moved d z z' -> TM tk tk' -> recent d z (ar_utc (tk_dt tk)) -> young (tick_to z tk) /\ young (tick_to z' tk').
  Proof.
    intros Hz Hk (A & B & C & D). pose proof (dm_utc _ _ _ (km_dt _ _ _ Hk)) as E. split; split; simpl; auto; rewrite E; auto. now rewrite (zm_wall _ _ _ Hz).
  Qed.
  Lemma young_ltb tk : young tk -> arrow_ltb (tk_dt tk) (tk_dt (@fake_tick F _)) = false.
  Proof. intros [A B]. unfold arrow_ltb, day_one in *. simpl. destruct (Nat.eqb _ _); apply Z.ltb_ge; lia. Qed.
  Lemma young_date tk : young tk -> (arrow_date (tk_dt (@fake_tick F _)) <? arrow_date (tk_dt tk)) = true.
  Proof.
    intros [_ B]. unfold arrow_date. apply Z.ltb_lt. assert (w_days (ar_wall (tk_dt (@fake_tick F _))) = -25567) as -> by reflexivity.
    unfold w_days. assert (-25566 <= ar_wall (tk_dt tk) / US_DAY); [|lia]. apply Z.div_le_lower_bound; [reflexivity|]. unfold day_one, US_DAY, US_HOUR, US_MIN, US_SEC in *. lia.
  Qed.
  Lemma wm_frame_set tk tk' x w w' : WM w w' -> TM tk tk' -> young tk -> young tk' ->
    match snd (update_frame_set tk w x), snd (update_frame_set tk' w' x) with Ok _, Ok _ => WM (fst (update_frame_set tk w x)) (fst (update_frame_set tk' w' x)) | _, _ => True end.
  Proof.
    intros R Hk Y Y'. unfold update_frame_set. pose proof (wm_fset w w' x.2 R) as Hf. destruct (w_fsets w !! x.2) as [s|] eqn:Es, (w_fsets w' !! x.2) as [s'|] eqn:Es'; try easy.
    assert (fst (fs_epic_state w' s') = fst (fs_epic_state w s) /\ later (snd (fs_epic_state w s)) (snd (fs_epic_state w' s')) tk tk') as [E1 E2].
    { unfold fs_epic_state. rewrite (sm_epic _ _ _ Hf). destruct (fs_epic s) as [i|]; [|now split]. pose proof (wm_epic w w' i R) as He.
      destruct (w_epics w !! i) as [e|], (w_epics w' !! i) as [e'|]; try easy. split; [apply (em_mopen _ _ _ He)|]. unfold later. simpl. destruct (em_last _ _ _ He) as [Hl|[-> ->]].
      - unfold arrow_date. rewrite (dm_wall _ _ _ (km_dt _ _ _ Hl)), (dm_wall _ _ _ (km_dt _ _ _ Hk)), !moved_days by auto.
        destruct (Z.ltb_spec (w_days (ar_wall (tk_dt (ep_last e)))) (w_days (ar_wall (tk_dt tk)))); [apply Z.ltb_lt; lia|apply Z.ltb_ge; lia].
      - now rewrite !young_date. }
    rewrite (moved_fuel d s s' tk tk' Hf Hk). destruct (fs_epic_state w s) as [mo l], (fs_epic_state w' s') as [mo' l']. simpl in E1, E2. subst mo'.
    pose proof (moved_fs d Hd (gap_fuel s tk) s s' tk tk' mo l l' Hf Hk E2) as Hb. unfold both_fine in Hb.
    destruct (fs_on_new_tick _ s tk mo l) as [a [u|?]], (fs_on_new_tick _ s' tk' mo l') as [b [u'|?]]; simpl in *; try exact I.
    apply wm_upd_fsets; [auto|]. apply Forall2_insert; [apply (wm_fsets _ _ _ R)|auto].
  Qed.
  Lemma wm_frame_sets tk tk' l w w' v v' u u' : WM w w' -> TM tk tk' -> young tk -> young tk' -> forM (update_frame_set tk) w l = (v, Ok u) -> forM (update_frame_set tk') w' l = (v', Ok u') -> WM v v'.
  Proof.
    intros R Hk Y Y'. revert w w' R. induction l as [|x l IH]; intros w w' R; simpl; [intros E E'; injection E as <- _; injection E' as <- _; exact R|].
    pose proof (wm_frame_set tk tk' x w w' R Hk Y Y') as R1. destruct (update_frame_set tk w x) as [a [?|?]]; [|discriminate]. destruct (update_frame_set tk' w' x) as [b [?|?]]; [|discriminate]. simpl in R1. now apply IH.
  Qed.
  Lemma wm_value w w' pid tk tk' : WM w w' -> TM tk tk' -> WM (update_open_trades w pid tk) (update_open_trades w' pid tk').
  Proof.
    intros R Hk. unfold update_open_trades. rewrite (wm_provs _ _ _ R). destruct (w_provs w !! pid) as [p|]; [|auto]. rewrite (wm_opened w w' p R). generalize (opened_trades w p). intros l.
    apply wm_upd_trades; [auto|]. pose proof (wm_trades _ _ _ R) as Ht. revert Ht. generalize (w_trades w) (w_trades w'). induction l as [|i l IH]; intros ts ts' Ht; simpl; [auto|].
    apply IH. apply F2_alter; [|auto]. intros. apply tm_updk; [auto|now left].
  Qed.
  Lemma wm_tick pr pr' eid tk tk' w w' : programs_moved d pr pr' -> WM w w' -> TM tk tk' -> (forall x, w_epics w !! eid = Some x -> recent d (ep_tz x) (ar_utc (tk_dt tk))) ->
    charts_ok w eid tk -> charts_ok w' eid tk' -> wmr (epic_on_new_tick pr w eid tk) (epic_on_new_tick pr' w' eid tk').
  Proof.
    intros Hp R Hk Hy Hc Hc'. pose proof (wm_epic w w' eid R) as He. unfold epic_on_new_tick. destruct (w_epics w !! eid) as [e|] eqn:Ee, (w_epics w' !! eid) as [e'|] eqn:Ee'; try easy.
    cbv zeta. pose proof (charts_fsets w eid e tk Hc Ee) as C1. pose proof (charts_fsets w' eid e' tk' Hc' Ee') as C2. cbv zeta in C1, C2.
    pose proof (moved_tick_to _ _ _ _ (em_tz _ _ _ He) Hk) as K1. destruct (recent_young _ _ _ _ (em_tz _ _ _ He) Hk (Hy e eq_refl)) as [Y1 Y1']. clear Hc Hc' Hy.
    revert C1 C2 K1 Y1 Y1'. generalize (tick_to (ep_tz e) tk) (tick_to (ep_tz e') tk'). intros t1 t1' C1 C2 K1 Y1 Y1'.
    assert (arrow_ltb (tk_dt t1') (tk_dt (ep_last e')) = arrow_ltb (tk_dt t1) (tk_dt (ep_last e))) as Hl.
    { destruct (em_last _ _ _ He) as [Hl|[-> ->]]; [apply (moved_ltb d); [apply (km_dt _ _ _ K1)|apply (km_dt _ _ _ Hl)]|]. now rewrite !young_ltb. }
    rewrite Hl in *. destruct (arrow_ltb (tk_dt t1) (tk_dt (ep_last e))); [now split|].
    specialize (C1 eq_refl). specialize (C2 eq_refl). destruct C1 as (fs & u & C1). destruct C2 as (fs' & u' & C2).
    rewrite (moved_market e e' t1 t1' He K1) in *. set (a := ep_set_last e t1 _) in *. set (b := ep_set_last e' t1' _) in *. assert (EM a b) as Hab.
    { destruct He. unfold a, b. constructor; simpl; auto. now left. }
    assert (WM (upd_epics w (<[eid:=a]> (w_epics w))) (upd_epics w' (<[eid:=b]> (w_epics w')))) as R1.
    { apply wm_upd_epics; [auto|]. apply Forall2_insert; [apply (wm_epics _ _ _ R)|auto]. }
    change (ep_fsets a) with (ep_fsets e). change (ep_fsets b) with (ep_fsets e'). rewrite (em_fsets _ _ _ He) in *. pose proof (wm_frame_sets _ _ _ _ _ _ _ _ _ R1 K1 Y1 Y1' C1 C2) as R2.
    rewrite C1, C2. cbn [andthen]. cbv zeta. rewrite (em_strats _ _ _ Hab), (em_mopen _ _ _ He), (em_prov _ _ _ Hab).
    refine (proj1 (wmt_forM eid _ _ _ _ _ _ _ _)).
    - intros x v v' _ Rv1 Qv. now apply wm_strategy.
    - now apply wm_value.
    - unfold ticked, update_open_trades. rewrite (wm_provs _ _ _ R2). assert (ticked (upd_fsets (upd_epics w (<[eid:=a]> (w_epics w))) fs) (upd_fsets (upd_epics w' (<[eid:=b]> (w_epics w'))) fs') eid) as Q.
      { intros x x'. simpl. rewrite !list_lookup_insert by (eapply lookup_lt_Some; eauto). intros Hx Hx'. injection Hx as <-. injection Hx' as <-. exact K1. }
      destruct (w_provs _ !! _); exact Q.
  Qed.

  (** ** Main programs *)
  Lemma wm_step pr pr' w w' o o' : programs_moved d pr pr' -> WM w w' -> op_moved d w o o' ->
    (match o with OTick e tk => charts_ok w e tk | _ => True end) -> (match o' with OTick e tk => charts_ok w' e tk | _ => True end) -> wmr (step pr w o) (step pr' w' o').
  Proof.
    intros Hp R Ho. destruct Ho as [e tk tk' Hk Hy|c c' Hc|ref z z' op cl ds hs p Hz|u q ref m Hu|f i Hi|o Ho]; intros Hx Hx'; cbn [step].
    - now apply wm_tick.
    - now apply wm_cmd.
    - unfold new_epic. rewrite (wm_provs _ _ _ R). destruct (valid_id (w_provs w) p); [|now split]. cbv zeta.
      assert (forall ps pid, WM (upd_epics (upd_provs w ps) (w_epics w ++ [{| ep_ref := ref; ep_tz := z; ep_open := op; ep_close := cl; ep_days := match ds with None | Some [] => [0; 1; 2; 3; 4] | Some l => l end;
          ep_holidays := match hs with None => [] | Some l => l end; ep_prov := pid; ep_last := fake_tick; ep_fsets := []; ep_strats := []; ep_mopen := false |}]))
        (upd_epics (upd_provs w' ps) (w_epics w' ++ [{| ep_ref := ref; ep_tz := z'; ep_open := op; ep_close := cl; ep_days := match ds with None | Some [] => [0; 1; 2; 3; 4] | Some l => l end;
          ep_holidays := match days_moved d <$> hs with None => [] | Some l => l end; ep_prov := pid; ep_last := fake_tick; ep_fsets := []; ep_strats := []; ep_mopen := false |}]))) as Hn.
      { intros ps pid. apply wm_upd_epics; [now apply wm_upd_provs|]. apply Forall2_app; [apply (wm_epics _ _ _ R)|]. constructor; [|constructor]. constructor; simpl; auto; [now destruct hs|now right]. }
      destruct p as [pid|]; (split; [apply Hn|reflexivity]).
    - unfold fset_init. destruct (check_unit u q); [|now split]. simpl. split; [|auto]. apply wm_upd_fsets; [auto|]. apply Forall2_app; [apply (wm_fsets _ _ _ R)|]. constructor; [|constructor]. constructor; simpl; auto.
    - pose proof (wm_fset w w' f R) as Hf. destruct (w_fsets w !! f) as [s|], (w_fsets w' !! f) as [s'|]; try easy.
      assert (same_end d (add_indicator s i) (add_indicator s' i)) as [S1 E1].
      { assert (forall j, kind_moves d (in_kind j) -> SM (fs_set_inds s (dict_set (fs_inds s) (in_ref i) j)) (fs_set_inds s' (dict_set (fs_inds s') (in_ref i) j))) as Hj.
        { intros j Hj. destruct Hf. constructor; simpl; auto; [congruence|]. clear -sm_kinds Hj. induction sm_kinds as [|[k x] l Hx Hl IH]; simpl; [now repeat constructor|]. destruct (String.eqb k (in_ref i)); constructor; auto. }
        unfold add_indicator. rewrite (sm_q _ _ _ Hf), (sm_max _ _ _ Hf). destruct (in_kind i) as [ha|ol|mp|n rp|mk tl] eqn:Ei; (split; [|reflexivity]); apply Hj; try (rewrite Ei; exact Hi). exact I. }
      destruct (add_indicator s i) as [a r], (add_indicator s' i) as [b r']. simpl in S1, E1. subst r'. split; [|auto]. apply wm_upd_fsets; [auto|]. apply Forall2_insert; [apply (wm_fsets _ _ _ R)|auto].
    - destruct o as [k|ref|u q ref m|ref tz op cl ds hs pv|eid fid|eid sid|fid i|e tk|c]; try easy; cbn [step].
      + split; [|auto]. simpl. rewrite (wm_provs _ _ _ R). now apply wm_upd_provs.
      + split; [|auto]. simpl. apply wm_upd_strats; [auto|]. apply Forall2_app; [apply (wm_strats _ _ _ R)|]. constructor; [|constructor]. constructor; simpl; auto. constructor.
      + subst tz. now split.
      + unfold add_frame_set. pose proof (wm_epic w w' eid R) as He. destruct (w_epics w !! eid) as [e|], (w_epics w' !! eid) as [e'|]; try easy.
        pose proof (wm_fset w w' fid R) as Hf. destruct (w_fsets w !! fid) as [s|], (w_fsets w' !! fid) as [s'|]; try easy. rewrite (em_fsets _ _ _ He), (sm_ref _ _ _ Hf). destruct (dict_get _ _); [now split|].
        split; [|auto]. simpl. apply wm_upd_epics; [apply wm_upd_fsets; [auto|]|].
        * apply Forall2_insert; [apply (wm_fsets _ _ _ R)|]. destruct Hf. constructor; simpl; auto.
        * apply Forall2_insert; [apply (wm_epics _ _ _ R)|]. destruct He. constructor; simpl; auto.
      + unfold add_strategy. pose proof (wm_epic w w' eid R) as He. destruct (w_epics w !! eid) as [e|], (w_epics w' !! eid) as [e'|]; try easy.
        pose proof (wm_strat w w' sid R) as Hs. destruct (w_strats w !! sid) as [s|], (w_strats w' !! sid) as [s'|]; try easy. rewrite (em_strats _ _ _ He), (ym_ref _ _ _ Hs). destruct (dict_get _ _); [now split|].
        split; [|auto]. simpl. apply wm_upd_strats; [apply wm_upd_epics; [auto|]|].
        * apply Forall2_insert; [apply (wm_epics _ _ _ R)|]. destruct He. constructor; simpl; auto.
        * apply Forall2_insert; [apply (wm_strats _ _ _ R)|]. rewrite (em_ref _ _ _ He). destruct Hs. constructor; simpl; auto. congruence.
  Qed.
  Lemma moved_run pr pr' l l' : programs_moved d pr pr' -> forall w w', WM w w' -> ops_moved d pr w l l' -> charts_fine pr w l -> charts_fine pr' w' l' ->
    WM (run pr w l) (run pr' w' l') /\ endings pr' w' l' = endings pr w l.
  Proof.
    intros Hp. revert l'. induction l as [|o l IH]; intros l' w w' R Ho Hc Hc'; inversion Ho as [|? ? o' ? l1 Ho1 Ho2]; subst; [now split|]. destruct Hc as [C1 C2], Hc' as [C1' C2'].
    pose proof (wm_step pr pr' w w' o o' Hp R Ho1 C1 C1') as [R1 E1]. change (run pr w (o :: l)) with (run pr (fst (step pr w o)) l). change (run pr' w' (o' :: l1)) with (run pr' (fst (step pr' w' o')) l1).
    cbn [endings]. destruct (IH l1 _ _ R1 Ho2 C2 C2') as [R2 ->]. split; [exact R2|]. f_equal. exact E1.
  Qed.
  Lemma moved_empty : WM empty_world empty_world. Proof. constructor; auto; constructor. Qed.
End moved.
