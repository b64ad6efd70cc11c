(** C72: every step keeps what was recorded. *)
From Coq Require Import QArith.
From Verif Require Export QuantityProofs SpecHistory ReentrantProofs EpicMoreProofs FramesProofs.
Open Scope Z_scope.

Section lists.
  Context {A : Type} (R : A -> A -> Prop) (HR : forall x, R x x) (HT : forall x y z, R x y -> R y z -> R x z).
  Lemma kept_refl l : all_kept R l l. Proof. intros i x Hx. eauto. Qed.
  Lemma kept_trans l1 l2 l3 : all_kept R l1 l2 -> all_kept R l2 l3 -> all_kept R l1 l3.
  Proof. intros H1 H2 i x Hx. destruct (H1 i x Hx) as (y & Hy & Ry). destruct (H2 i y Hy) as (z & Hz & Rz). eauto. Qed.
  Lemma kept_alter f j l : (forall x, R x (f x)) -> all_kept R l (alter f j l).
  Proof.
    intros Hf i x Hx. destruct (decide (i = j)) as [->|Hn]; [|rewrite list_lookup_alter_ne by auto; eauto].
    rewrite list_lookup_alter, Hx. simpl. eauto.
  Qed.
  Lemma kept_insert j y l : (forall x, l !! j = Some x -> R x y) -> all_kept R l (<[j := y]> l).
  Proof.
    intros Hf i x Hx. destruct (decide (i = j)) as [->|Hn]; [|rewrite list_lookup_insert_ne by auto; eauto].
    rewrite list_lookup_insert by (eapply lookup_lt_Some; eauto). eauto.
  Qed.
  Lemma kept_app l l' : all_kept R l (l ++ l').
  Proof. intros i x Hx. exists x. split; [|auto]. now apply lookup_app_l_Some. Qed.
End lists.

Section proofs.
  Context {F : Type} `{Num F}.
  Implicit Types (w : world F) (t : trade F) (c : tclose F).

  Lemma close_kept_refl c : close_kept c c. Proof. now repeat split. Qed.
  Lemma close_kept_trans c1 c2 c3 : close_kept c1 c2 -> close_kept c2 c3 -> close_kept c1 c3.
  Proof. intros (A1 & A2 & A3 & A4) (B1 & B2 & B3 & B4). unfold close_kept. rewrite B1, B2, B3, B4. auto. Qed.
  Lemma trade_kept_refl t : trade_kept t t. Proof. repeat (split; [reflexivity|]). intros k c Hc. eauto using close_kept_refl. Qed.
  Lemma trade_kept_trans t1 t2 t3 : trade_kept t1 t2 -> trade_kept t2 t3 -> trade_kept t1 t3.
  Proof.
    intros (A1 & A2 & A3 & A4 & A5 & A6 & A7 & A8) (B1 & B2 & B3 & B4 & B5 & B6 & B7 & B8). unfold trade_kept. rewrite B1, B2, B3, B4, B5, B6, B7.
    do 7 (split; [assumption|]). exact (kept_trans close_kept close_kept_trans _ _ _ A8 B8).
  Qed.
  Lemma same_kept t t' : same_but_prices t t' -> trade_kept t t'.
  Proof. intros (A1 & A2 & A3 & A4 & A5 & A6 & A7 & A8 & A9). do 7 (split; [assumption|]). rewrite A5. intros k c Hc. eauto using close_kept_refl. Qed.
  Lemma set_closes_kept t l : all_kept close_kept (tr_closes t) l -> trade_kept t (set_closes t l).
  Proof. intros Hl. do 7 (split; [reflexivity|]). exact Hl. Qed.
  Lemma close_trade_kept t v d q ref t' c : close t v d q ref = Ok (t', c) -> trade_kept t t'.
  Proof. intros E. apply close_inv in E. destruct E as (-> & _). apply set_closes_kept, kept_app, close_kept_refl. Qed.
  Lemma close_tick_kept t tk q ref t' c : close_from_tick t tk q ref = Ok (t', c) -> trade_kept t t'.
  Proof.
    intros E. apply close_trade_kept in E. eapply trade_kept_trans; [|exact E]. apply same_kept, update_from_tick_same.
  Qed.
  Lemma provider_kept_refl p : provider_kept p p. Proof. split; [reflexivity|]. split; [reflexivity|]. eauto. Qed.
  Lemma provider_kept_trans p1 p2 p3 : provider_kept p1 p2 -> provider_kept p2 p3 -> provider_kept p1 p3.
  Proof.
    intros (A1 & A2 & A3) (B1 & B2 & B3). split; [congruence|]. split; [now trans (pv_trades p2)|].
    intros k th Hk. destruct (A3 k th Hk) as (th1 & H1 & J1 & D1). destruct (B3 k th1 H1) as (th2 & H2 & J2 & D2). exists th2. split; [auto|]. split; [congruence|auto].
  Qed.
  Lemma strategy_kept_refl s : strategy_kept s s. Proof. now split. Qed.
  Lemma strategy_kept_trans s1 s2 s3 : strategy_kept s1 s2 -> strategy_kept s2 s3 -> strategy_kept s1 s3.
  Proof. intros (A1 & A2) (B1 & B2). split; [congruence|now trans (st_trades s2)]. Qed.
  Lemma epic_kept_refl (e : epic F) : epic_kept e e. Proof. unfold epic_kept. auto 20. Qed.
  Lemma epic_kept_trans (e1 e2 e3 : epic F) : epic_kept e1 e2 -> epic_kept e2 e3 -> epic_kept e1 e3.
  Proof.
    intros (A1 & A2 & A3 & A4 & A5 & A6 & A7 & A8 & A9) (B1 & B2 & B3 & B4 & B5 & B6 & B7 & B8 & B9). unfold epic_kept. rewrite B1, B2, B3, B4, B5, B6, B7.
    do 7 (split; [assumption|]). split; etrans; eauto.
  Qed.
  Lemma fset_kept_refl (f : fset F) : fset_kept f f. Proof. unfold fset_kept. auto. Qed.
  Lemma fset_kept_trans (e1 e2 e3 : fset F) : fset_kept e1 e2 -> fset_kept e2 e3 -> fset_kept e1 e3.
  Proof. intros (A1 & A2 & A3 & A4) (B1 & B2 & B3 & B4). unfold fset_kept. rewrite B1, B2, B3, B4. auto. Qed.

  Lemma world_kept_refl w : remembered w w.
  Proof. repeat split; apply kept_refl; auto using trade_kept_refl, provider_kept_refl, strategy_kept_refl, epic_kept_refl, fset_kept_refl. Qed.
  Lemma world_kept_trans w1 w2 w3 : remembered w1 w2 -> remembered w2 w3 -> remembered w1 w3.
  Proof.
    intros (A1 & A2 & A3 & A4 & A5) (B1 & B2 & B3 & B4 & B5). split; [exact (kept_trans _ trade_kept_trans _ _ _ A1 B1)|].
    split; [exact (kept_trans _ provider_kept_trans _ _ _ A2 B2)|]. split; [exact (kept_trans _ strategy_kept_trans _ _ _ A3 B3)|].
    split; [exact (kept_trans _ epic_kept_trans _ _ _ A4 B4)|exact (kept_trans _ fset_kept_trans _ _ _ A5 B5)].
  Qed.

  (** Openings and closings: the trades numbered below [n], the ledgers. *)
  Definition books n w w' : Prop := (forall i t, (i < n)%nat -> w_trades w !! i = Some t -> exists t', w_trades w' !! i = Some t' /\ trade_kept t t') /\
    all_kept provider_kept (w_provs w) (w_provs w') /\ all_kept strategy_kept (w_strats w) (w_strats w').
  Lemma books_refl n w : books n w w.
  Proof. split; [eauto using trade_kept_refl|]. split; apply kept_refl; auto using provider_kept_refl, strategy_kept_refl. Qed.
  Lemma books_trans n w1 w2 w3 : books n w1 w2 -> books n w2 w3 -> books n w1 w3.
  Proof.
    intros (A1 & A2 & A3) (B1 & B2 & B3). split; [|split; [exact (kept_trans _ provider_kept_trans _ _ _ A2 B2)|exact (kept_trans _ strategy_kept_trans _ _ _ A3 B3)]].
    intros i t Hi Ht. destruct (A1 i t Hi Ht) as (t1 & H1 & K1). destruct (B1 i t1 Hi H1) as (t2 & H2 & K2). eauto using trade_kept_trans.
  Qed.
  Lemma books_trades n w l : (forall i t, (i < n)%nat -> w_trades w !! i = Some t -> exists t', l !! i = Some t' /\ trade_kept t t') -> books n w (upd_trades w l).
  Proof. intros Hl. split; [exact Hl|]. split; apply kept_refl; auto using provider_kept_refl, strategy_kept_refl. Qed.
  Lemma books_kept n w l : all_kept trade_kept (w_trades w) l -> books n w (upd_trades w l).
  Proof. intros Hl. apply books_trades. eauto. Qed.
  Lemma thread_books n w pid j : books n w (add_thread w pid j).
  Proof.
    split; [cbn; eauto using trade_kept_refl|]. split; [|apply kept_refl, strategy_kept_refl]. apply kept_alter; [apply provider_kept_refl|]. intros p. split; [reflexivity|]. split; [reflexivity|].
    intros k th Hk. exists th. split; [|auto]. cbn. now apply lookup_app_l_Some.
  Qed.
  Lemma base_books n w pid tid : books n w (base_open_trade w pid tid).
  Proof.
    unfold base_open_trade. destruct (w_trades w !! tid) as [t|]; [|apply books_refl]. cbv zeta. eapply books_trans; [|apply thread_books].
    assert (books n w (upd_provs w (alter (fun p => pv_set_trades p (pv_trades p ++ [tid])) pid (w_provs w)))) as H1.
    { split; [cbn; eauto using trade_kept_refl|]. split; [|apply kept_refl, strategy_kept_refl]. apply kept_alter; [apply provider_kept_refl|]. intros p. split; [reflexivity|].
      split; [now exists [tid]|]. cbn. eauto. }
    destruct (tr_strat t) as [s|]; [|exact H1]. eapply books_trans; [exact H1|].
    split; [cbn; eauto using trade_kept_refl|]. split; [apply kept_refl, provider_kept_refl|]. apply kept_alter; [apply strategy_kept_refl|]. intros x. split; [reflexivity|now exists [tid]].
  Qed.
  Lemma close_epic_books n w tid q ref w' ci : close_from_epic w tid q ref = Ok (w', ci) -> books n w w'.
  Proof.
    unfold close_from_epic. destruct (w_trades w !! tid) as [t|] eqn:Et; [|discriminate]. destruct (w_epics w !! tr_epic t) as [e|]; [|discriminate].
    destruct (close_from_tick t (ep_last e) q ref) as [[t' c]|] eqn:Ec; [|discriminate]. cbn. intros E. injection E as <- _.
    apply books_kept, kept_insert; [apply trade_kept_refl|]. intros x Hx. assert (x = t) as -> by congruence. eapply close_tick_kept; eauto.
  Qed.
  Lemma net_books n pid ref w oid : books n w (fst (net_step pid n ref w oid)).
  Proof.
    unfold net_step. destruct (w_trades w !! n) as [t|] eqn:Et; [|apply books_refl]. destruct (w_trades w !! oid) as [o|] eqn:Eo; [|apply books_refl].
    destruct (dir_eqb _ _); [|apply books_refl]. destruct (bool_decide _); [|apply books_refl]. cbv zeta.
    destruct (close_from_epic _ _ _ _) as [[w1 ci]|] eqn:Ec; [|apply books_refl]. cbn [fst].
    eapply books_trans; [eapply close_epic_books; exact Ec|]. eapply books_trans; [apply (thread_books n w1 pid (JClose oid ci))|]. fold (provider_close_trade w1 pid oid ci).
    apply books_trades. intros i x Hi Hx. exists x. split; [|apply trade_kept_refl]. rewrite list_lookup_alter_ne by lia. exact Hx.
  Qed.
  Lemma open_books w eid d q s ref : books (length (w_trades w)) w (fst (epic_open_trade w eid d q s ref)).
  Proof.
    unfold epic_open_trade. destruct (w_epics w !! eid) as [e|]; [|apply books_refl]. destruct (valid_id _ _); [|apply books_refl].
    destruct (open_from_tick _ _ _ _ _ _) as [t|x]; [|apply books_refl]. cbv zeta. set (n := length (w_trades w)). set (w1 := upd_trades w _).
    assert (books n w w1) as H1 by (apply books_kept, kept_app, trade_kept_refl).
    assert (books n w1 (fst (provider_open_trade w1 (ep_prov e) n ref))) as H2; [|destruct (provider_open_trade _ _ _ _) as [w' [u|x]]; eapply books_trans; eauto].
    unfold provider_open_trade. destruct (w_provs w1 !! ep_prov e) as [p|] eqn:Ep; [|apply books_refl]. destruct (pv_kind p); try apply base_books.
    unfold backtest_open_trade. rewrite Ep.
    assert (books n w1 (fst (forM (net_step (ep_prov e) n ref) w1 (opened_trades w1 p)))) as H2.
    { apply (forM_inv (books n w1)); [|apply books_refl]. intros w2 x _ H2. eapply books_trans; [exact H2|apply net_books]. }
    destruct (forM _ _ _) as [w2 [u|x]]; [|exact H2]. destruct (w_trades w2 !! n) as [t2|]; [|exact H2]. destruct (_ <=? _); [exact H2|]. eapply books_trans; [exact H2|apply base_books].
  Qed.
  Lemma epic_close_books n w eid tid q ref : books n w (fst (epic_close_trade w eid tid q ref)).
  Proof.
    unfold epic_close_trade. destruct (w_epics w !! eid) as [e|]; [|apply books_refl]. destruct (close_from_epic _ _ _ _) as [[w1 ci]|] eqn:Ec; [|apply books_refl].
    eapply books_trans; [eapply close_epic_books; exact Ec|]. apply thread_books.
  Qed.
  Lemma strategy_close_books n w tid q ref : books n w (fst (strategy_close_trade w tid q ref)).
  Proof. unfold strategy_close_trade. destruct (w_trades w !! tid); [apply epic_close_books|apply books_refl]. Qed.
  Lemma job_kept k j (l : list (trade F)) : all_kept trade_kept l (job_effect k j l).
  Proof.
    unfold job_effect. assert (forall t s, trade_kept t (set_status t s)) as Hs. { intros t s. do 7 (split; [reflexivity|]). apply kept_refl, close_kept_refl. }
    assert (forall t k s, trade_kept t (set_closes t (alter (fun y => set_cstatus y s) k (tr_closes t)))) as Hc.
    { intros t i s. apply set_closes_kept, kept_alter; [apply close_kept_refl|]. intros c. now repeat split. }
    destruct k; [|apply kept_refl, trade_kept_refl|]; destruct j; apply kept_alter; auto using trade_kept_refl.
  Qed.
  Lemma run_thread_books n w pid k : books n w (run_thread w pid k).
  Proof.
    unfold run_thread. destruct (w_provs w !! pid) as [p|] eqn:Ep; [|apply books_refl]. destruct (pv_threads p !! k) as [th|] eqn:Ek; [|apply books_refl]. destruct (th_done th); [apply books_refl|].
    split; [intros i t _; apply job_kept|]. split; [|apply kept_refl, strategy_kept_refl]. apply kept_insert; [apply provider_kept_refl|]. intros x Hx. assert (x = p) as -> by congruence.
    split; [reflexivity|]. split; [reflexivity|]. intros i th' Hi. cbn. destruct (decide (i = k)) as [->|Hn].
    - rewrite list_lookup_insert by (eapply lookup_lt_Some; eauto). eexists. split; [reflexivity|]. assert (th' = th) as -> by congruence. auto.
    - rewrite list_lookup_insert_ne by auto. eauto.
  Qed.
  Lemma cmd_books w (c : cmd F) : books (length (w_trades w)) w (fst (run_cmd w c)).
  Proof.
    set (n := length (w_trades w)).
    destruct c as [e d q s ref|t q ref|e t q ref|s q ref|t v|t|t v d q ref|t q ref|s u|s b|p k]; cbn [run_cmd fst].
    - pose proof (open_books w e d q s ref) as E. now destruct (epic_open_trade w e d q s ref).
    - apply strategy_close_books.
    - apply epic_close_books.
    - unfold close_opened_trades. destruct (w_strats w !! s) as [x|]; [|apply books_refl]. apply (forM_inv (books n w)); [|apply books_refl].
      intros w1 y _ H1. eapply books_trans; [exact H1|]. unfold close_opened_step. destruct (trade_open_b w1 y); [apply strategy_close_books|apply books_refl].
    - apply books_kept, kept_alter; [apply trade_kept_refl|]. intros x. apply same_kept, update_same.
    - destruct (w_trades w !! t) as [x|] eqn:Ex; [|apply books_refl]. destruct (w_epics w !! tr_epic x) as [e|]; [|apply books_refl]. apply books_kept, kept_insert; [apply trade_kept_refl|].
      intros y Hy. assert (y = x) as -> by congruence. apply same_kept, update_from_tick_same.
    - destruct (w_trades w !! t) as [x|] eqn:Ex; [|apply books_refl]. destruct (close x v d q ref) as [[x' c]|] eqn:Ec; [|apply books_refl]. apply books_kept, kept_insert; [apply trade_kept_refl|].
      intros y Hy. assert (y = x) as -> by congruence. eapply close_trade_kept; eauto.
    - destruct (close_from_epic _ _ _ _) as [[w1 ci]|] eqn:Ec; [|apply books_refl]. eapply close_epic_books; eauto.
    - split; [cbn; eauto using trade_kept_refl|]. split; [apply kept_refl, provider_kept_refl|]. apply kept_alter; [apply strategy_kept_refl|]. intros x. now split.
    - split; [cbn; eauto using trade_kept_refl|]. split; [apply kept_refl, provider_kept_refl|]. apply kept_alter; [apply strategy_kept_refl|]. intros x. now split.
    - apply run_thread_books.
  Qed.
  Lemma cmd_kept w (c : cmd F) : remembered w (fst (run_cmd w c)).
  Proof.
    destruct (cmd_books w c) as (H1 & H2 & H3). pose proof (cmd_rest w c) as E. injection E as E1 E2 _. split; [intros i t Ht; apply H1; [eapply lookup_lt_Some; eauto|auto]|].
    split; [auto|]. split; [auto|]. rewrite E1, E2. split; apply kept_refl; auto using epic_kept_refl, fset_kept_refl.
  Qed.

  (** Changes of one list. *)
  Lemma kept_trades w l : all_kept trade_kept (w_trades w) l -> remembered w (upd_trades w l).
  Proof. intros Hl. destruct (world_kept_refl w) as (H1 & H2 & H3 & H4 & H5). exact (conj Hl (conj H2 (conj H3 (conj H4 H5)))). Qed.
  Lemma kept_provs w l : all_kept provider_kept (w_provs w) l -> remembered w (upd_provs w l).
  Proof. intros Hl. destruct (world_kept_refl w) as (H1 & H2 & H3 & H4 & H5). exact (conj H1 (conj Hl (conj H3 (conj H4 H5)))). Qed.
  Lemma kept_strats w l : all_kept strategy_kept (w_strats w) l -> remembered w (upd_strats w l).
  Proof. intros Hl. destruct (world_kept_refl w) as (H1 & H2 & H3 & H4 & H5). exact (conj H1 (conj H2 (conj Hl (conj H4 H5)))). Qed.
  Lemma kept_epics w l : all_kept epic_kept (w_epics w) l -> remembered w (upd_epics w l).
  Proof. intros Hl. destruct (world_kept_refl w) as (H1 & H2 & H3 & H4 & H5). exact (conj H1 (conj H2 (conj H3 (conj Hl H5)))). Qed.
  Lemma kept_fsets w l : all_kept fset_kept (w_fsets w) l -> remembered w (upd_fsets w l).
  Proof. intros Hl. destruct (world_kept_refl w) as (H1 & H2 & H3 & H4 & H5). exact (conj H1 (conj H2 (conj H3 (conj H4 Hl)))). Qed.
  Lemma dict_new {A} (d : dict A) k v : dict_get d k = None -> d `prefix_of` dict_set d k v.
  Proof. intros Hd. exists [(k, v)]. now apply dict_set_new. Qed.
  Lemma setup_kept pr w o : setup o -> remembered w (fst (step pr w o)).
  Proof.
    destruct o as [k|r|u q r m|r z op cl d h p|e f|e s|f i|e tk|c]; intros Ho; try (destruct Ho; fail); cbn [step fst].
    - apply kept_provs, kept_app, provider_kept_refl.
    - apply kept_strats, kept_app, strategy_kept_refl.
    - destruct (fset_init u q r m); [|apply world_kept_refl]. apply kept_fsets, kept_app, fset_kept_refl.
    - unfold new_epic. destruct z as [z|]; [|apply world_kept_refl]. destruct (valid_id _ _); [|apply world_kept_refl]. cbv zeta.
      destruct p as [p|]; (eapply world_kept_trans; [|apply kept_epics, kept_app, epic_kept_refl]); apply kept_provs; [apply kept_refl, provider_kept_refl|apply kept_app, provider_kept_refl].
    - unfold add_frame_set. destruct (w_epics w !! e) as [x|] eqn:Ex; [|apply world_kept_refl]. destruct (w_fsets w !! f) as [y|] eqn:Ey; [|apply world_kept_refl].
      destruct (dict_get _ _) eqn:Ed; [apply world_kept_refl|]. eapply world_kept_trans; [|apply kept_epics].
      + apply kept_fsets, kept_insert; [apply fset_kept_refl|]. intros z Hz. assert (z = y) as -> by congruence. now repeat split.
      + apply kept_insert; [apply epic_kept_refl|]. cbn. intros z Hz. assert (z = x) as -> by congruence. do 7 (split; [reflexivity|]). split; [now apply dict_new|reflexivity].
    - unfold add_strategy. destruct (w_epics w !! e) as [x|] eqn:Ex; [|apply world_kept_refl]. destruct (w_strats w !! s) as [y|] eqn:Ey; [|apply world_kept_refl].
      destruct (dict_get _ _) eqn:Ed; [apply world_kept_refl|]. eapply world_kept_trans; [|apply kept_strats].
      + apply kept_epics, kept_insert; [apply epic_kept_refl|]. cbn. intros z Hz. assert (z = x) as -> by congruence. do 7 (split; [reflexivity|]). split; [reflexivity|now apply dict_new].
      + apply kept_insert; [apply strategy_kept_refl|]. cbn. intros z Hz. assert (z = y) as -> by congruence. now split.
    - destruct (w_fsets w !! f) as [y|] eqn:Ey; [|apply world_kept_refl]. unfold add_indicator.
      destruct (in_kind i); cbn [fst]; apply kept_fsets, kept_insert; try apply fset_kept_refl; intros z Hz; assert (z = y) as -> by congruence; now repeat split.
  Qed.
  Lemma accept_kept w eid e tk b : w_epics w !! eid = Some e -> remembered w (upd_epics w (<[eid := ep_set_last e tk b]> (w_epics w))).
  Proof. intros He. apply kept_epics, kept_insert; [apply epic_kept_refl|]. intros x Hx. assert (x = e) as -> by congruence. unfold epic_kept. cbn. auto 20. Qed.
  Lemma fset_tick_kept tk w x : remembered w (fst (update_frame_set tk w x)).
  Proof.
    unfold update_frame_set. destruct (w_fsets w !! x.2) as [f|] eqn:Ef; [|apply world_kept_refl]. destruct (fs_epic_state w f) as [mo lst].
    pose proof (fs_tick_conf (gap_fuel f tk) f tk mo lst) as Hc. destruct (fs_on_new_tick _ _ _ _ _) as [f' r]. cbn [fst] in *. apply kept_fsets, kept_insert; [apply fset_kept_refl|].
    intros y Hy. assert (y = f) as -> by congruence. unfold same_conf in Hc. unfold fset_kept. intuition congruence.
  Qed.
  Lemma value_kept w pid tk : remembered w (update_open_trades w pid tk).
  Proof.
    unfold update_open_trades. destruct (w_provs w !! pid) as [p|]; [|apply world_kept_refl]. apply kept_trades. generalize (opened_trades w p). intros l. generalize (w_trades w). clear.
    induction l as [|i l IH]; intros ts; cbn; [apply kept_refl, trade_kept_refl|]. eapply (kept_trans _ trade_kept_trans); [|apply IH]. apply kept_alter; [apply trade_kept_refl|].
    intros t. apply same_kept, update_from_tick_same.
  Qed.
  Lemma active_kept w sid s d : w_strats w !! sid = Some s -> remembered w (upd_strats w (<[sid := fst (is_active s d)]> (w_strats w))).
  Proof.
    intros Hs. apply kept_strats, kept_insert; [apply strategy_kept_refl|]. intros x Hx. assert (x = s) as -> by congruence. unfold is_active.
    destruct (st_stopped s); [apply strategy_kept_refl|]. destruct (st_paused s); [|apply strategy_kept_refl]. destruct (arrow_ltb _ _); [apply strategy_kept_refl|]. now split.
  Qed.
  Lemma log_kept w l : remembered w (upd_log w l). Proof. exact (world_kept_refl w). Qed.

  Lemma rrun_kept depth (pr : rprograms F) l w : remembered w (rrun depth pr w l).
  Proof.
    apply (rrun_inv any_call (remembered w)); auto using rany_ok, world_kept_refl.
    - intros w1 c H1 _. eapply world_kept_trans; [exact H1|apply cmd_kept].
    - intros q w1 o H1 Ho. eapply world_kept_trans; [exact H1|now apply setup_kept].
    - intros w1 eid e tk H1 He _. eapply world_kept_trans; [exact H1|now apply accept_kept].
    - intros w1 eid e x H1 _ _. eapply world_kept_trans; [exact H1|apply fset_tick_kept].
    - intros w1 eid e H1 _. eapply world_kept_trans; [exact H1|apply value_kept].
    - intros w1 sid s d H1 Hs. eapply world_kept_trans; [exact H1|now apply active_kept].
    - apply Forall_forall. intros o _. apply any_ok.
  Qed.
  Lemma run_kept (pr : programs F) l w : remembered w (run pr w l).
  Proof. rewrite <- (embed_run 0). apply rrun_kept. Qed.
  Lemma rtick_kept depth (pr : rprograms F) w eid tk : remembered w (fst (rtick depth pr w eid tk)).
  Proof. exact (rrun_kept depth pr [OTick eid tk] w). Qed.
  Lemma rscript_kept depth (pr : rprograms F) s w : remembered w (fst (run_rscript (rtick depth pr) w s)).
  Proof.
    revert w. induction s as [|x|o k IH]; intros w; cbn [run_rscript fst]; [apply world_kept_refl|apply world_kept_refl|].
    assert (remembered w (fst (rop (rtick depth pr) w o))) as H1 by exact (rrun_kept depth pr [o] w).
    destruct (rop (rtick depth pr) w o) as [w' r]. eapply world_kept_trans; [exact H1|apply IH].
  Qed.
  (** Booked results. *)
  Lemma kept_result t t' c c' : trade_kept t t' -> close_kept c c' -> close_result t' c' = close_result t c.
  Proof.
    intros (_ & _ & A3 & _ & A5 & _) (B1 & B2 & _). unfold close_result, close_result_avg. now rewrite A3, A5, B1, B2.
  Qed.
  Lemma kept_booked t t' : trade_kept t t' -> map (close_result t) (tr_closes t) `prefix_of` map (close_result t') (tr_closes t').
  Proof.
    intros K. exists (map (close_result t') (drop (length (tr_closes t)) (tr_closes t'))). assert (forall k c, tr_closes t !! k = Some c -> exists c', tr_closes t' !! k = Some c' /\ close_result t' c' = close_result t c) as Hk.
    { intros k c Hc. destruct K as (A1 & A2 & A3 & A4 & A5 & A6 & A7 & A8). destruct (A8 k c Hc) as (c' & Hc' & Kc). exists c'. split; [auto|]. apply kept_result; [|auto]. do 7 (split; [assumption|]). auto. }
    clear K. revert Hk. generalize (tr_closes t'). induction (tr_closes t) as [|c l IH]; intros l' Hk; [reflexivity|].
    destruct (Hk 0%nat c eq_refl) as (c' & Hc' & Ec). destruct l' as [|x l']; [discriminate|]. injection Hc' as ->. cbn. rewrite Ec. f_equal. apply IH. intros k y Hy. exact (Hk (S k) y Hy).
  Qed.
End proofs.
Lemma later_booked {F} `{Num F} depth (pr : rprograms F) l (w : world F) i t : w_trades w !! i = Some t ->
  exists t', w_trades (rrun depth pr w l) !! i = Some t' /\ map (close_result t) (tr_closes t) `prefix_of` map (close_result t') (tr_closes t').
Proof. intros Ht. destruct (rrun_kept depth pr l w) as [Hk _]. destruct (Hk i t Ht) as (t' & Ht' & K). exists t'. split; [exact Ht'|now apply kept_booked]. Qed.
Lemma later_settled (P : cmd Q -> Prop) pr l (w : world Q) i t : (forall c, P c -> sane_call c) -> programs_ok P pr -> Forall (op_ok P) l -> reach P w ->
  w_trades w !! i = Some t -> closed t = true ->
  exists t', w_trades (run pr w l) !! i = Some t' /\ closed t' = true /\ Qeq (result t') (result t) /\ tr_max t' = tr_max t /\ tr_min t' = tr_min t.
Proof.
  intros HP Hpr Hl Hw Ht Hc. destruct (evo_run P pr l w HP Hpr Hl Hw i t Ht) as (t' & Ht' & Hr). exists t'. split; [exact Ht'|].
  destruct (closed_frozen t t' Hc Hr) as (H1 & _ & H2 & H3). split; [exact H1|]. split; [exact (closed_result_frozen t t' Hc Hr)|auto].
Qed.
