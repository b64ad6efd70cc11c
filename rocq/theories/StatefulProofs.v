(** Every execution of a program with private data is an execution of one without (C61). *)
From Verif Require Import EpicRunProofs EpicProofs EpicTimeProofs ReentrantProofs.
From Verif Require Export SpecStateful.
Open Scope Z_scope.

Section proofs.
  Context {F : Type} `{Num F} {St : Type} (P : op F -> Prop).
  Implicit Types (w : world F) (l : list (op F)).

  (** What a callback did, as a straight piece of code. *)
  Definition record := (list (op F) * option exn)%type.
  Fixpoint play (l : list (op F)) (e : option exn) : rscript F :=
    match l with
    | [] => match e with None => RDone | Some x => RRaise x end
    | o :: l' => RCall o (fun _ _ => play l' e)
    end.
  (** [table n] is what the callback called after [n] others did. *)
  Definition table := nat -> record.
  Definition table_ok (t : table) : Prop := forall n, Forall P (fst (t n)).
  Definition follows (t : table) (a b : nat) (pr : rprograms F) : Prop :=
    forall sid cb eid v, (a <= length (w_log v) < b)%nat -> pr sid cb eid v = play (fst (t (length (w_log v)))) (snd (t (length (w_log v)))).
  Definition calls w : nat := length (w_log w).
  Definition covers (c : rprograms F -> world F * res unit) (w w' : world F) (r : res unit) : Prop :=
    (calls w <= calls w')%nat /\ exists t, table_ok t /\ forall pr, follows t (calls w) (calls w') pr -> c pr = (w', r).

  Definition nothing : table := fun _ => ([], None).
  Lemma nothing_ok : table_ok nothing.
  Proof. intros n. constructor. Qed.
  Lemma covers_pure (c : rprograms F -> world F * res unit) w w' r : w_log w' = w_log w -> (forall pr, c pr = (w', r)) -> covers c w w' r.
  Proof. intros E Ec. unfold covers, calls. rewrite E. split; [lia|]. exists nothing. split; [exact nothing_ok|]. auto. Qed.
  Definition glue (n : nat) (t t' : table) : table := fun k => if (k <? n)%nat then t k else t' k.
  Lemma glue_ok n t t' : table_ok t -> table_ok t' -> table_ok (glue n t t').
  Proof. intros A B k. unfold glue. destruct (k <? n)%nat; auto. Qed.
  Lemma follows_glue_l t t' a b c pr : (b <= c)%nat -> follows (glue b t t') a c pr -> follows t a b pr.
  Proof. intros Hb Hf sid cb eid v Hv. rewrite (Hf sid cb eid v) by lia. unfold glue. destruct (Nat.ltb_spec (length (w_log v)) b); [auto|lia]. Qed.
  Lemma follows_glue_r t t' a b c pr : (a <= b)%nat -> follows (glue b t t') a c pr -> follows t' b c pr.
  Proof. intros Hb Hf sid cb eid v Hv. rewrite (Hf sid cb eid v) by lia. unfold glue. destruct (Nat.ltb_spec (length (w_log v)) b); [lia|auto]. Qed.
  (** One computation, then another one. *)
  Lemma covers_seq (c1 c2 c : rprograms F -> world F * res unit) w w1 r1 w2 r2 :
    covers c1 w w1 r1 -> covers c2 w1 w2 r2 -> (forall pr, c1 pr = (w1, r1) -> c2 pr = (w2, r2) -> c pr = (w2, r2)) -> covers c w w2 r2.
  Proof.
    intros (L1 & t1 & T1 & H1) (L2 & t2 & T2 & H2) Hc. split; [lia|]. exists (glue (calls w1) t1 t2). split; [now apply glue_ok|].
    intros pr Hf. apply Hc; [apply H1; eapply follows_glue_l; eauto|apply H2; eapply follows_glue_r; eauto].
  Qed.
  Lemma covers_ext (c c' : rprograms F -> world F * res unit) w w' r : (forall pr, c' pr = c pr) -> covers c w w' r -> covers c' w w' r.
  Proof. intros E (L & t & T & Ht). split; [auto|]. exists t. split; [auto|]. intros pr Hf. rewrite E. auto. Qed.
  Lemma covers_from (c : rprograms F -> world F * res unit) w v w' r : w_log v = w_log w -> covers c v w' r -> covers c w w' r.
  Proof. intros E. unfold covers, calls. now rewrite E. Qed.
  Lemma covers_and (c1 : rprograms F -> world F * res unit) (k : rprograms F -> world F -> world F * res unit) (s : St) w (x : (St * world F) * res unit) (kp : St * world F -> (St * world F) * res unit) :
    covers c1 w x.1.2 x.2 -> (forall m, x = (m, Ok ()) -> covers (fun pr => k pr m.2) m.2 (kp m).1.2 (kp m).2) ->
    covers (fun pr => andthen (c1 pr) (k pr)) w (pandthen x kp).1.2 (pandthen x kp).2.
  Proof.
    destruct x as [[s1 w1] [[]|e]]; cbn [pandthen fst snd]; intros C1 C2.
    - eapply covers_seq; [exact C1|exact (C2 _ eq_refl)|]. cbn [snd]. intros pr -> E. exact E.
    - destruct C1 as (L & t & T & Ht). split; [auto|]. exists t. split; [auto|]. intros pr Hf. rewrite (Ht pr Hf). reflexivity.
  Qed.

  (** Operations other than ticks call no strategy. *)
  Lemma silent_log w o : match o with OTick _ _ => False | _ => True end -> w_log (fst (step silent w o)) = w_log w.
  Proof.
    intros Ho. destruct o; try (exfalso; exact Ho); try (now apply setup_log). cbn [step]. pose proof (cmd_rest w c) as E. now apply (f_equal snd) in E.
  Qed.

  Section one_level.
    Context (np : (St * world F) -> nat -> tick F -> (St * world F) * res unit) (nr : rprograms F -> world F -> nat -> tick F -> world F * res unit).
    Context (pp : pprograms F St).
    Context (Hn : forall m eid tk, covers (fun pr => nr pr m.2 eid tk) m.2 (np m eid tk).1.2 (np m eid tk).2).
    Context (Hpp : pprograms_ok P pp).

    Lemma op_covers m o : covers (fun pr => rop (nr pr) m.2 o) m.2 (pop np m o).1.2 (pop np m o).2.
    Proof.
      destruct (match o with OTick _ _ => true | _ => false end) eqn:Eo.
      - destruct o; try discriminate Eo. exact (Hn m epic tk).
      - assert (pop np m o = let '(w', r) := step silent m.2 o in ((m.1, w'), r)) as -> by (destruct o; [reflexivity..|discriminate Eo|reflexivity]).
        pose proof (silent_log m.2 o) as L. destruct (step silent m.2 o) as [w' r] eqn:Es. cbn [fst snd] in *.
        apply covers_pure; [apply L; destruct o; auto; discriminate Eo|]. intros pr. rewrite <- Es. destruct o; try reflexivity. discriminate Eo.
    Qed.
    Lemma script_covers (R : op F -> Prop) p : pscript_ok R p -> forall w, exists l e, Forall R l /\
      covers (fun pr => run_rscript (nr pr) w (play l e)) w (run_pscript np w p).1.2 (run_pscript np w p).2.
    Proof.
      induction p as [s|s x|s o k IH]; intros Hp w.
      - exists [], None. split; [constructor|]. now apply covers_pure.
      - exists [], (Some x). split; [constructor|]. now apply covers_pure.
      - destruct Hp as [Ho Hk]. pose proof (op_covers (s, w) o) as C1. cbn [run_pscript]. destruct (pop np (s, w) o) as [[s1 w1] r1] eqn:E1. cbn [fst snd] in C1.
        destruct (IH s1 w1 r1 (Hk s1 w1 r1) w1) as (l & e & Hl & C2). exists (o :: l), e. split; [now constructor|].
        eapply covers_seq; [exact C1|exact C2|]. cbn beta. intros pr Ea Eb. cbn [play run_rscript]. rewrite Ea. exact Eb.
    Qed.
    Lemma callback_covers sid cb eid m :
      covers (fun pr => run_rcallback (nr pr) pr sid cb eid m.2) m.2 (run_pcallback np pp sid cb eid m).1.2 (run_pcallback np pp sid cb eid m).2.
    Proof.
      unfold run_pcallback. set (w1 := upd_log _ _). destruct (script_covers _ _ (Hpp sid cb eid m.1 m.2) w1) as (l & e & Hl & L & t & Ht & Hc).
      set (w' := (run_pscript np w1 _).1.2) in *. assert (calls w1 = S (calls m.2)) as E1 by (unfold calls, w1; cbn; rewrite app_length; cbn; lia).
      split; [lia|]. exists (glue (calls w1) (fun _ => (l, e)) t). split; [apply glue_ok; [intros n; exact Hl|auto]|].
      intros pr Hf. unfold run_rcallback. fold w1. cbv zeta. rewrite (Hf sid cb eid m.2) by (unfold calls in *; lia). fold (calls m.2). unfold glue at 1 2.
      destruct (Nat.ltb_spec (calls m.2) (calls w1)); [|lia]. cbn [fst snd]. apply Hc. eapply follows_glue_r; [|exact Hf]. lia.
    Qed.
    Lemma execute_covers eid mo m x :
      covers (fun pr => rexecute (nr pr) pr eid mo m.2 x) m.2 (pexecute np pp eid mo m x).1.2 (pexecute np pp eid mo m x).2.
    Proof.
      unfold rexecute, pexecute. destruct (w_strats m.2 !! x.2) as [s|]; [|now apply covers_pure]. destruct (w_epics m.2 !! eid) as [e|]; [|now apply covers_pure].
      destruct (is_active s _) as [s' act]. set (w1 := upd_strats _ _). destruct act; [|now apply covers_pure]. cbv zeta.
      eapply (covers_from _ _ w1); [reflexivity|].
      apply (covers_and _ (fun pr w2 => andthen _ _) m.1).
      - destruct (eqb mo (ep_mopen e)); [now apply covers_pure|]. destruct mo; apply (callback_covers _ _ _ (m.1, w1)).
      - intros m2 _. apply (covers_and _ (fun pr w3 => _) m.1).
        + destruct (w_epics m2.2 !! eid) as [e2|]; [|now apply covers_pure]. destruct (ep_mopen e2); [apply callback_covers|now apply covers_pure].
        + intros m3 _. apply callback_covers.
    Qed.
    Lemma turn_covers eid n mo m x : covers (fun pr => rturn (nr pr) pr eid n mo m.2 x) m.2 (pturn np pp eid n mo m x).1.2 (pturn np pp eid n mo m x).2.
    Proof.
      unfold rturn, pturn. apply (covers_and _ (fun pr w2 => _) m.1); [apply execute_covers|]. intros m2 _. unfold same_size.
      destruct (w_epics m2.2 !! eid); [|now apply covers_pure]. destruct (_ =? n)%nat; now apply covers_pure.
    Qed.
    Lemma turns_covers eid n mo (l : list (string * nat)) : forall m, covers (fun pr => forM (rturn (nr pr) pr eid n mo) m.2 l) m.2
      (forM (pturn np pp eid n mo) m l).1.2 (forM (pturn np pp eid n mo) m l).2.
    Proof.
      induction l as [|x l IH]; intros m; [now apply covers_pure|].
      assert (forall m, forM (pturn np pp eid n mo) m (x :: l) = pandthen (pturn np pp eid n mo m x) (fun m' => forM (pturn np pp eid n mo) m' l)) as ->.
      { intros m'. cbn [forM]. destruct (pturn np pp eid n mo m' x) as [? [?|?]]; reflexivity. }
      apply (covers_ext (fun pr => andthen (rturn (nr pr) pr eid n mo m.2 x) (fun w' => forM (rturn (nr pr) pr eid n mo) w' l))).
      { intros pr. cbn [forM]. destruct (rturn _ _ _ _ _ _ x) as [? [?|?]]; reflexivity. }
      apply (covers_and _ (fun pr w' => _) m.1); [apply turn_covers|]. intros m2 _. apply IH.
    Qed.
    Lemma on_tick_covers m eid tk : covers (fun pr => ron_tick (nr pr) pr m.2 eid tk) m.2 (pon_tick np pp m eid tk).1.2 (pon_tick np pp m eid tk).2.
    Proof.
      unfold ron_tick, pon_tick. destruct (w_epics m.2 !! eid) as [e|]; [|now apply covers_pure]. cbv zeta. destruct (arrow_ltb _ _); [now apply covers_pure|].
      set (e' := ep_set_last _ _ _). set (w1 := upd_epics _ _). set (tk' := tick_to _ _). eapply (covers_from _ _ w1); [reflexivity|].
      apply (covers_and _ (fun pr w2 => _) m.1).
      - destruct (fsets_rest tk' (ep_fsets e') w1) as (_ & _ & L). destruct (forM (update_frame_set tk') w1 (ep_fsets e')) as [w2 r] eqn:E. cbn [fst snd] in *. now apply covers_pure.
      - intros m2 _. set (w3 := update_open_trades _ _ _). destruct (value_rest m2.2 (ep_prov e') tk') as (_ & _ & L & _). eapply (covers_from _ _ w3); [exact L|].
        apply (turns_covers _ _ _ _ (m2.1, w3)).
    Qed.
  End one_level.

  Context (pp : pprograms F St) (Hpp : pprograms_ok P pp).
  Lemma tick_covers d m eid tk : covers (fun pr => rtick d pr m.2 eid tk) m.2 (ptick d pp m eid tk).1.2 (ptick d pp m eid tk).2.
  Proof.
    revert m eid tk. induction d as [|d IH]; intros m eid tk; [now apply covers_pure|]. apply (on_tick_covers (ptick d pp) (fun pr => rtick d pr) pp IH Hpp).
  Qed.
  (** The whole program. *)
  Lemma program_covers d p : forall w, exists t, table_ok t /\
    forall pr, (forall b, follows t (calls w) b pr) -> trace (rstep d pr) w (map op_of (ptrace d pp w p)) = ptrace d pp w p.
  Proof.
    induction p as [s|s x|s o k IH]; intros w; [exists nothing; split; [exact nothing_ok|auto]..|].
    pose proof (op_covers (ptick d pp) (fun pr => rtick d pr) (tick_covers d) (s, w) o) as (L & t1 & T1 & C1). cbn [ptrace].
    destruct (pop (ptick d pp) (s, w) o) as [[s1 w1] r1] eqn:E1. cbn [fst snd] in *. destruct (IH s1 w1 r1 w1) as (t2 & T2 & C2).
    exists (glue (calls w1) t1 t2). split; [now apply glue_ok|]. intros pr Hf. cbn [map trace]. unfold op_of at 1, rstep at 1. cbn [fst]. rewrite (C1 pr).
    - rewrite C2; [auto|]. intros b. eapply follows_glue_r; [exact L|]. apply Hf.
    - eapply follows_glue_l; [|apply (Hf (calls w1))]. auto.
  Qed.
  Lemma ptrace_ok (R : op F -> Prop) d p : pscript_ok R p -> forall w, Forall R (map op_of (ptrace d pp w p)).
  Proof.
    induction p as [s|s x|s o k IH]; intros Hp w; [constructor..|]. destruct Hp as [Ho Hk]. cbn [ptrace]. destruct (pop (ptick d pp) (s, w) o) as [[s1 w1] r1].
    cbn [map]. constructor; [exact Ho|]. apply IH, Hk.
  Qed.
End proofs.

Section final.
  Context {F : Type} `{Num F} {St : Type}.
  Implicit Types (P : cmd F -> Prop).
  Lemma play_ok P l e : Forall (op_ok P) l -> rscript_ok P (play l e).
  Proof. induction l as [|o l IH]; intros Hl; [now destruct e|]. apply Forall_cons in Hl as [Ho Hl]. split; auto. Qed.

  Lemma stateful_run P d (pp : pprograms F St) (w : world F) p : pprograms_ok (op_ok P) pp ->
    exists pr, rprograms_ok P pr /\ trace (rstep d pr) w (map op_of (ptrace d pp w p)) = ptrace d pp w p.
  Proof.
    intros Hpp. destruct (program_covers (op_ok P) pp Hpp d p w) as (t & Ht & Hc).
    exists (fun _ _ _ v => play (fst (t (length (w_log v)))) (snd (t (length (w_log v))))).
    split; [|apply Hc; intros b sid cb eid v _; reflexivity]. intros sid cb eid v. apply play_ok, Ht.
  Qed.

  (** Callbacks that only trade, pause and stop. *)
  Fixpoint play_calls (l : list (op F)) (e : option exn) : script F :=
    match l with
    | [] => match e with None => SDone | Some x => SRaise x end
    | OCmd c :: l' => SCall c (fun _ _ => play_calls l' e)
    | _ :: l' => SDone
    end.
  Lemma play_calls_ok P l e : Forall (only_calls P) l -> script_ok P (play_calls l e).
  Proof. induction l as [|o l IH]; intros Hl; [now destruct e|]. apply Forall_cons in Hl as [Ho Hl]. destruct o; try (exfalso; exact Ho). split; [exact Ho|auto]. Qed.
  Lemma play_calls_embed P l e : Forall (only_calls P) l -> embed (play_calls l e) = play l e.
  Proof. induction l as [|o l IH]; intros Hl; [now destruct e|]. apply Forall_cons in Hl as [Ho Hl]. destruct o; try (exfalso; exact Ho). cbn [play_calls embed play]. now rewrite (IH Hl). Qed.
  Lemma stateful_calls P d (pp : pprograms F St) (w : world F) p : pprograms_ok (only_calls P) pp ->
    exists pr, programs_ok P pr /\ trace (step pr) w (map op_of (ptrace (S d) pp w p)) = ptrace (S d) pp w p.
  Proof.
    intros Hpp. destruct (program_covers (only_calls P) pp Hpp (S d) p w) as (t & Ht & Hc).
    set (pr := fun (_ : nat) (_ : callback) (_ : nat) (v : world F) => play_calls (fst (t (length (w_log v)))) (snd (t (length (w_log v))))).
    exists pr. split; [intros sid cb eid v; apply play_calls_ok, Ht|]. rewrite <- Hc with (pr := embed_programs pr) at 2.
    - generalize (map op_of (ptrace (S d) pp w p)). intros l. clear. revert w. induction l as [|o l IH]; intros w; [auto|]. cbn [trace]. rewrite embed_step. destruct (step pr w o). now rewrite IH.
    - intros b sid cb eid v _. eapply play_calls_embed, Ht.
  Qed.

  (** The state at the end. *)
  Lemma final_run (pr : programs F) l w : final w (trace (step pr) w l) = run pr w l.
  Proof. revert w. induction l as [|o l IH]; intros w; [auto|]. cbn [trace run fold_left]. destruct (step pr w o) as [w' r]. apply IH. Qed.
  Lemma final_rrun d (pr : rprograms F) l w : final w (trace (rstep d pr) w l) = rrun d pr w l.
  Proof. revert w. induction l as [|o l IH]; intros w; [auto|]. cbn [trace rrun fold_left]. destruct (rstep d pr w o) as [w' r]. apply IH. Qed.
  Lemma final_prun d (pp : pprograms F St) p w : final w (ptrace d pp w p) = (prun d pp w p).1.2.
  Proof.
    unfold prun. revert w. induction p as [s|s x|s o k IH]; intros w; [auto..|]. cbn [ptrace run_pscript]. destruct (pop _ _ _) as [[s1 w1] r1]. apply IH.
  Qed.
  Lemma trace_ops f (w : world F) l : map op_of (trace f w l) = l.
  Proof. revert w. induction l as [|o l IH]; intros w; [auto|]. cbn [trace]. destruct (f w o) as [w' r]. cbn [map]. now rewrite IH. Qed.

  (** C55 for programs with data. *)
  Lemma stateful_states P d (pp : pprograms F St) (w : world F) p : pprograms_ok (op_ok P) pp -> pscript_ok (op_ok P) p -> reach P w ->
    reach P (prun d pp w p).1.2 /\ forall o w' r, (o, w', r) ∈ ptrace d pp w p -> reach P w'.
  Proof.
    intros Hpp Hp Hr. destruct (stateful_run P d pp w p Hpp) as (pr & Hpr & E). pose proof (ptrace_ok pp (op_ok P) d p Hp w) as Hl. revert E Hl. generalize (map op_of (ptrace d pp w p)). intros l E Hl.
    split; [rewrite <- final_prun, <- E, final_rrun; now apply rrun_reach|]. rewrite <- E. clear E. intros o w' r. revert w Hr. induction l as [|o' l IH]; intros w Hr Hi; [inversion Hi|].
    apply Forall_cons in Hl as [Ho Hl]. cbn [trace] in Hi. pose proof (rstep_reach P pr d w o' Hpr Ho Hr) as Hr'. destruct (rstep d pr w o') as [w1 r1]. cbn [fst] in Hr'.
    apply elem_of_cons in Hi as [[= -> -> ->]|Hi]; [auto|]. eapply IH; eauto.
  Qed.

  (** C24 for programs with data. *)
  Lemma passing pr l : forall (w : world F) eid e, ticks_pass (trace (step pr) w l) -> w_epics w !! eid = Some e ->
    clean pr w l /\ accepted pr w l eid = sent e eid (trace (step pr) w l).
  Proof.
    induction l as [|o l IH]; intros w eid e Ht He; [split; [exact I|auto]|]. cbn [trace clean accepted] in *. destruct (step pr w o) as [w' r] eqn:Es. cbn [fst snd].
    destruct (step_epic pr w o eid e He) as (e1 & E1 & K1 & HK). rewrite Es in E1. cbn [fst] in E1. assert (ep_tz e1 = ep_tz e) as Ez by apply K1.
    destruct (IH w' eid e1) as [C A]; [intros a tk v r' Hi; eapply Ht; right; exact Hi|auto|]. rewrite A. split.
    - split; [|auto]. destruct o; auto. left. eapply Ht. left.
    - unfold sent. cbn [flat_map]. rewrite Ez. f_equal. unfold op_of. cbn [fst]. unfold accepts. destruct o as [| | | | | | |a tk|]; auto. destruct (decide (a = eid)) as [->|]; [|auto]. rewrite He.
      destruct (decide (refused e tk)) as [Hre|]; [|auto]. cbn [step] in Es. rewrite (tick_refused _ _ _ _ _ He Hre) in Es. injection Es as <- <-. exfalso.
      assert (Err EpicException = Ok ()) as X; [eapply Ht; left|discriminate X].
  Qed.
  Lemma stateful_protocol P d (pp : pprograms F St) (w : world F) p eid e sid k s : (forall c, P c -> spares sid c) -> reach P w ->
    pprograms_ok (only_calls P) pp -> pscript_ok (op_ok P) p -> ticks_pass (ptrace (S d) pp w p) ->
    w_epics w !! eid = Some e -> (k, sid) ∈ ep_strats e -> w_strats w !! sid = Some s -> st_paused s = None -> st_stopped s = false ->
    exists evs, w_log (prun (S d) pp w p).1.2 = w_log w ++ evs /\ alternate (ep_mopen e) (seen sid eid evs) /\
      seen sid eid evs = protocol (ep_mopen e) (map (is_market_open e) (sent e eid (ptrace (S d) pp w p))).
  Proof.
    intros HP Hr Hpp Hp Ht He Hk Hs H1 H2. destruct (stateful_calls P d pp w p Hpp) as (pr & Hpr & E). pose proof (ptrace_ok pp (op_ok P) (S d) p Hp w) as Hl.
    rewrite <- E in Ht. destruct (passing _ _ _ _ _ Ht He) as [C A]. destruct (callbacks_of_run P pr _ w eid e sid k s HP Hr Hpr Hl C He Hk Hs H1 H2) as (evs & L1 & L2 & _ & L4).
    exists evs. rewrite <- final_prun, <- E at 1. rewrite final_run. split; [auto|]. split; [auto|]. rewrite L4, A, E. reflexivity.
  Qed.
End final.
