(** Concrete runs of frame sets with indicators: non-vacuity examples and refutation witnesses. *)
From Verif Require Export IndicatorFinalProofs.
From Verif Require Export FrameExamples.
Open Scope Z_scope.

(** Ticks with market flags given one after the other, with the log of each frame. *)
Fixpoint feedm (l : list (list (tick Q * bool))) (fs : fset Q) (ts : list (tick Q * bool)) : list (list (tick Q * bool)) * fset Q * res unit :=
  match ts with
  | [] => (l, fs, Ok ())
  | (t, mo) :: ts' =>
      match fs_on_new_tick (gap_fuel fs t) fs t mo (Some (tk_dt t)) with
      | (fs', Ok _) => feedm (deal l (length (fs_heap fs')) t mo) fs' ts'
      | (fs', r) => (l, fs', r)
      end
  end.
(** A frame set with one indicator registered before the first tick. *)
Definition with_ind (i : indicator Q) (u : unit_) (q mx : Z) (ts : list (tick Q * bool)) : fset Q :=
  snd (fst (feedm [] (fst (add_indicator (fs0 u q mx) i)) ts)).
Definition log_of (i : indicator Q) (u : unit_) (q mx : Z) (ts : list (tick Q * bool)) : list (list (tick Q * bool)) :=
  fst (fst (feedm [] (fst (add_indicator (fs0 u q mx) i)) ts)).
Definition goes_well (i : indicator Q) (u : unit_) (q mx : Z) (ts : list (tick Q * bool)) : Prop :=
  snd (feedm [] (fst (add_indicator (fs0 u q mx) i)) ts) = Ok ().

Lemma only_self (i : indicator Q) : only i i.
Proof. intros _. reflexivity. Qed.
Lemma feedm_hist (I : indicator Q -> Prop) fs1 ts l fs l' fs' : fs_hist I no_exn fs1 fs -> feedm l fs ts = (l', fs', Ok ()) -> fs_hist I no_exn fs1 fs'.
Proof.
  revert l fs. induction ts as [|[t mo] ts IH]; intros l fs Hh; cbn [feedm].
  - now intros [= _ <-].
  - destruct (fs_on_new_tick _ _ _ _ _) as [fs2 [[]|]] eqn:E; [|discriminate]. apply IH. eapply hist_tick; eauto. reflexivity.
Qed.
Lemma with_ind_hist0 i u q mx ts : goes_well i u q mx ts -> fs_hist (only i) no_exn (fst (add_indicator (fs0 u q mx) i)) (with_ind i u q mx ts).
Proof.
  intros Hs. unfold with_ind, goes_well in *. destruct (feedm _ _ _) as [[l f] r] eqn:E. cbn [fst snd] in *. subst r. eapply feedm_hist; [apply hist_start|exact E].
Qed.
Lemma with_ind_hist i u q mx ts : goes_well i u q mx ts -> fs_hist (only i) no_exn (fs0 u q mx) (with_ind i u q mx ts).
Proof.
  intros Hs. unfold with_ind, goes_well in *. destruct (feedm _ _ _) as [[l f] r] eqn:E. cbn [fst snd] in *. subst r.
  eapply feedm_hist; [|exact E]. apply hist_indicator; [apply hist_start|apply only_self].
Qed.
Lemma fs0_init u q mx : check_unit u q = Ok () -> fset_init u q "fs" mx = Ok (fs0 u q mx).
Proof. intros Hc. unfold fset_init. now rewrite Hc. Qed.

(** The steps of a log satisfy [G]. *)
Fixpoint feed_ok (G : list (tick Q * bool) -> fset Q -> bool -> fset Q -> Prop) (rs : list (tick Q * bool)) (fs : fset Q) (ts : list (tick Q * bool)) : Prop :=
  match ts with
  | [] => True
  | (t, mo) :: ts' => let fs' := fst (fs_on_new_tick (gap_fuel fs t) fs t mo (Some (tk_dt t))) in G rs fs mo fs' /\ feed_ok G (rs ++ [(t, mo)]) fs' ts'
  end.
Lemma feedm_log (I : indicator Q -> Prop) G fs1 ts rs l fs l' fs' : fs_log I G fs1 l rs fs -> feed_ok G rs fs ts -> feedm l fs ts = (l', fs', Ok ()) -> fs_log I G fs1 l' (rs ++ ts) fs'.
Proof.
  revert rs l fs. induction ts as [|[t mo] ts IH]; intros rs l fs Hh Hg; cbn [feedm].
  - intros [= <- <-]. now rewrite app_nil_r.
  - cbn [feed_ok] in Hg. destruct (fs_on_new_tick _ _ _ _ _) as [fs2 [[]|]] eqn:E; [|discriminate]. destruct Hg as [G1 G2]. cbn [fst] in G1, G2. intros E2.
    replace (rs ++ (t, mo) :: ts) with ((rs ++ [(t, mo)]) ++ ts) by now rewrite <- app_assoc. apply (IH (rs ++ [(t, mo)]) (deal l (length (fs_heap fs2)) t mo) fs2); auto. eapply log_tick; eauto.
Qed.
Lemma with_ind_log i G u q mx ts : goes_well i u q mx ts -> feed_ok G [] (fst (add_indicator (fs0 u q mx) i)) ts ->
  fs_log (only i) G (fst (add_indicator (fs0 u q mx) i)) (log_of i u q mx ts) ts (with_ind i u q mx ts).
Proof.
  intros Hs Hg. unfold with_ind, log_of, goes_well in *. destruct (feedm _ _ _) as [[l f] r] eqn:E. cbn [fst snd] in *. subst r.
  apply (feedm_log (only i) G _ ts [] [] _ l f (log_start _ _ _) Hg E).
Qed.
Lemma feed_ok_any rs fs ts : feed_ok any_step rs fs ts.
Proof. revert rs fs. induction ts as [|[t mo] ts IH]; intros rs fs; cbn [feed_ok]; [auto|]. split; [exact Logic.I|apply IH]. Qed.

(** One tick per minute from 2020-02-29 13:47:11 UTC on, values in cents. *)
Fixpoint minutes (w : Z) (vs : list Z) : list (tick Q * bool) :=
  match vs with
  | [] => []
  | v :: vs' => (tk_at tz_UTC w v, true) :: minutes (w + US_MIN) vs'
  end.
Definition frame_at (fs : fset Q) (k : nat) : frame Q := nth k (fs_heap fs) (frame_new (tk_at tz_UTC 0 0) (arrow_of_wall tz_UTC 0) None None).
Definition blank : ivalue Q := {| iv_ref := ""; iv_mopen := false; iv_first := tk_at tz_UTC 0 0; iv_high := tk_at tz_UTC 0 0; iv_low := tk_at tz_UTC 0 0; iv_last := tk_at tz_UTC 0 0; iv_data := DSMA [] |}.
Definition val (fs : fset Q) (ref : string) (k : nat) : ivalue Q := match value_at fs ref k with Some iv => iv | None => blank end.
Definition ticks4 (iv : ivalue Q) : Q * Q * Q * Q := (tk_value (iv_first iv), tk_value (iv_high iv), tk_value (iv_low iv), tk_value (iv_last iv)).
Definition prices (fs : fset Q) (ref : string) (k : nat) : res (Q * Q * Q * Q) :=
  let f := frame_at fs k in let iv := val fs ref k in
  let! o := c_open (fs_heap fs) f iv in let! h := c_high (fs_heap fs) f iv in let! l := c_low (fs_heap fs) f iv in let! c := candle_last iv in Ok (o, h, l, c).

Definition ha : indicator Q := {| in_ref := "ha"; in_mopen := false; in_kind := KCandle true |}.
Definition jp : indicator Q := {| in_ref := "jp"; in_mopen := false; in_kind := KCandle false |}.
Definition jp_open_only : indicator Q := {| in_ref := "jp"; in_mopen := true; in_kind := KCandle false |}.
Definition piv : indicator Q := {| in_ref := "pv"; in_mopen := false; in_kind := KPivot false |}.
Definition olhc : indicator Q := {| in_ref := "pv"; in_mopen := false; in_kind := KPivot true |}.
Definition sma (p : Z) : indicator Q := {| in_ref := "sma"; in_mopen := false; in_kind := KSMA p |}.
Definition sma_open_only (p : Z) : indicator Q := {| in_ref := "sma"; in_mopen := true; in_kind := KSMA p |}.
Definition rsi (p : Z) : indicator Q := {| in_ref := "rsi"; in_mopen := false; in_kind := KRSI p None |}.

Definition more (fs : fset Q) (ts : list (tick Q * bool)) : fset Q := snd (fst (feedm [] fs ts)).
Lemma more_hist (I : indicator Q -> Prop) fs ts : snd (feedm [] fs ts) = Ok () -> fs_hist I no_exn fs (more fs ts).
Proof. intros Hs. unfold more. destruct (feedm _ _ _) as [[l f] r] eqn:E. cbn [fst snd] in *. subst r. eapply feedm_hist; [apply hist_start|exact E]. Qed.

Definition vs_ex : list Z := [1000; 1003; 998; 1001; 1010; 1007; 1012; 1013].
(** Values per minute kept in frames of [q] minutes, [mx] frames in memory. *)
Definition run_ex (i : indicator Q) (q mx : Z) : fset Q := with_ind i MINUTE q mx (minutes w_leap vs_ex).
Definition levels (fs : fset Q) (ref : string) (k : nat) : list (res (option Q)) :=
  let f := frame_at fs k in let h := fs_heap fs in let iv := val fs ref k in
  [support3 h f iv; support2 h f iv; support1 h f iv; pivot h f iv; resistance1 h f iv; resistance2 h f iv; resistance3 h f iv].
Definition sma_of (fs : fset Q) (p : Z) (k : nat) : res (option Q) :=
  match iv_data (val fs "sma" k) with DSMA lc => sma_value (frame_at fs k) lc p | _ => Err AttributeError end.
Definition rsi_val (fs : fset Q) (k : nat) : option Q :=
  match iv_data (val fs "rsi" k) with DRSI n lc v => v | _ => None end.
Ltac computes := vm_compute; reflexivity.
Lemma frame_at_lookup fs k : (k < length (fs_heap fs))%nat -> fs_heap fs !! k = Some (frame_at fs k).
Proof. intros Hk. destruct (lookup_lt_is_Some_2 (fs_heap fs) k Hk) as [f E]. rewrite E. unfold frame_at. f_equal. symmetry. now apply nth_lookup_Some. Qed.
Lemma val_value fs ref k : (match value_at fs ref k with Some _ => true | None => false end) = true -> value_at fs ref k = Some (val fs ref k).
Proof. unfold val. now destruct (value_at fs ref k). Qed.

(** ** Witnesses of refutations *)
(** The open of a closed Heikin Ashi candle changes when an older frame is evicted. *)
Lemma ha_unstable : exists i (fs fs' : fset Q) k f f' iv o o', in_kind i = KCandle true /\
  fs_hist (only i) no_exn (fs0 MINUTE 1 3) fs /\ fs_hist (only i) no_exn fs fs' /\
  fs_heap fs !! k = Some f /\ fr_next f <> None /\ fs_heap fs' !! k = Some f' /\ fr_next f' <> None /\
  value_at fs (in_ref i) k = Some iv /\ value_at fs' (in_ref i) k = Some iv /\
  c_open (fs_heap fs) f iv = Ok o /\ c_open (fs_heap fs') f' iv = Ok o' /\ ~ (o == o')%Q.
Proof.
  set (fs := with_ind ha MINUTE 1 3 (minutes w_leap [1000; 1003; 998])).
  set (fs' := more fs (minutes (w_leap + 3 * US_MIN) [1001])).
  exists ha, fs, fs', 1%nat, (frame_at fs 1), (frame_at fs' 1), (val fs "ha" 1).
  exists (10 # 1)%Q, (1003 # 100)%Q.
  split; [reflexivity|]. split; [apply with_ind_hist; computes|]. split; [apply more_hist; computes|].
  split; [apply frame_at_lookup; vm_compute; lia|]. split; [vm_compute; discriminate|]. split; [apply frame_at_lookup; vm_compute; lia|]. split; [vm_compute; discriminate|].
  split; [apply val_value; computes|]. split; [computes|]. split; [computes|]. split; [computes|]. vm_compute. discriminate.
Qed.

(** With a single change per value only the second frame gets a value. *)
Lemma rsi_one : exists i p o (fs : fset Q), in_kind i = KRSI p o /\ p * 1 = 1 /\
  fs_hist (only i) no_exn (fst (add_indicator (fs0 MINUTE 1 5) i)) fs /\ map (rsi_val fs) [0; 1; 2; 3; 4; 5; 6; 7]%nat = [None; Some (100 # 1)%Q; None; None; None; None; None; None].
Proof. exists (rsi 1), 1, None, (run_ex (rsi 1) 1 5). split; [reflexivity|]. split; [reflexivity|]. split; [apply with_ind_hist0; computes|computes]. Qed.
(** With one frame in memory no frame ever gets a value. *)
Lemma rsi_memory : exists i p o (fs : fset Q), in_kind i = KRSI p o /\ 2 <= p * 1 /\
  fs_hist (only i) no_exn (fst (add_indicator (fs0 MINUTE 1 1) i)) fs /\ length (fs_heap fs) = 8%nat /\ map (rsi_val fs) [0; 1; 2; 3; 4; 5; 6; 7]%nat = replicate 8 None.
Proof. exists (rsi 3), 3, None, (run_ex (rsi 3) 1 1). split; [reflexivity|]. split; [lia|]. split; [apply with_ind_hist0; computes|]. split; computes. Qed.
(** With 0 periods every tick is refused and no frame is ever created. *)
Lemma rsi_zero : exists i (fs : fset Q) tk, in_kind i = KRSI 0 None /\ fs = fst (add_indicator (fs0 MINUTE 1 5) i) /\ snd (add_indicator (fs0 MINUTE 1 5) i) = Ok () /\
  fs_on_new_tick 5 fs tk true None = (fs, Err BaseIndicatorException).
Proof.
  exists (rsi 0), (fst (add_indicator (fs0 MINUTE 1 5) (rsi 0))), (tk_at tz_UTC w_leap 1000). split; [reflexivity|]. split; [reflexivity|]. split; computes.
Qed.

(** OLHC pivots: support 1 above the pivot. *)
Lemma olhc_unordered : exists i (fs : fset Q) k f iv p s1, in_kind i = KPivot true /\ fs_hist (only i) no_exn (fs0 MINUTE 2 5) fs /\
  fs_heap fs !! k = Some f /\ value_at fs (in_ref i) k = Some iv /\ pivot (fs_heap fs) f iv = Ok (Some p) /\ support1 (fs_heap fs) f iv = Ok (Some s1) /\ (p < s1)%Q.
Proof.
  set (fs := with_ind olhc MINUTE 2 5 (minutes w_leap [1000; 1100; 1000; 2000; 2100])).
  exists olhc, fs, 1%nat, (frame_at fs 1), (val fs "pv" 1), (41 # 4)%Q, (21 # 2)%Q. split; [reflexivity|]. split; [apply with_ind_hist; computes|].
  split; [apply frame_at_lookup; vm_compute; lia|]. split; [apply val_value; computes|]. split; [computes|]. split; computes.
Qed.

(** A frame created for an empty period at the opening repeats a tick received while the market was closed. *)
Definition ticks_gap : list (tick Q * bool) := [(tk_at tz_UTC w_leap 1000, false); (tk_at tz_UTC (w_leap + US_HOUR) 1010, true)].
Lemma gap_open_refuted : exists i u q mx l rs (fs : fset Q) k iv, in_mopen i = true /\ 1 <= mx /\ check_unit u q = Ok () /\
  fs_log (only i) any_step (fst (add_indicator (fs0 u q mx) i)) l rs fs /\
  value_at fs (in_ref i) k = Some iv /\ (iv_last iv, true) ∉ rs.
Proof.
  set (fs := with_ind jp_open_only MINUTE 15 5 ticks_gap).
  exists jp_open_only, MINUTE, 15, 5, (log_of jp_open_only MINUTE 15 5 ticks_gap), ticks_gap, fs, 1%nat, (val fs "jp" 1). split; [reflexivity|]. split; [lia|]. split; [computes|].
  split; [apply with_ind_log; [computes|apply feed_ok_any]|]. split; [apply val_value; computes|]. intros Hin.
  assert (tk_value (iv_last (val fs "jp" 1)) = 10 # 1)%Q as Hv by computes.
  unfold ticks_gap in Hin. generalize dependent (iv_last (val fs "jp" 1)). intros x Hin Hv. apply elem_of_cons in Hin as [Hin|Hin]; [apply (f_equal snd) in Hin; discriminate Hin|].
  apply elem_of_list_singleton in Hin. apply (f_equal (fun y => tk_value (fst y))) in Hin. cbn [fst] in Hin. rewrite Hv in Hin. vm_compute in Hin. discriminate Hin.
Qed.
(** A moving average restricted to the open market follows the ticks received while it is closed. *)
Lemma sma_open_refuted : exists i mp (rs rs' : list (tick Q * bool)) l l' (fs fs' : fset Q) f f' iv iv' lc lc', in_mopen i = true /\ in_kind i = KSMA mp /\ 1 <= mp /\
  fs_log (only i) any_step (fst (add_indicator (fs0 MINUTE 15 5) i)) l rs fs /\ fs_log (only i) any_step (fst (add_indicator (fs0 MINUTE 15 5) i)) l' rs' fs' /\
  List.filter snd rs = List.filter snd rs' /\ fs_heap fs !! 0%nat = Some f /\ fs_heap fs' !! 0%nat = Some f' /\
  value_at fs (in_ref i) 0 = Some iv /\ value_at fs' (in_ref i) 0 = Some iv' /\ iv_data iv = DSMA lc /\ iv_data iv' = DSMA lc' /\
  sma_value f lc 1 = Ok (Some (20 # 1)%Q) /\ sma_value f' lc' 1 = Ok (Some (30 # 1)%Q).
Proof.
  set (i := sma_open_only 5). set (t0 := (tk_at tz_UTC w_leap 1000, true)). set (rs := [t0; (tk_at tz_UTC (w_leap + US_MIN) 2000, false)]). set (rs' := [t0; (tk_at tz_UTC (w_leap + US_MIN) 3000, false)]).
  set (fs := with_ind i MINUTE 15 5 rs). set (fs' := with_ind i MINUTE 15 5 rs').
  exists i, 5, rs, rs', (log_of i MINUTE 15 5 rs), (log_of i MINUTE 15 5 rs'), fs, fs', (frame_at fs 0), (frame_at fs' 0), (val fs "sma" 0), (val fs' "sma" 0), [], [].
  split; [reflexivity|]. split; [reflexivity|]. split; [lia|]. split; [apply with_ind_log; [computes|apply feed_ok_any]|]. split; [apply with_ind_log; [computes|apply feed_ok_any]|].
  split; [reflexivity|]. split; [apply frame_at_lookup; vm_compute; lia|]. split; [apply frame_at_lookup; vm_compute; lia|]. split; [apply val_value; computes|]. split; [apply val_value; computes|].
  split; [computes|]. split; [computes|]. split; computes.
Qed.
