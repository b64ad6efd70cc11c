(** Lemmas for statements added after mutation testing (C57, C58, C59). *)
From Coq Require Import QArith.
From Verif Require Import FrameFinalProofs FrameTimeProofs TickProofs SpecTickObjects Navigation Text.
Open Scope Z_scope.

(** The number of ticks shown by a value is the number of ticks received in the period of its frame, 1 when there is none. *)
Lemma nb_ticks_spec {F} `{Num F} u q mx z (ts : list (tick F)) (fs : fset F) i f e :
  1 <= mx -> u <> TICK -> 0 < q -> no_skip z -> comparable ts -> fs_run u q mx ts fs -> in_order z ts ->
  fs_heap fs !! i = Some f -> fr_end f = Some e ->
  iv_nb_ticks f = Z.max 1 (Z.of_nat (length (ticks_in (ar_wall (fr_start f)) (ar_wall e) ts))).
Proof.
  intros H1 H2 H3 H4 H5 H6 H7 H8 H9. destruct (frame_covers u q mx z ts fs i f H1 H2 H3 H4 H5 H6 H7 H8) as (e' & E & [C1 C2]).
  rewrite H9 in E. injection E as <-. unfold iv_nb_ticks. destruct (ticks_in _ _ ts) as [|x l] eqn:El.
  - destruct C2 as (t & _ & _ & _ & _ & _ & ->); auto.
  - destruct C1 as (_ & _ & _ & _ & ->); [discriminate|]. simpl. lia.
Qed.

(** The setters change one field. *)
Lemma setters_spec {F} `{Num F} (t : tick F) a :
  match price_of a with
  | Some x => (exists t', tick_set_ask t a = Ok t' /\ tk_ask t' = x /\ tk_bid t' = tk_bid t /\ tk_dt t' = tk_dt t) /\
              (exists t', tick_set_bid t a = Ok t' /\ tk_bid t' = x /\ tk_ask t' = tk_ask t /\ tk_dt t' = tk_dt t)
  | None => tick_set_ask t a = Err TickException /\ tick_set_bid t a = Err TickException
  end.
Proof. destruct a; simpl; auto; split; eexists; repeat split. Qed.
Lemma set_dt_spec {F} `{Num F} (t : tick F) d :
  match d with
  | DtNaive => tick_set_dt t d = Err TimeException
  | DtAware a => exists t', tick_set_dt t d = Ok t' /\ tk_dt t' = a /\ tk_bid t' = tk_bid t /\ tk_ask t' = tk_ask t
  end.
Proof. destruct d; simpl; auto. eexists; repeat split. Qed.

(** [Tick.asdict]: the prices, their exact difference, and a value between them, for quotes in cents. *)
Lemma dict_prices b (t : tick Q) : (tk_bid t <= tk_ask t)%Q -> cents (tk_bid t) -> cents (tk_ask t) ->
  td_bid (tick_asdict b t) = tk_bid t /\ td_ask (tick_asdict b t) = tk_ask t /\ (td_spread (tick_asdict b t) == tk_ask t - tk_bid t)%Q /\
  (tk_bid t <= td_value (tick_asdict b t) <= tk_ask t)%Q.
Proof. intros H1 H2 H3. split; [reflexivity|]. split; [reflexivity|]. split; [|now apply value_inside]. change (tk_spread t == tk_ask t - tk_bid t)%Q. rewrite q_spread. apply Qround2_fix. now apply cents_sub. Qed.
