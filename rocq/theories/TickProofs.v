From Verif Require Export NumQProofs Tick SpecTick.
Open Scope Q_scope.

Lemma price_set_ok {F} `{Num F} (a : numarg F) p : price_set a = Ok p <-> numeric a p.
Proof.
  split.
  - destruct a; simpl; intros E; inversion E; constructor.
  - intros []; reflexivity.
Qed.

Lemma tick_accepts {F} `{Num F} (d : dtarg) (b a : numarg F) (t : tick F) :
  tick_init d b a = Ok t <->
  exists dt bp ap, d = DtAware dt /\ numeric b bp /\ numeric a ap /\ fltb ap bp = false /\
                   tk_dt t = dt /\ tk_bid t = bp /\ tk_ask t = ap.
Proof.
  split.
  - destruct d as [|dt]; [discriminate|]. unfold tick_init. simpl.
    destruct (price_set a) as [ap|] eqn:Ea; [|discriminate]. simpl.
    destruct (price_set b) as [bp|] eqn:Eb; [|discriminate]. simpl.
    apply price_set_ok in Ea, Eb.
    destruct (fltb ap bp) eqn:E; [discriminate|]. intros [= <-]. exists dt, bp, ap. simpl. auto 10.
  - intros (dt & bp & ap & -> & Hb & Ha & Hlt & <- & <- & <-).
    apply price_set_ok in Ha, Hb. unfold tick_init. simpl. rewrite Ha, Hb. simpl. rewrite Hlt.
    destruct t; reflexivity.
Qed.

Lemma tick_rejects {F} `{Num F} (d : dtarg) (b a : numarg F) e :
  tick_init d b a = Err e ->
  (d = DtNaive /\ e = TimeException) \/
  (exists dt, d = DtAware dt /\ e = TickException /\
     forall bp ap, numeric b bp -> numeric a ap -> fltb ap bp = true).
Proof.
  destruct d as [|dt]; unfold tick_init; simpl.
  - intros [= <-]; auto.
  - intros E. right. exists dt. split; auto.
    destruct a as [z|x|]; simpl in E; destruct b as [z'|x'|]; simpl in E;
      try (injection E as <-; split; [reflexivity|]; intros bp ap Hb Ha; inversion Hb; inversion Ha; fail);
      match type of E with (if ?c then _ else _) = _ => destruct c eqn:Hc end;
      try discriminate; injection E as <-; (split; [reflexivity|]);
      intros bp ap Hb Ha; inversion Hb; inversion Ha; subst; auto.
Qed.

Lemma tick_accepts_Q (d : dtarg) (b a : numarg Q) (t : tick Q) :
  tick_init d b a = Ok t <->
  exists dt bp ap, d = DtAware dt /\ numeric b bp /\ numeric a ap /\ bp <= ap /\
                   tk_dt t = dt /\ tk_bid t = bp /\ tk_ask t = ap.
Proof.
  rewrite tick_accepts. split; intros (dt & bp & ap & H1 & H2 & H3 & H4 & H5); exists dt, bp, ap;
    apply qltb_false in H4; auto 10.
Qed.

Lemma q_spread (t : tick Q) : tk_spread t == Qround2 (tk_ask t - tk_bid t).
Proof. unfold tk_spread. rewrite qr2. now rewrite qsub. Qed.
Lemma q_value (t : tick Q) : tk_value t == Qround2 (tk_bid t + tk_spread t * (1#2)).
Proof.
  unfold tk_value. rewrite qr2, qadd, qdiv, qofZ. apply Qround2_proper.
  change (inject_Z 2) with 2. unfold Qdiv. change (/ 2) with (1#2). reflexivity.
Qed.
Lemma value_cents (t : tick Q) : cents (tk_value t).
Proof. unfold tk_value. rewrite qr2. apply Qround2_cents. Qed.
Lemma spread_cents (t : tick Q) : cents (tk_spread t).
Proof. unfold tk_spread. rewrite qr2. apply Qround2_cents. Qed.

Lemma spread_nonneg (t : tick Q) : tk_bid t <= tk_ask t -> 0 <= tk_spread t.
Proof. intros. rewrite q_spread. apply Qround2_nonneg. lra. Qed.

Lemma value_near_mid (t : tick Q) :
  Qabs (tk_value t - (tk_bid t + tk_ask t) / 2) <= 75 # 10000.
Proof.
  apply Qabs_Qle_condition. unfold Qdiv. change (/ 2) with (1#2).
  pose proof (q_value t). pose proof (Qround2_bounds (tk_bid t + tk_spread t * (1#2))).
  pose proof (q_spread t). pose proof (Qround2_bounds (tk_ask t - tk_bid t)).
  lra.
Qed.

Lemma value_inside (t : tick Q) : tk_bid t <= tk_ask t -> cents (tk_bid t) -> cents (tk_ask t) ->
  tk_bid t <= tk_value t <= tk_ask t.
Proof.
  intros H Hb Ha. pose proof (q_spread t) as Hs.
  rewrite (Qround2_fix (tk_ask t - tk_bid t)) in Hs by now apply cents_sub.
  rewrite q_value. split; [apply Qround2_ge|apply Qround2_le]; auto; lra.
Qed.
