(** Vocabulary of C64 and C65: what belongs to one strategy, programs that only use that, programs that leave it alone. *)
From Verif Require Export SpecWorld.
Open Scope Z_scope.

Section own.
  (** The strategy, the epics it uses (whose provider it trades with, whose ticks it is told) and the frame sets it looks at. *)
  Context {F : Type} `{Num F} (sid : nat) (ine inf : nat -> bool).
  Implicit Types (w v : world F).

  (** The ids of the trades of the strategy, in opening order. *)
  Definition own_ids w : list nat := match w_strats w !! sid with Some s => st_trades s | None => [] end.
  (** What a strategy can call its own, and its market: its trades (without ids and without the statuses the request
      threads set), its pause and stop flags, the calls of its callbacks; its epics, its frame sets with their
      indicators.  Of the rest the wiring only: what is registered where (other epics without their last tick and market
      flag, names of other frame sets), the kinds of the providers, the names and epics of all strategies. *)
  Record own_view := {
    o_trades : list (option (trade F)); o_flags : option (option arrow * bool); o_calls : list event;
    o_epics : list (epic F); o_fsets : list (fset F + string); o_kinds : list pkind; o_strats : list (string * dict nat) }.
  Definition own w : own_view :=
    {| o_trades := (fun i => erase_trade <$> w_trades w !! i) <$> own_ids w;
       o_flags := (fun s => (st_paused s, st_stopped s)) <$> w_strats w !! sid;
       o_calls := List.filter (fun e => ev_strat e =? sid)%nat (w_log w);
       o_epics := imap (fun i e => if ine i then e else ep_set_last e fake_tick false) (w_epics w);
       o_fsets := imap (fun i fs => if inf i then inl fs else inr (fs_ref fs)) (w_fsets w);
       o_kinds := pv_kind <$> w_provs w;
       o_strats := (fun s => (st_ref s, st_epics s)) <$> w_strats w |}.

  (** The wiring respects this division: the frame sets of its epics are its frame sets, last attached to its epics;
      the other epics do not run it and have other providers and other frame sets; its trades are on its epics. *)
  Record wired w : Prop := {
    wired_fsets : forall e ep x, w_epics w !! e = Some ep -> x ∈ ep_fsets ep -> inf x.2 = ine e;
    wired_epic : forall f fs i, w_fsets w !! f = Some fs -> inf f = true -> fs_epic fs = Some i -> ine i = true;
    wired_strats : forall e ep x, w_epics w !! e = Some ep -> x ∈ ep_strats ep -> x.2 = sid -> ine e = true;
    wired_provs : forall e ep e' ep', w_epics w !! e = Some ep -> w_epics w !! e' = Some ep' -> ep_prov ep = ep_prov ep' -> ine e = ine e';
    wired_trades : forall i t, i ∈ own_ids w -> w_trades w !! i = Some t -> ine (tr_epic t) = true }.

  (** The trades [i] and [i'] are the same trade of the strategy in the two states (the k-th it opened). *)
  Definition twins w w' (i i' : nat) : Prop := exists k, own_ids w !! k = Some i /\ own_ids w' !! k = Some i'.
  (** The same call of the strategy, about its own trades, in two states. *)
  Inductive same_call w w' : cmd F -> cmd F -> Prop :=
    | same_open e d q ref : ine e = true -> same_call w w' (COpen e d q (Some sid) ref) (COpen e d q (Some sid) ref)
    | same_close i i' q ref : twins w w' i i' -> same_call w w' (CClose i q ref) (CClose i' q ref)
    | same_epic_close e i i' q ref : ine e = true -> twins w w' i i' -> same_call w w' (CEpicClose e i q ref) (CEpicClose e i' q ref)
    | same_close_all q ref : same_call w w' (CCloseAll sid q ref) (CCloseAll sid q ref)
    | same_update i i' (x : F) : twins w w' i i' -> same_call w w' (CTradeUpdate i x) (CTradeUpdate i' x)
    | same_update_epic i i' : twins w w' i i' -> same_call w w' (CTradeUpdateEpic i) (CTradeUpdateEpic i')
    | same_trade_close i i' (x : F) d q ref : twins w w' i i' -> same_call w w' (CTradeClose i x d q ref) (CTradeClose i' x d q ref)
    | same_trade_close_epic i i' q ref : twins w w' i i' -> same_call w w' (CTradeCloseEpic i q ref) (CTradeCloseEpic i' q ref)
    | same_pause u : same_call w w' (CPause sid u) (CPause sid u)
    | same_stop b : same_call w w' (CStop sid b) (CStop sid b).
  (** A call that is not about the strategy, nor about one of its trades. *)
  Definition elsewhere w (c : cmd F) : Prop :=
    match c with
    | COpen _ _ _ s _ => s <> Some sid
    | CClose i _ _ | CEpicClose _ i _ _ | CTradeUpdate i _ | CTradeUpdateEpic i | CTradeClose i _ _ _ _ | CTradeCloseEpic i _ _ => i ∉ own_ids w
    | CCloseAll s _ _ | CPause s _ | CStop s _ => s <> sid
    | CRun _ _ => True
    end.

  (** Two callback bodies, each run from its own state, make the same calls and end alike. *)
  Inductive same_script : world F -> world F -> script F -> script F -> Prop :=
    | same_done w w' : same_script w w' SDone SDone
    | same_raise w w' e : same_script w w' (SRaise e) (SRaise e)
    | same_scall w w' c c' k k' v v' r : same_call w w' c c' -> run_cmd w c = (v, r) -> fst (run_cmd w' c') = v' ->
        (own v = own v' -> same_script v v' (k v r) (k' v' r)) -> same_script w w' (SCall c k) (SCall c' k').
  (** A callback body that, run from this state, makes calls elsewhere only and does not raise. *)
  Fixpoint keeps_off w (s : script F) : Prop :=
    match s with
    | SDone => True
    | SRaise _ => False
    | SCall c k => elsewhere w c /\ let '(v, r) := run_cmd w c in keeps_off v (k v r)
    end.
  (** The state in which the body of a callback starts. *)
  Definition calling w (s : nat) (cb : callback) (eid : nat) : world F := upd_log w (w_log w ++ [{| ev_strat := s; ev_cb := cb; ev_epic := eid |}]).
  (** The strategy decides on what it owns and on its market only: in any two states that agree on them, the same calls. *)
  Definition own_program (f g : callback -> nat -> world F -> script F) : Prop :=
    forall cb eid w w', ine eid = true -> reach any_call w -> reach any_call w' -> wired w -> own w = own w' -> same_script (calling w sid cb eid) (calling w' sid cb eid) (f cb eid w) (g cb eid w').
  Definition others_keep_off (pr : programs F) : Prop :=
    forall s cb eid w, s <> sid -> reach any_call w -> keeps_off (calling w s cb eid) (pr s cb eid w).

  (** Main programs: the same ticks of its epics and calls on behalf of the strategy (and, when nothing is left out, the same
      creations and registrations); ticks of other epics, calls on behalf of others and request threads are free. *)
  Definition own_main (c : cmd F) : Prop :=
    match c with COpen e _ _ s _ => s = Some sid /\ ine e = true | CCloseAll s _ _ | CPause s _ | CStop s _ => s = sid | _ => False end.
  Definition other_main (c : cmd F) : Prop :=
    match c with COpen _ _ _ s _ => s <> Some sid | CCloseAll s _ _ | CPause s _ | CStop s _ => s <> sid | CRun _ _ => True | _ => False end.
  Definition own_op (o : op F) : Prop :=
    match o with OTick e _ => ine e = true | OCmd c => own_main c | _ => forall i, ine i = true /\ inf i = true end.
  Definition other_op (o : op F) : Prop := match o with OTick e _ => ine e = false | OCmd c => other_main c | _ => False end.
  Inductive same_main : list (op F) -> list (op F) -> Prop :=
    | sm_nil : same_main [] []
    | sm_own o l l' : own_op o -> same_main l l' -> same_main (o :: l) (o :: l')
    | sm_left o l l' : other_op o -> same_main l l' -> same_main (o :: l) l'
    | sm_right o l l' : other_op o -> same_main l l' -> same_main l (o :: l').

  (** The main program without the ticks of the other epics. *)
  Definition own_ticks (l : list (op F)) : list (op F) := List.filter (fun o => match o with OTick e _ => ine e | _ => true end) l.
  (** The programs in which the other strategies do nothing. *)
  Definition alone (pr : programs F) : programs F := fun s cb eid w => if decide (s = sid) then pr s cb eid w else SDone.
End own.
Arguments own_view F : clear implicits.
(** All epics and frame sets. *)
Definition everything : nat -> bool := fun _ => true.
