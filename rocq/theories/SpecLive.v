(** Vocabulary of C67: what a backtest and a live provider have in common, openings that no open position opposes. *)
From Verif Require Export SpecWorld.
Open Scope Z_scope.

Section live.
  Context {F : Type} `{Num F}.
  Implicit Types (w v : world F).

  (** The state without what depends on the kind of the providers: the kinds, the statuses and the progress of request threads. *)
  Definition plain_prov (p : provider) : provider :=
    {| pv_kind := PBase; pv_trades := pv_trades p; pv_threads := (fun th => {| th_job := th_job th; th_done := false |}) <$> pv_threads p |}.
  Definition plain w : world F :=
    {| w_trades := erase_trade <$> w_trades w; w_provs := plain_prov <$> w_provs w; w_strats := w_strats w;
       w_epics := w_epics w; w_fsets := w_fsets w; w_log := w_log w |}.

  (** The call is not the opening of a trade while its strategy has an open trade in the other direction at the provider of the epic,
      nor an opening with a quantity that is not positive. *)
  Definition one_way w (c : cmd F) : Prop :=
    match c with
    | COpen eid d q s _ => 0 < q /\
        forall e p i t, w_epics w !! eid = Some e -> w_provs w !! ep_prov e = Some p -> i ∈ pv_trades p -> w_trades w !! i = Some t ->
          tr_strat t = s -> opened_quantities t <> 0 -> d <> Dir (other (tr_dir t))
    | _ => True
    end.

  (** Two callback bodies, each run from its own state, make the same calls, none against an open position; request threads may
      run anywhere. *)
  Inductive same_orders : world F -> world F -> script F -> script F -> Prop :=
    | so_done w w' : same_orders w w' SDone SDone
    | so_raise w w' e : same_orders w w' (SRaise e) (SRaise e)
    | so_call w w' c k k' v v' r : one_way w c -> run_cmd w c = (v, r) -> fst (run_cmd w' c) = v' ->
        (plain v = plain v' -> same_orders v v' (k v r) (k' v' r)) -> same_orders w w' (SCall c k) (SCall c k')
    | so_left w w' p n k s' : same_orders (run_thread w p n) w' (k (run_thread w p n) (Ok ())) s' -> same_orders w w' (SCall (CRun p n) k) s'
    | so_right w w' p n s k' : same_orders w (run_thread w' p n) s (k' (run_thread w' p n) (Ok ())) -> same_orders w w' s (SCall (CRun p n) k').
  (** The state in which the body of a callback starts. *)
  Definition called w (sid : nat) (cb : callback) (eid : nat) : world F := upd_log w (w_log w ++ [{| ev_strat := sid; ev_cb := cb; ev_epic := eid |}]).
  (** Strategies that decide alike in states that agree up to the kinds of providers, statuses and threads, and never trade
      against their open position. *)
  Definition one_way_programs (P : cmd F -> Prop) (pr pr' : programs F) : Prop :=
    forall sid cb eid w w', reach P w -> plain w = plain w' -> same_orders (called w sid cb eid) (called w' sid cb eid) (pr sid cb eid w) (pr' sid cb eid w').

  (** Main programs that create their providers with other kinds, and otherwise do the same. *)
  Inductive other_kinds (pr : programs F) : world F -> list (op F) -> list (op F) -> Prop :=
    | ok_nil w : other_kinds pr w [] []
    | ok_prov w k k' l l' : other_kinds pr (fst (step pr w (ONewProvider k))) l l' -> other_kinds pr w (ONewProvider k :: l) (ONewProvider k' :: l')
    | ok_op w o l l' : match o with OCmd c => one_way w c | _ => True end -> other_kinds pr (fst (step pr w o)) l l' -> other_kinds pr w (o :: l) (o :: l')
    | ok_left w p n l l' : other_kinds pr (run_thread w p n) l l' -> other_kinds pr w (OCmd (CRun p n) :: l) l'
    | ok_right w p n l l' : other_kinds pr w l l' -> other_kinds pr w l (OCmd (CRun p n) :: l').

  (** Strategies with a fixed direction: every opening of a trade for [s] is in direction [dirs s], with a positive quantity. *)
  Definition directed (dirs : option nat -> dir) (c : cmd F) : Prop :=
    match c with COpen _ d q s _ => 0 < q /\ d = Dir (dirs s) | _ => True end.
  (** The same callback body whatever the statuses, thread progress and kinds of providers. *)
  Inductive same_calls : script F -> script F -> Prop :=
    | sc_done : same_calls SDone SDone
    | sc_raise e : same_calls (SRaise e) (SRaise e)
    | sc_call c k k' : (forall v v' r, plain v = plain v' -> same_calls (k v r) (k' v' r)) -> same_calls (SCall c k) (SCall c k').
  Definition kind_blind (pr : programs F) : Prop := forall sid cb eid w w', plain w = plain w' -> same_calls (pr sid cb eid w) (pr sid cb eid w').
  (** Main programs that differ in the kinds of the providers they create only. *)
  Definition same_but_kinds : list (op F) -> list (op F) -> Prop :=
    Forall2 (fun o o' => match o, o' with ONewProvider _, ONewProvider _ => True | _, _ => o' = o end).
End live.
