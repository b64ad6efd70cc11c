(** Vocabulary of C56: what the charts of a program are. *)
From Verif Require Export SpecEpic.
Open Scope Z_scope.

Section spec.
  Context {F : Type} `{Num F}.
  (** The epics (last tick, market flag, registrations) and the frame sets (frames, indicator values). *)
  Definition charts (w : world F) : list (epic F) * list (fset F) := (w_epics w, w_fsets w).
  (** The objects trades are about: how many providers, which strategy references. *)
  Definition cast (w : world F) : nat * list string := (length (w_provs w), map st_ref (w_strats w)).
  (** The operations that are not calls to trade, pause or stop. *)
  Definition no_call_op (o : op F) : bool := match o with OCmd _ => false | _ => true end.
  (** What the market state of an epic is computed from. *)
  Definition market (e : epic F) := (ep_tz e, ep_open e, ep_close e, ep_days e, ep_holidays e, ep_last e, ep_mopen e).
  (** The operations about epic [eid] or its frame set [fid]. *)
  Definition concerns (eid fid : nat) (o : op F) : bool :=
    match o with OTick a _ => Nat.eqb a eid | OAddIndicator f _ => Nat.eqb f fid | _ => false end.
  (** Frame set [fid] and epic [eid] are in the same state in both worlds. *)
  Definition same_chart (eid fid : nat) (w w' : world F) : Prop :=
    w_fsets w !! fid = w_fsets w' !! fid /\ market <$> w_epics w !! eid = market <$> w_epics w' !! eid.
End spec.
