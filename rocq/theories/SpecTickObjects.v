(** Programs in which tick objects are shared. *)
From Verif Require Export TickObjects SpecEpic.
Open Scope Z_scope.

Section spec.
  Context {F : Type} `{Num F}.

  (** The operation on values: the tick as it was created. *)
  Definition by_value (ts : list (tick F)) (o : oop F) : op F :=
    match o with
    | OBTick e t => OTick e (nth t ts fake_tick)
    | OBOther o => o
    end.
  (** Only existing tick objects, of the list [ts], are sent, and nothing else is (no tick created on the fly). *)
  Definition uses (ts : list (tick F)) (o : oop F) : Prop :=
    match o with
    | OBTick _ t => (t < length ts)%nat
    | OBOther (OTick _ _) => False
    | OBOther _ => True
    end.
  (** Along the run every tick object goes to epics of one zone only. *)
  Fixpoint one_zone (zone : nat -> tzinfo) (pr : programs F) (s : oworld F) (l : list (oop F)) : Prop :=
    match l with
    | [] => True
    | o :: l' =>
        match o with
        | OBTick eid tid => forall e, w_epics (ow_world s) !! eid = Some e -> ep_tz e = zone tid
        | OBOther _ => True
        end /\ one_zone zone pr (fst (o_step pr s o)) l'
    end.
  (** Same instant and prices. *)
  Definition same_quote (t t' : tick F) : Prop :=
    ar_utc (tk_dt t) = ar_utc (tk_dt t') /\ tk_bid t = tk_bid t' /\ tk_ask t = tk_ask t'.
End spec.

(** The number denoted by a price argument. *)
Definition price_of {F} `{Num F} (a : numarg F) : option F := match a with NInt z => Some (fofZ z) | NFloat x => Some x | NOther => None end.
