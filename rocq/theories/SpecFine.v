(** Vocabulary of C71: charts made of the built-in indicators, on dates far enough from the ends of the calendar. *)
From Verif Require Export SpecBlind SpecTimeframe.
Open Scope Z_scope.

(** The four classes of indicators the package comes with. *)
Inductive chart_class := Candles | Pivots | Averages | Strength.

Section fine.
  Context {F : Type} `{Num F}.
  Definition class_of (k : ikind F) : option chart_class :=
    match k with KCandle _ => Some Candles | KPivot _ => Some Pivots | KSMA _ => Some Averages | KRSI _ _ => Some Strength | KCustom _ _ => None end.
  (** The frame sets keep at least one frame of at least one unit (years: at most [N]); each is given to epics in one time zone only; indicators
      are built-in, those of one frame set with the same reference are of the same class, the periods of an RSI make a number other than 0 of the
      units of its frame set, within [L]; the ticks are dated from the year [N] to the year [9999 - N] in the time zone of the epic, at prices within [T]. *)
  Definition plain_op (N : Z) (zone : nat -> tzinfo) (cls : nat -> string -> chart_class) (T : tick F -> Prop) (L : Z -> Prop) (w : world F) (o : op F) : Prop :=
    match o with
    | ONewFrameSet u q ref m => 1 <= m /\ 1 <= q /\ (u = YEAR -> q <= N)
    | OAddFrameSet e f => forall x, w_epics w !! e = Some x -> ep_tz x = zone f
    | OAddIndicator f i => class_of (in_kind i) = Some (cls f (in_ref i)) /\
        match in_kind i with KRSI p _ => p <> 0 /\ forall fs, w_fsets w !! f = Some fs -> L (p * fs_q fs) | _ => True end
    | OTick e tk => T tk /\ forall x, w_epics w !! e = Some x -> N <= w_year (ar_wall (tk_dt (tick_to (ep_tz x) tk))) <= 9999 - N
    | _ => True
    end.
  Fixpoint plain_charts N zone cls T L (pr : programs F) (w : world F) (l : list (op F)) : Prop :=
    match l with
    | [] => True
    | o :: l' => plain_op N zone cls T L w o /\ plain_charts N zone cls T L pr (fst (step pr w o)) l'
    end.
  (** No restriction. *)
  Definition any_quote (tk : tick F) : Prop := True.
  Definition any_number (n : Z) : Prop := True.
End fine.
