(** What indicators must hold: histories with registrations, per-frame logs of ticks, windows of
    closing values. *)
From Verif Require Export SpecFrames SpecRound SpecEpic.
Open Scope Z_scope.

Section spec.
  Context {F : Type} `{Num F}.
  Implicit Types (fs : fset F) (i : indicator F).

  (** Histories of a frame set from [fs0] on: registrations of indicators satisfying [I], attachments
      to epics, ticks (any market flag, any epic state) such that the tick and the outcome of the
      call satisfy [T]. *)
  Inductive fs_hist (I : indicator F -> Prop) (T : tick F -> res unit -> Prop) (fs0 : fset F) : fset F -> Prop :=
    | hist_start : fs_hist I T fs0 fs0
    | hist_indicator fs i : fs_hist I T fs0 fs -> I i -> fs_hist I T fs0 (fst (add_indicator fs i))
    | hist_epic fs e : fs_hist I T fs0 fs -> fs_hist I T fs0 (fs_set_epic fs e)
    | hist_tick fs fuel tk mo lst fs' r : fs_hist I T fs0 fs -> fs_on_new_tick fuel fs tk mo lst = (fs', r) -> T tk r ->
        fs_hist I T fs0 fs'.
  (** Every registration under the reference of [i] is a registration of [i] itself. *)
  Definition only i : indicator F -> Prop := fun j => in_ref j = in_ref i -> j = i.
  Definition any_ind : indicator F -> Prop := fun _ => True.
  Definition any_tick : tick F -> res unit -> Prop := fun _ _ => True.
  Definition no_exn : tick F -> res unit -> Prop := fun _ r => r = Ok ().

  (** [frame.indicators.get(ref)] of the [k]-th frame ever created. *)
  Definition value_at fs (ref : string) (k : nat) : option (ivalue F) :=
    match fs_heap fs !! k with
    | Some f => match dict_get (fr_inds f) ref with Some (Some iv) => Some iv | _ => None end
    | None => None
    end.
  (** The frames having a value for this reference are the [s]-th and all later ones. *)
  Definition valued_from fs (ref : string) (s : nat) : Prop :=
    forall j, value_at fs ref j <> None <-> (s <= j < length (fs_heap fs))%nat.

  (** Closing values of all frames ever created, the oldest first. *)
  Definition closes fs : list F := map (fun f => tk_value (fr_last f)) (fs_heap fs).
  (** The [p] elements of [l] up to and including number [k]. *)
  Definition window (p k : nat) (l : list F) : list F := drop (S k - p) (take (S k) l).

  (** Ticks of each frame with the market flag at that time.  After a tick the frame set has [n]
      frames: either the tick joined the last one, or it opened the last one and the frames between
      repeat the tick received before. *)
  Definition deal (l : list (list (tick F * bool))) (n : nat) (tk : tick F) (mo : bool) : list (list (tick F * bool)) :=
    match last l with
    | None => [[(tk, mo)]]
    | Some b =>
        if Nat.eqb n (length l) then take (length l - 1) l ++ [b ++ [(tk, mo)]]
        else l ++ replicate (n - length l - 1) (match last b with Some (t, _) => [(t, mo)] | None => [] end) ++ [[(tk, mo)]]
    end.
  (** Histories without exception, with the log of each frame and the ticks received; [G] restricts the
      steps (ticks received before, frame set before, market flag, frame set after). *)
  Inductive fs_log (I : indicator F -> Prop) (G : list (tick F * bool) -> fset F -> bool -> fset F -> Prop) (fs0 : fset F)
      : list (list (tick F * bool)) -> list (tick F * bool) -> fset F -> Prop :=
    | log_start : fs_log I G fs0 [] [] fs0
    | log_indicator l rs fs i : fs_log I G fs0 l rs fs -> I i -> fs_log I G fs0 l rs (fst (add_indicator fs i))
    | log_epic l rs fs e : fs_log I G fs0 l rs fs -> fs_log I G fs0 l rs (fs_set_epic fs e)
    | log_tick l rs fs fuel tk mo lst fs' : fs_log I G fs0 l rs fs -> fs_on_new_tick fuel fs tk mo lst = (fs', Ok ()) -> G rs fs mo fs' ->
        fs_log I G fs0 (deal l (length (fs_heap fs')) tk mo) (rs ++ [(tk, mo)]) fs'.
  Definition any_step : list (tick F * bool) -> fset F -> bool -> fset F -> Prop := fun _ _ _ _ => True.
  (** A tick with the market open creates frames for empty periods only if the previous tick came with
      the market open. *)
  Definition no_gap_at_opening (rs : list (tick F * bool)) fs (mo : bool) fs' : Prop :=
    mo = true -> (S (length (fs_heap fs)) < length (fs_heap fs'))%nat -> exists t, last rs = Some (t, true).

  (** An indicator value summarises a non-empty list of ticks. *)
  Definition isummary (l : list (tick F)) (iv : ivalue F) : Prop :=
    head l = Some (iv_first iv) /\ last l = Some (iv_last iv) /\ earliest_max l (iv_high iv) /\ earliest_min l (iv_low iv).
  (** The ticks of a log an indicator listens to. *)
  Definition heard i (b : list (tick F * bool)) : list (tick F) :=
    map fst (List.filter (fun x => negb (in_mopen i) || snd x) b).
  (** The value of indicator [i] on a frame with log [b]: the summary of the ticks heard. *)
  Definition hears i (b : list (tick F * bool)) (v : option (ivalue F)) : Prop :=
    match v with
    | Some iv => isummary (heard i b) iv
    | None => heard i b = []
    end.

  (** What the code of a user's indicator class sees of a frame whose ticks are [ts], leaving out its own data. *)
  Definition shows (ts : list (tick F)) (v : fview F) : Prop :=
    head ts = Some (v_first v) /\ last ts = Some (v_last v) /\ v_nb v = Z.of_nat (length ts) /\
    (comparable ts -> earliest_max ts (v_high v) /\ earliest_min ts (v_low v)).
  (** What its value class computed on a frame when [__init__] ran at the first tick of the list and [on_new_tick] once for each following
      tick, in order.  [past] is what it sees of the earlier frames, [b0] the ticks of its frame before; the frame itself may also be
      looked up in the frame set, where it still is as before the tick. *)
  Inductive told (make : cmake F) (tell : ctell F) (past : list (fview F)) (b0 : list (tick F * bool)) : list (tick F * bool) -> list F -> Prop :=
    | told_made self own t mo d : (length self <= 1)%nat -> shows (map fst (b0 ++ [(t, mo)])) own -> make (past ++ self) own = Some d -> told make tell past b0 [(t, mo)] d
    | told_tick self own b t mo d d' : told make tell past b0 b d -> (length self <= 1)%nat -> shows (map fst (b0 ++ b ++ [(t, mo)])) own ->
        tell (past ++ self) own t mo d = Some d' -> told make tell past b0 (b ++ [(t, mo)]) d'.
  (** The value of such an indicator on a frame with log [b]. *)
  Definition tells i make tell past (b : list (tick F * bool)) (v : option (ivalue F)) : Prop :=
    match v with
    | Some iv => exists b0 b1 d, b = b0 ++ b1 /\ heard i b0 = [] /\ heard i (take 1 b1) <> [] /\ told make tell past b0 b1 d /\ iv_data iv = DCustom tell d
    | None => heard i b = []
    end.
  (** A log from the first tick the indicator listens to on. *)
  Fixpoint from_heard i (b : list (tick F * bool)) : list (tick F * bool) :=
    match b with
    | [] => []
    | x :: b' => if negb (in_mopen i) || snd x then b else from_heard i b'
    end.
  Definition custom_data (v : option (ivalue F)) : option (list F) :=
    match v with Some iv => match iv_data iv with DCustom _ d => Some d | _ => None end | None => None end.
  (** What it sees of the first [k] frames of logs [l]: their ticks and its data on them, as they are at the end. *)
  Definition earlier (l : list (list (tick F * bool))) (fs : fset F) (ref : string) (k : nat) (past : list (fview F)) : Prop :=
    length past = k /\ forall j v, past !! j = Some v -> exists b, l !! j = Some b /\ shows (map fst b) v /\ v_data v = custom_data (value_at fs ref j).

  (** The value on the closest earlier frame in memory that has one. *)
  Definition previous_value fs (ref : string) (k : nat) (r : option (nat * ivalue F)) : Prop :=
    let oldest := (length (fs_heap fs) - length (fs_frames fs))%nat in
    match r with
    | Some (j, iv) => (oldest <= j < k)%nat /\ value_at fs ref j = Some iv /\
        forall j', (j < j' < k)%nat -> value_at fs ref j' = None
    | None => forall j', (oldest <= j' < k)%nat -> value_at fs ref j' = None
    end.
  (** The levels of a pivot value. *)
  Definition pivot_levels (h : heap F) (f : frame F) (iv : ivalue F) (s3 s2 s1 r1 r2 r3 : option F) : Prop :=
    support3 h f iv = Ok s3 /\ support2 h f iv = Ok s2 /\ support1 h f iv = Ok s1 /\
    resistance1 h f iv = Ok r1 /\ resistance2 h f iv = Ok r2 /\ resistance3 h f iv = Ok r3.
End spec.

(** Over exact arithmetic. *)
Definition mean (l : list Q) : Q := (sum_of l / inject_Z (Z.of_nat (length l)))%Q.
Fixpoint changes (l : list Q) : list Q :=
  match l with
  | a :: ((b :: _) as l') => (b - a)%Q :: changes l'
  | _ => []
  end.
(** [v] is the relative strength index of these closing values. *)
Definition rsi_of (cl : list Q) (v : Q) : Prop :=
  let g := gains (changes cl) in
  let l := losses (changes cl) in
  ((l == 0 -> v == 100) /\ (0 < l -> g == 0 -> v == 0) /\
   (0 < l -> 0 < g -> round_cent (100 - 100 / (1 + g / l)) v))%Q.
