(** estrade/graph/frame_set.py, estrade/graph/base_indicator.py, estrade/graph/indicators/*.py *)
From Verif Require Export Timeframe Tick.

(** Bounded execution of a Python [while] loop: at most [p] steps of [step], stopping at the
    first [inr].  [inl] is returned when the fuel ran out. *)
Fixpoint ploop {S R} (p : positive) (step : S -> S + R) (s : S) : S + R :=
  match p with
  | xH => step s
  | xO p' => match ploop p' step s with inl s' => ploop p' step s' | inr r => inr r end
  | xI p' =>
      match step s with
      | inl s1 => match ploop p' step s1 with inl s2 => ploop p' step s2 | inr r => inr r end
      | inr r => inr r
      end
  end.

Section frames.
  Context {F : Type} `{Num F}.

  (** What the code of a user's indicator class reads of a frame: its ticks, their number, and the data of this indicator's value on it. *)
  Record fview := { v_first : tick F; v_high : tick F; v_low : tick F; v_last : tick F; v_nb : Z; v_data : option (list F) }.
  (** A class of values written by the user (a subclass of BaseIndicatorValue, base_indicator.py:12-105): what its [__init__] computes from the
      earlier frames and its own one, and what its [on_new_tick] (after calling the inherited one) makes of its data; [None] is an exception. *)
  Definition cmake := list fview -> fview -> option (list F).
  Definition ctell := list fview -> fview -> tick F -> bool -> list F -> option (list F).

  (** Kinds of indicators: CandleSet (candle_set.py:295-322; [ha] = HEIKIN_ASHI), Pivot
      (pivot.py:250-277; [olhc] = OLHC), SimpleMovingAverage (simple_moving_average.py:64-92),
      RSI (rsi.py:98-135; [rsi_periods] is None until [set_frame_set]),
      BaseIndicator with a value class of the user (base_indicator.py:108-178). *)
  Inductive ikind :=
    | KCandle (ha : bool) | KPivot (olhc : bool) | KSMA (max_periods : Z)
    | KRSI (periods : Z) (rsi_periods : option Z)
    | KCustom (make : cmake) (tell : ctell).

  (** base_indicator.py:108-139 *)
  Record indicator := { in_ref : string; in_mopen : bool; in_kind : ikind }.

  (** Class-specific attributes of an indicator value. *)
  Inductive idata :=
    | DCandle (ha : bool) | DPivot (olhc : bool)
    | DSMA (last_closes : list F)
    | DRSI (rsi_periods : Z) (last_changes : list F) (value : option F)
    | DCustom (tell : ctell) (data : list F).

  (** base_indicator.py:28-46; [iv_ref]/[iv_mopen] are [self.indicator.ref] and
      [self.indicator.market_open_only] (never modified by the code). *)
  Record ivalue := {
    iv_ref : string; iv_mopen : bool;
    iv_first : tick F; iv_high : tick F; iv_low : tick F; iv_last : tick F; iv_data : idata }.

  (** frame_set.py:38-69; [fr_prev]/[fr_next] are frame ids. *)
  Record frame := {
    fr_first : tick F; fr_high : tick F; fr_low : tick F; fr_last : tick F;
    fr_start : arrow; fr_end : option arrow; fr_prev : option nat; fr_next : option nat;
    fr_nb : Z; fr_inds : dict (option ivalue) }.

  Definition fr_set_inds (f : frame) (d : dict (option ivalue)) : frame :=
    {| fr_first := fr_first f; fr_high := fr_high f; fr_low := fr_low f; fr_last := fr_last f;
       fr_start := fr_start f; fr_end := fr_end f; fr_prev := fr_prev f; fr_next := fr_next f;
       fr_nb := fr_nb f; fr_inds := d |}.
  Definition fr_set_prev (f : frame) (p : option nat) : frame :=
    {| fr_first := fr_first f; fr_high := fr_high f; fr_low := fr_low f; fr_last := fr_last f;
       fr_start := fr_start f; fr_end := fr_end f; fr_prev := p; fr_next := fr_next f;
       fr_nb := fr_nb f; fr_inds := fr_inds f |}.
  Definition fr_set_next (f : frame) (n : option nat) : frame :=
    {| fr_first := fr_first f; fr_high := fr_high f; fr_low := fr_low f; fr_last := fr_last f;
       fr_start := fr_start f; fr_end := fr_end f; fr_prev := fr_prev f; fr_next := n;
       fr_nb := fr_nb f; fr_inds := fr_inds f |}.

  (** All frame objects ever created by a frame set; the id of a frame is its position. *)
  Local Notation heap := (list frame).

  (** frame_set.py:75-82 *)
  Definition frame_closed (f : frame) : bool := match fr_next f with Some _ => true | None => false end.

  (** base_indicator.py:48-63 [previous]: walk back the previous frames until one has a value
      for this reference.  The fuel is the number of frames. *)
  Fixpoint find_previous (fuel : nat) (h : heap) (ref : string) (f : option nat)
      : res (option (nat * ivalue)) :=
    match f with
    | None => Ok None
    | Some fid =>
        match fuel with
        | O => Err Diverges
        | S fuel' =>
            match h !! fid with
            | None => Err Dangling
            | Some fr =>
                match dict_get (fr_inds fr) ref with
                | Some (Some iv) => Ok (Some (fid, iv))
                | _ => find_previous fuel' h ref (fr_prev fr)
                end
            end
        end
    end.
  Definition previous (h : heap) (fr : frame) (ref : string) : res (option (nat * ivalue)) :=
    find_previous (S (length h)) h ref (fr_prev fr).

  (** simple_moving_average.py:43-46 *)
  Definition extended_closes (fr : frame) (last_closes : list F) : list F :=
    last_closes ++ [tk_value (fr_last fr)].
  (** simple_moving_average.py:48-61 *)
  Definition sma_value (fr : frame) (last_closes : list F) (p : Z) : res (option F) :=
    let ext := extended_closes fr last_closes in
    if Z.of_nat (length ext) <? p then Ok None
    else let! v := fdivr (fsum (py_slice_from ext (- p))) (fofZ p) in Ok (Some (round2 v)).

  (** rsi.py:55-64 *)
  Definition extended_changes (h : heap) (fr : frame) (last_changes : list F) : res (list F) :=
    match fr_prev fr with
    | None => Ok []
    | Some p =>
        match h !! p with
        | None => Err Dangling
        | Some pf => Ok (last_changes ++ [fsub (tk_value (fr_last fr)) (tk_value (fr_last pf))])
        end
    end.
  (** rsi.py:78-87 *)
  Definition build_sums (l : list F) : F * F :=
    fold_left (fun '(p, n) v => if fleb f0 v then (fadd p v, n) else (p, fadd n v)) l (f0, f0).
  (** rsi.py:66-76 *)
  Definition build_rsi (n : Z) (l : list F) : res F :=
    let '(ps, ns) := build_sums l in
    if feqb ns f0 then Ok (fofZ 100)
    else if feqb ps f0 then Ok (fofZ 0)
    else
      let! pa := fdivr ps (fofZ n) in
      let! na := fdivr ns (fofZ n) in
      let! rs := fdivr pa (fabs na) in
      let! d := fdivr (fofZ 100) (fadd (fofZ 1) rs) in
      Ok (round2 (fsub (fofZ 100) d)).
  (** rsi.py:89-91 [_update_rsi]: the new content of [value]. *)
  Definition update_rsi (h : heap) (fr : frame) (n : Z) (last_changes : list F) (old : option F)
      : res (option F) :=
    let! ext := extended_changes h fr last_changes in
    if Z.of_nat (length ext) =? n then let! v := build_rsi n ext in Ok (Some v) else Ok old.

  (** What the code of a user's class sees; also the frames that are no longer in memory, which it may have kept. *)
  Definition view_of (ref : string) (fr : frame) : fview :=
    {| v_first := fr_first fr; v_high := fr_high fr; v_low := fr_low fr; v_last := fr_last fr; v_nb := fr_nb fr;
       v_data := match dict_get (fr_inds fr) ref with
                 | Some (Some iv) => match iv_data iv with DCustom _ d => Some d | _ => None end
                 | _ => None
                 end |}.
  (** Its own frame (its own data is [self]'s). *)
  Definition own_view (fr : frame) : fview :=
    {| v_first := fr_first fr; v_high := fr_high fr; v_low := fr_low fr; v_last := fr_last fr; v_nb := fr_nb fr; v_data := None |}.
  (** The exception raised does not matter: the callers let it through. *)
  Definition user_code {A} (x : option A) : res A := match x with Some a => Ok a | None => Err BaseIndicatorException end.

  (** base_indicator.py:156-178 [build_value_from_frame] and the constructors
      base_indicator.py:28-46, simple_moving_average.py:22-41, rsi.py:23-53. *)
  Definition build_data (h : heap) (fr : frame) (i : indicator) : res idata :=
    match in_kind i with
    | KCandle ha => Ok (DCandle ha)
    | KPivot olhc => Ok (DPivot olhc)
    | KSMA mp =>
        let! prev := previous h fr (in_ref i) in
        let! lc := match prev with
                   | None => Ok []
                   | Some (pid, piv) =>
                       match iv_data piv, h !! pid with
                       | DSMA plc, Some pf => Ok (extended_closes pf plc)
                       | _, _ => Err AttributeError
                       end
                   end in
        Ok (DSMA (py_slice_from lc ((mp - 1) * -1)))
    | KRSI _ rp =>
        match rp with
        | None => Err BaseIndicatorException
        | Some n =>
            if n =? 0 then Err BaseIndicatorException else
            let! prev := previous h fr (in_ref i) in
            let! lc := match prev with
                       | None => Ok []
                       | Some (pid, piv) =>
                           match iv_data piv, h !! pid with
                           | DRSI _ plc _, Some pf => extended_changes h pf plc
                           | _, _ => Err AttributeError
                           end
                       end in
            let lc' := py_slice_from lc ((n - 1) * -1) in
            let! v := update_rsi h fr n lc' None in
            Ok (DRSI n lc' v)
        end
    | KCustom make tell => let! d := user_code (make (map (view_of (in_ref i)) h) (own_view fr)) in Ok (DCustom tell d)
    end.
  Definition build_value (h : heap) (fr : frame) (i : indicator) (mo : bool) : res (option ivalue) :=
    if negb (in_mopen i) || mo then
      let! d := build_data h fr i in
      Ok (Some {| iv_ref := in_ref i; iv_mopen := in_mopen i; iv_first := fr_last fr;
                  iv_high := fr_last fr; iv_low := fr_last fr; iv_last := fr_last fr; iv_data := d |})
    else Ok None.

  (** base_indicator.py:98-105 [BaseIndicatorValue.on_new_tick] *)
  Definition iv_base_tick (iv : ivalue) (tk : tick F) (mo : bool) : ivalue :=
    if negb (iv_mopen iv) || mo then
      {| iv_ref := iv_ref iv; iv_mopen := iv_mopen iv; iv_first := iv_first iv;
         iv_high := if fltb (tk_value (iv_high iv)) (tk_value tk) then tk else iv_high iv;
         iv_low := if fltb (tk_value (iv_high iv)) (tk_value tk) then iv_low iv
                   else if fltb (tk_value tk) (tk_value (iv_low iv)) then tk else iv_low iv;
         iv_last := tk; iv_data := iv_data iv |}
    else iv.
  Definition iv_set_data (iv : ivalue) (d : idata) : ivalue :=
    {| iv_ref := iv_ref iv; iv_mopen := iv_mopen iv; iv_first := iv_first iv; iv_high := iv_high iv;
       iv_low := iv_low iv; iv_last := iv_last iv; iv_data := d |}.
  (** rsi.py:93-95 overrides [on_new_tick] to refresh the value as well. *)
  Definition iv_on_new_tick (h : heap) (fr : frame) (iv : ivalue) (tk : tick F) (mo : bool) : res ivalue :=
    let iv1 := iv_base_tick iv tk mo in
    match iv_data iv1 with
    | DRSI n lc old => let! v := update_rsi h fr n lc old in Ok (iv_set_data iv1 (DRSI n lc v))
    | DCustom tell d =>
        let! d' := user_code (tell (map (view_of (iv_ref iv)) h) (own_view fr) tk mo d) in Ok (iv_set_data iv1 (DCustom tell d'))
    | _ => Ok iv1
    end.

  (** frame_set.py:84-101 [_upsert_indicators] (with [_create_new_indicator_value]); an exception
      stops the loop and keeps what was done. *)
  Fixpoint upsert (h : heap) (fr : frame) (tk : tick F) (mo : bool) (inds : dict indicator)
      : frame * res unit :=
    match inds with
    | [] => (fr, Ok ())
    | (ref, i) :: inds' =>
        match dict_get (fr_inds fr) ref with
        | Some (Some iv) =>
            match iv_on_new_tick h fr iv tk mo with
            | Ok iv' => upsert h (fr_set_inds fr (dict_set (fr_inds fr) ref (Some iv'))) tk mo inds'
            | Err e => (fr, Err e)
            end
        | _ =>
            match build_value h fr i mo with
            | Ok v => upsert h (fr_set_inds fr (dict_set (fr_inds fr) (in_ref i) v)) tk mo inds'
            | Err e => (fr, Err e)
            end
        end
    end.

  (** frame_set.py:56-67: a frame before its indicators are built. *)
  Definition frame_new (tk : tick F) (start : arrow) (end_ : option arrow) (prev : option nat) : frame :=
    {| fr_first := tk; fr_high := tk; fr_low := tk; fr_last := tk; fr_start := start; fr_end := end_;
       fr_prev := prev; fr_next := None; fr_nb := 1; fr_inds := [] |}.

  (** frame_set.py:114-121: the tick-level part of [Frame.on_new_tick]. *)
  Definition frame_tick (f : frame) (tk : tick F) : frame :=
    {| fr_first := fr_first f;
       fr_high := if fltb (tk_value (fr_high f)) (tk_value tk) then tk else fr_high f;
       fr_low := if fltb (tk_value (fr_high f)) (tk_value tk) then fr_low f
                 else if fltb (tk_value tk) (tk_value (fr_low f)) then tk else fr_low f;
       fr_last := tk; fr_start := fr_start f; fr_end := fr_end f; fr_prev := fr_prev f;
       fr_next := fr_next f; fr_nb := fr_nb f + 1; fr_inds := fr_inds f |}.
  (** frame_set.py:103-123 *)
  Definition frame_on_new_tick (h : heap) (f : frame) (tk : tick F) (mo : bool) (inds : dict indicator)
      : frame * res unit := upsert h (frame_tick f tk) tk mo inds.

  (** frame_set.py:148-176 *)
  Record fset := {
    fs_ref : string; fs_unit : unit_; fs_q : Z; fs_max : Z; fs_epic : option nat;
    fs_heap : heap; fs_frames : list nat; fs_inds : dict indicator }.

  Definition fs_set_frames (fs : fset) (h : heap) (l : list nat) : fset :=
    {| fs_ref := fs_ref fs; fs_unit := fs_unit fs; fs_q := fs_q fs; fs_max := fs_max fs;
       fs_epic := fs_epic fs; fs_heap := h; fs_frames := l; fs_inds := fs_inds fs |}.
  Definition fs_set_inds (fs : fset) (d : dict indicator) : fset :=
    {| fs_ref := fs_ref fs; fs_unit := fs_unit fs; fs_q := fs_q fs; fs_max := fs_max fs;
       fs_epic := fs_epic fs; fs_heap := fs_heap fs; fs_frames := fs_frames fs; fs_inds := d |}.
  Definition fs_set_epic (fs : fset) (e : option nat) : fset :=
    {| fs_ref := fs_ref fs; fs_unit := fs_unit fs; fs_q := fs_q fs; fs_max := fs_max fs;
       fs_epic := e; fs_heap := fs_heap fs; fs_frames := fs_frames fs; fs_inds := fs_inds fs |}.

  (** frame_set.py:148-176 with the unit check of timeframe.py:34-50. *)
  Definition fset_init (u : unit_) (q : Z) (ref : string) (max_frames : Z) : res fset :=
    let! _ := check_unit u q in
    Ok {| fs_ref := ref; fs_unit := u; fs_q := q; fs_max := max_frames; fs_epic := None;
          fs_heap := []; fs_frames := []; fs_inds := [] |}.

  (** frame_set.py:178-183 [current] *)
  Definition fs_current_id (fs : fset) : option nat := last (fs_frames fs).
  Definition fs_current (fs : fset) : option frame :=
    match fs_current_id fs with Some i => fs_heap fs !! i | None => None end.

  (** frame_set.py:189-191 [add_indicator]; rsi.py:129-135 [set_frame_set] may raise after the
      registration. *)
  Definition add_indicator (fs : fset) (i : indicator) : fset * res unit :=
    match in_kind i with
    | KRSI p _ =>
        let n := p * fs_q fs in
        let i' := {| in_ref := in_ref i; in_mopen := in_mopen i; in_kind := KRSI p (Some n) |} in
        (fs_set_inds fs (dict_set (fs_inds fs) (in_ref i) i'),
         if fs_max fs <? n then Err BaseIndicatorException else Ok ())
    | _ => (fs_set_inds fs (dict_set (fs_inds fs) (in_ref i) i), Ok ())
    end.

  (** frame_set.py:193-200 [clean_old_frames]; [self.frames[1]] raises IndexError when fewer than
      two frames are left (max_frames_in_memory < 1). *)
  Fixpoint clean_old_frames (mx : Z) (h : heap) (l : list nat) : heap * list nat * res unit :=
    if Z.of_nat (length l) <=? mx then (h, l, Ok ()) else
    match l with
    | f0 :: (f1 :: _) as tl =>
        clean_old_frames mx
          (alter (fun f => fr_set_next f None) f0 (alter (fun f => fr_set_prev f None) f1 h)) tl
    | _ => (h, l, Err IndexError)
    end.

  (** frame_set.py:202-219 [create_new_frame]; [mo] is [epic_market_open] (lines 185-187). *)
  Definition create_new_frame (fs : fset) (tk : tick F) (start : arrow) (end_ : option arrow) (mo : bool)
      : fset * res unit :=
    let prev := fs_current_id fs in
    let '(fr, r) := upsert (fs_heap fs) (frame_new tk start end_ prev) tk mo (fs_inds fs) in
    match r with
    | Err e => (fs, Err e)
    | Ok _ =>
        let fid := length (fs_heap fs) in
        let h1 := match prev with
                  | Some c => alter (fun f => fr_set_next f (Some fid)) c (fs_heap fs)
                  | None => fs_heap fs
                  end in
        let '(h2, l2, r2) := clean_old_frames (fs_max fs) (h1 ++ [fr]) (fs_frames fs ++ [fid]) in
        (fs_set_frames fs h2 l2, r2)
    end.

  (** frame_set.py:225-230: one iteration of the gap-filling loop; [inr] is the end of the loop. *)
  Definition fill_step (start : arrow) (mo : bool) (fs : fset) : fset + fset * res unit :=
    match fs_current fs with
    | None => inr (fs, Ok ())
    | Some cur =>
        match fr_end cur with
        | None => inr (fs, Err AttributeError)
        | Some e =>
            if arrow_ltb e start then
              match get_frame_end (fs_unit fs) (fs_q fs) e with
              | Err x => inr (fs, Err x)
              | Ok e' =>
                  match create_new_frame fs (fr_last cur) e (Some e') mo with
                  | (fs', Ok _) => inl fs'
                  | (fs', Err x) => inr (fs', Err x)
                  end
              end
            else inr (fs, Ok ())
        end
    end.

  (** frame_set.py:221-232 [_create_new_frame_timed] *)
  Definition create_new_frame_timed (fuel : positive) (fs : fset) (tk : tick F) (mo : bool) : fset * res unit :=
    match get_frame_start (fs_unit fs) (fs_q fs) (tk_dt tk) with
    | Err e => (fs, Err e)
    | Ok start =>
        match get_frame_end (fs_unit fs) (fs_q fs) start with
        | Err e => (fs, Err e)
        | Ok end_ =>
            match ploop fuel (fill_step start mo) fs with
            | inl fs' => (fs', Err Diverges)
            | inr (fs', Err e) => (fs', Err e)
            | inr (fs', Ok _) => create_new_frame fs' tk start (Some end_) mo
            end
        end
    end.

  (** frame_set.py:234-241 [_create_new_frame_tick] *)
  Definition create_new_frame_tick (fs : fset) (tk : tick F) (mo : bool) : fset * res unit :=
    create_new_frame fs tk (tk_dt tk) None mo.

  (** frame_set.py:243-246 [is_frame_over_timed] *)
  Definition is_frame_over_timed (fs : fset) (tk : tick F) : bool :=
    match fs_current fs with
    | None => true
    | Some cur => match fr_end cur with
                  | Some e => arrow_geb (tk_dt tk) e
                  | None => true        (* no period end: does not occur on timed units *)
                  end
    end.
  (** frame_set.py:248-256 [is_frame_over_tick]; [epic_last] is the datetime of the epic's last
      tick, [None] when the frame set has no epic. *)
  Definition is_frame_over_tick (fs : fset) (tk : tick F) (epic_last : option arrow) : bool :=
    match fs_current fs with
    | None => true
    | Some cur =>
        (fs_q fs <=? fr_nb cur)
        || match epic_last with
           | None => true
           | Some l => arrow_date l <? arrow_date (tk_dt tk)
           end
    end.

  (** frame_set.py:258-260 [add_tick_to_last] *)
  Definition add_tick_to_last (fs : fset) (tk : tick F) (mo : bool) : fset * res unit :=
    match fs_current_id fs with
    | None => (fs, Ok ())
    | Some i =>
        match fs_heap fs !! i with
        | None => (fs, Err Dangling)
        | Some cur =>
            let '(fr, r) := frame_on_new_tick (fs_heap fs) cur tk mo (fs_inds fs) in
            (fs_set_frames fs (<[i := fr]> (fs_heap fs)) (fs_frames fs), r)
        end
    end.

  (** frame_set.py:262-279 [FrameSet.on_new_tick] with the dispatch of lines 167-171. *)
  Definition fs_on_new_tick (fuel : positive) (fs : fset) (tk : tick F) (mo : bool)
      (epic_last : option arrow) : fset * res unit :=
    match fs_unit fs with
    | TICK =>
        if is_frame_over_tick fs tk epic_last then create_new_frame_tick fs tk mo
        else add_tick_to_last fs tk mo
    | _ =>
        if is_frame_over_timed fs tk then create_new_frame_timed fuel fs tk mo
        else add_tick_to_last fs tk mo
    end.

  (** Fuel that covers every gap the loop can have to fill (each frame is at least a second long);
      used when the frame set is driven by an epic. *)
  Definition gap_fuel (fs : fset) (tk : tick F) : positive :=
    match fs_current fs with
    | Some cur =>
        match fr_end cur with
        | Some e => Z.to_pos ((ar_wall (tk_dt tk) - ar_wall e) / US_SEC + 2)
        | None => 1%positive
        end
    | None => 1%positive
    end.

  (** frame_set.py:281-286 [__getitem__] *)
  Definition fs_getitem (fs : fset) (i : Z) : option nat := py_index (fs_frames fs) i.

  (** *** Candles: candle_set.py *)
  (** JapaneseCandle, candle_set.py:161-214 *)
  Definition jp_open (iv : ivalue) : F := round2 (tk_value (iv_first iv)).
  Definition jp_high (iv : ivalue) : F := round2 (tk_value (iv_high iv)).
  Definition jp_low (iv : ivalue) : F := round2 (tk_value (iv_low iv)).
  Definition jp_last (iv : ivalue) : F := round2 (tk_value (iv_last iv)).
  (** HeikinAshiCandle.last, candle_set.py:260-277 *)
  Definition ha_last (iv : ivalue) : F :=
    round2 (fdiv (fadd (fadd (fadd (tk_value (iv_first iv)) (tk_value (iv_high iv)))
                             (tk_value (iv_low iv))) (tk_value (iv_last iv))) (fofZ 4)).
  Definition candle_last (iv : ivalue) : res F :=
    match iv_data iv with
    | DCandle true => Ok (ha_last iv)
    | DCandle false => Ok (jp_last iv)
    | _ => Err AttributeError
    end.
  (** HeikinAshiCandle.open, candle_set.py:226-238 (JapaneseCandle.open: 161-169).  The fuel is the
      number of frames. *)
  Fixpoint candle_open (fuel : nat) (h : heap) (fr : frame) (iv : ivalue) : res F :=
    match iv_data iv with
    | DCandle false => Ok (jp_open iv)
    | DCandle true =>
        match fuel with
        | O => Err Diverges
        | S k =>
            let! p := previous h fr (iv_ref iv) in
            match p with
            | None => Ok (round2 (tk_value (iv_first iv)))
            | Some (pid, piv) =>
                match h !! pid with
                | None => Err Dangling
                | Some pf =>
                    let! po := candle_open k h pf piv in
                    let! pl := candle_last piv in
                    Ok (round2 (fdiv (fadd po pl) (fofZ 2)))
                end
            end
        end
    | _ => Err AttributeError
    end.
  Definition c_open (h : heap) (fr : frame) (iv : ivalue) : res F := candle_open (S (length h)) h fr iv.
  (** candle_set.py:171-179 and 240-248 *)
  Definition c_high (h : heap) (fr : frame) (iv : ivalue) : res F :=
    match iv_data iv with
    | DCandle false => Ok (jp_high iv)
    | DCandle true =>
        let! o := c_open h fr iv in
        Ok (round2 (fmax (fmax o (tk_value (iv_high iv))) (ha_last iv)))
    | _ => Err AttributeError
    end.
  (** candle_set.py:181-189 and 250-258 *)
  Definition c_low (h : heap) (fr : frame) (iv : ivalue) : res F :=
    match iv_data iv with
    | DCandle false => Ok (jp_low iv)
    | DCandle true =>
        let! o := c_open h fr iv in
        Ok (round2 (fmin (fmin o (tk_value (iv_low iv))) (ha_last iv)))
    | _ => Err AttributeError
    end.
  (** candle_set.py:201-214 and 279-292 *)
  Definition c_close (fr : frame) (iv : ivalue) : res (option F) :=
    if frame_closed fr then rmap Some (candle_last iv) else Ok None.

  (** BaseCandle, candle_set.py:50-149, from the four prices. *)
  Inductive color := GREEN | RED | BLACK.
  Definition candle_color (o l : F) : option color :=                               (* candle_set.py:50-65 *)
    if negb (ftruthy o) || negb (ftruthy l) then None
    else if fltb o l then Some GREEN else if fltb l o then Some RED else Some BLACK.
  Definition candle_height (hi lo : F) : F := fsub hi lo.                            (* candle_set.py:67-84 *)
  Definition candle_body (o l : F) : option F :=                                     (* candle_set.py:86-106 *)
    if negb (ftruthy o) || negb (ftruthy l) then None else Some (round2 (fabs (fsub o l))).
  Definition candle_head (o hi l : F) : option F :=                                  (* candle_set.py:108-127 *)
    if negb (ftruthy o) || negb (ftruthy l) then None else Some (round2 (fsub hi (fmax o l))).
  Definition candle_tail (o lo l : F) : option F :=                                  (* candle_set.py:129-149 *)
    if negb (ftruthy o) || negb (ftruthy l) then None else Some (round2 (fsub (fmin o l) lo)).

  (** *** Pivots: pivot.py *)
  (** pivot.py:90-109, 221-241 (classic; OLHC), with the previous value. *)
  Definition pivot_with_prev (h : heap) (fr : frame) (iv : ivalue) : res (option (F * ivalue)) :=
    let! p := previous h fr (iv_ref iv) in
    match p with
    | None => Ok None
    | Some (_, pv) =>
        match iv_data iv with
        | DPivot false =>
            Ok (Some (round2 (fdiv (fadd (fadd (tk_value (iv_high pv)) (tk_value (iv_low pv)))
                                         (tk_value (iv_last pv))) (fofZ 3)), pv))
        | DPivot true =>
            Ok (Some (round2 (fdiv (fadd (fadd (fadd (tk_value (iv_high pv)) (tk_value (iv_low pv)))
                                               (tk_value (iv_last pv))) (tk_value (iv_first iv)))
                                   (fofZ 4)), pv))
        | _ => Err AttributeError
        end
    end.
  Definition pivot (h : heap) (fr : frame) (iv : ivalue) : res (option F) :=
    rmap (option_map fst) (pivot_with_prev h fr iv).
  (** [pivot = self.pivot; if pivot: return round(..., 2)]; a pivot equal to 0 is falsy. *)
  Definition pivot_level (f : F -> F -> F -> F) (h : heap) (fr : frame) (iv : ivalue) : res (option F) :=
    let! r := pivot_with_prev h fr iv in
    match r with
    | Some (p, pv) =>
        if ftruthy p then Ok (Some (round2 (f p (tk_value (iv_high pv)) (tk_value (iv_low pv))))) else Ok None
    | None => Ok None
    end.
  Definition support1 := pivot_level (fun p hi lo => fsub (fmul p (fofZ 2)) hi).              (* pivot.py:111-122 *)
  Definition support2 := pivot_level (fun p hi lo => fsub p (fsub hi lo)).                    (* pivot.py:124-142 *)
  Definition support3 := pivot_level (fun p hi lo => fsub lo (fmul (fsub hi p) (fofZ 2))).    (* pivot.py:144-159 *)
  Definition resistance1 := pivot_level (fun p hi lo => fsub (fmul p (fofZ 2)) lo).           (* pivot.py:161-172 *)
  Definition resistance2 := pivot_level (fun p hi lo => fadd p (fsub hi lo)).                 (* pivot.py:174-192 *)
  Definition resistance3 := pivot_level (fun p hi lo => fadd hi (fmul (fsub p lo) (fofZ 2))). (* pivot.py:194-209 *)
End frames.
Arguments frame F : clear implicits.
Arguments ivalue F : clear implicits.
Arguments idata F : clear implicits.
Arguments fset F : clear implicits.
Arguments fview F : clear implicits.
Arguments cmake F : clear implicits.
Arguments ctell F : clear implicits.
Arguments ikind F : clear implicits.
Arguments indicator F : clear implicits.
Notation heap F := (list (frame F)).
