(** Vocabulary of C74: the same program at other dates. *)
From Verif Require Export SpecBlind SpecFine.
Open Scope Z_scope.

(** Spans of time, in microseconds.  400 years of the calendar are 146097 days, a whole number of weeks. *)
Definition whole_weeks (d : Z) : Prop := exists k, d = k * (7 * US_DAY).
Definition whole_eras (d k : Z) : Prop := d = k * (146097 * US_DAY).
(** Moving by [d] takes the periods of this unit to one another: weeks for all units up to WEEK, 400 years for months and years, and so many
    of them that periods of [q] years fall on one another. *)
Definition unit_moves (d : Z) (u : unit_) (q : Z) : Prop :=
  match u with MONTH => exists k, whole_eras d k | YEAR => exists k, whole_eras d k /\ (q | 400 * k) | _ => True end.

(** The time zone [z'] does [d] later what [z] does. *)
Record zone_moved (d : Z) (z z' : tzinfo) : Prop := {
  zm_id : tz_id z' = tz_id z; zm_wall : forall u, tz_wall z' (u + d) = tz_wall z u + d;
  zm_utc : forall x, tz_utc z' (x + d) = tz_utc z x + d; zm_resolve : forall x, tz_resolve z' (x + d) = tz_resolve z x + d }.
Record date_moved (d : Z) (a a' : arrow) : Prop := {
  dm_utc : ar_utc a' = ar_utc a + d; dm_wall : ar_wall a' = ar_wall a + d; dm_tz : zone_moved d (ar_tz a) (ar_tz a') }.
Inductive opt_moved {A} (R : A -> A -> Prop) : option A -> option A -> Prop :=
  | om_none : opt_moved R None None
  | om_some x y : R x y -> opt_moved R (Some x) (Some y).
(** 2 January 1900 at 00:00: the day after the date of the tick an epic starts with. *)
Definition day_one : Z := -2208988800000000 + 24 * 3600 * 1000000.
(** Both the instant and the same instant [d] later are after that, in UTC and on the clock of [z]. *)
Definition recent (d : Z) (z : tzinfo) (u : Z) : Prop := day_one <= u /\ day_one <= u + d /\ day_one <= tz_wall z u /\ day_one <= tz_wall z u + d.

Section moved.
  Context {F : Type} `{Num F}.
  Variable d : Z.

  Record tick_moved (tk tk' : tick F) : Prop := {
    km_dt : date_moved d (tk_dt tk) (tk_dt tk'); km_bid : tk_bid tk' = tk_bid tk; km_ask : tk_ask tk' = tk_ask tk }.
  (** Dates of trades and last ticks of epics: moved, or both those of the tick an epic starts with. *)
  Definition date_rel (a a' : arrow) : Prop := date_moved d a a' \/ a = tk_dt (@fake_tick F _) /\ a' = tk_dt (@fake_tick F _).
  Definition last_rel (tk tk' : tick F) : Prop := tick_moved tk tk' \/ tk = fake_tick /\ tk' = fake_tick.

  (** ** Charts *)
  Record view_moved (v v' : fview F) : Prop := {
    vm_first : tick_moved (v_first v) (v_first v'); vm_high : tick_moved (v_high v) (v_high v'); vm_low : tick_moved (v_low v) (v_low v');
    vm_last : tick_moved (v_last v) (v_last v'); vm_nb : v_nb v' = v_nb v; vm_data : v_data v' = v_data v }.
  (** A class of values written by the user that gives the same values at other dates. *)
  Definition tell_moves (tell : ctell F) : Prop := forall l l' v v' tk tk' mo x, Forall2 view_moved l l' -> view_moved v v' -> tick_moved tk tk' -> tell l' v' tk' mo x = tell l v tk mo x.
  Definition make_moves (make : cmake F) : Prop := forall l l' v v', Forall2 view_moved l l' -> view_moved v v' -> make l' v' = make l v.
  Definition kind_moves (k : ikind F) : Prop := match k with KCustom make tell => make_moves make /\ tell_moves tell | _ => True end.
  Definition data_moves (x : idata F) : Prop := match x with DCustom tell _ => tell_moves tell | _ => True end.
  (** Values of indicators, frames and frame sets: everything but the dates is the same, the dates are moved. *)
  Record value_moved (i i' : ivalue F) : Prop := {
    im_ref : iv_ref i' = iv_ref i; im_mopen : iv_mopen i' = iv_mopen i; im_first : tick_moved (iv_first i) (iv_first i'); im_high : tick_moved (iv_high i) (iv_high i');
    im_low : tick_moved (iv_low i) (iv_low i'); im_last : tick_moved (iv_last i) (iv_last i'); im_data : iv_data i' = iv_data i; im_moves : data_moves (iv_data i) }.
  Record frame_moved (f f' : frame F) : Prop := {
    fm_first : tick_moved (fr_first f) (fr_first f'); fm_high : tick_moved (fr_high f) (fr_high f'); fm_low : tick_moved (fr_low f) (fr_low f'); fm_last : tick_moved (fr_last f) (fr_last f');
    fm_start : date_moved d (fr_start f) (fr_start f'); fm_end : opt_moved (date_moved d) (fr_end f) (fr_end f'); fm_prev : fr_prev f' = fr_prev f; fm_next : fr_next f' = fr_next f;
    fm_nb : fr_nb f' = fr_nb f; fm_inds : Forall2 (fun x y => y.1 = x.1 /\ opt_moved value_moved x.2 y.2) (fr_inds f) (fr_inds f') }.
  Record fset_moved (s s' : fset F) : Prop := {
    sm_ref : fs_ref s' = fs_ref s; sm_unit : fs_unit s' = fs_unit s; sm_q : fs_q s' = fs_q s; sm_max : fs_max s' = fs_max s; sm_epic : fs_epic s' = fs_epic s;
    sm_frames : fs_frames s' = fs_frames s; sm_inds : fs_inds s' = fs_inds s; sm_heap : Forall2 frame_moved (fs_heap s) (fs_heap s');
    sm_moves : unit_moves d (fs_unit s) (fs_q s); sm_kinds : Forall (fun x => kind_moves (in_kind x.2)) (fs_inds s) }.

  (** ** The rest of the state *)
  Record close_moved (c c' : tclose F) : Prop := {
    cm_value : tc_value c' = tc_value c; cm_qty : tc_qty c' = tc_qty c; cm_dt : date_rel (tc_dt c) (tc_dt c'); cm_status : tc_status c' = tc_status c; cm_ref : tc_ref c' = tc_ref c }.
  Record trade_moved (t t' : trade F) : Prop := {
    tm_epic : tr_epic t' = tr_epic t; tm_strat : tr_strat t' = tr_strat t; tm_dir : tr_dir t' = tr_dir t; tm_oq : tr_oq t' = tr_oq t; tm_closes : Forall2 close_moved (tr_closes t) (tr_closes t');
    tm_ov : tr_ov t' = tr_ov t; tm_cv : tr_cv t' = tr_cv t; tm_max : tr_max t' = tr_max t; tm_min : tr_min t' = tr_min t; tm_dt : date_rel (tr_dt t) (tr_dt t');
    tm_status : tr_status t' = tr_status t; tm_ref : tr_ref t' = tr_ref t }.
  Record strategy_moved (s s' : strategy) : Prop := {
    ym_ref : st_ref s' = st_ref s; ym_epics : st_epics s' = st_epics s; ym_paused : opt_moved (date_moved d) (st_paused s) (st_paused s');
    ym_stopped : st_stopped s' = st_stopped s; ym_trades : st_trades s' = st_trades s }.
  Definition days_moved (hs : list Z) : list Z := map (fun x => x + d / US_DAY) hs.
  Record epic_moved (e e' : epic F) : Prop := {
    em_ref : ep_ref e' = ep_ref e; em_tz : zone_moved d (ep_tz e) (ep_tz e'); em_open : ep_open e' = ep_open e; em_close : ep_close e' = ep_close e; em_days : ep_days e' = ep_days e;
    em_holidays : ep_holidays e' = days_moved (ep_holidays e); em_prov : ep_prov e' = ep_prov e; em_last : last_rel (ep_last e) (ep_last e'); em_fsets : ep_fsets e' = ep_fsets e;
    em_strats : ep_strats e' = ep_strats e; em_mopen : ep_mopen e' = ep_mopen e }.
  Record world_moved (w w' : world F) : Prop := {
    wm_trades : Forall2 trade_moved (w_trades w) (w_trades w'); wm_provs : w_provs w' = w_provs w; wm_strats : Forall2 strategy_moved (w_strats w) (w_strats w');
    wm_epics : Forall2 epic_moved (w_epics w) (w_epics w'); wm_fsets : Forall2 fset_moved (w_fsets w) (w_fsets w'); wm_log : w_log w' = w_log w }.

  (** ** Programs *)
  Inductive cmd_moved : cmd F -> cmd F -> Prop :=
    | xm_close t v q ref a a' : date_moved d a a' -> cmd_moved (CTradeClose t v (DtAware a) q ref) (CTradeClose t v (DtAware a') q ref)
    | xm_pause s p p' : opt_moved (date_moved d) p p' -> cmd_moved (CPause s p) (CPause s p')
    | xm_same c : match c with CTradeClose _ _ (DtAware _) _ _ | CPause _ _ => False | _ => True end -> cmd_moved c c.
  (** Strategies that make the same calls, the dates moved, in states that are the same but for the dates. *)
  Definition programs_moved (pr pr' : programs F) : Prop := forall sid cb eid w w', world_moved w w' ->
    alongside world_moved (fun _ => cmd_moved) (at_callback w sid cb eid) (at_callback w' sid cb eid) (pr sid cb eid w) (pr' sid cb eid w').
  (** The same operations: ticks, holidays, pauses and dates of closings moved, time zones that do later what they did. *)
  Inductive op_moved (w : world F) : op F -> op F -> Prop :=
    | pm_tick e tk tk' : tick_moved tk tk' -> (forall x, w_epics w !! e = Some x -> recent d (ep_tz x) (ar_utc (tk_dt tk))) -> op_moved w (OTick e tk) (OTick e tk')
    | pm_cmd c c' : cmd_moved c c' -> op_moved w (OCmd c) (OCmd c')
    | pm_epic ref z z' o c ds hs p : zone_moved d z z' -> op_moved w (ONewEpic ref (Some z) o c ds hs p) (ONewEpic ref (Some z') o c ds (days_moved <$> hs) p)
    | pm_fset u q ref m : unit_moves d u q -> op_moved w (ONewFrameSet u q ref m) (ONewFrameSet u q ref m)
    | pm_ind f i : kind_moves (in_kind i) -> op_moved w (OAddIndicator f i) (OAddIndicator f i)
    | pm_same o : match o with ONewProvider _ | ONewStrategy _ | OAddFrameSet _ _ | OAddStrategy _ _ => True | ONewEpic _ tz _ _ _ _ _ => tz = None | _ => False end -> op_moved w o o.
  Inductive ops_moved (pr : programs F) : world F -> list (op F) -> list (op F) -> Prop :=
    | qm_nil w : ops_moved pr w [] []
    | qm_cons w o o' l l' : op_moved w o o' -> ops_moved pr (fst (step pr w o)) l l' -> ops_moved pr w (o :: l) (o' :: l').
  (** What each operation of a run ends with. *)
  Fixpoint endings (pr : programs F) (w : world F) (l : list (op F)) : list (res unit) :=
    match l with [] => [] | o :: l' => snd (step pr w o) :: endings pr (fst (step pr w o)) l' end.
End moved.
