# estrade — formal model and proofs: design

Source: /repo (cimourdain/estrade, v0.2.0, arrow 0.17.0, python-dateutil 2.8.1, Python 3.6-3.8).
Nothing of the project is executed; the tie between model and code is the file:line citation on each
definition (`python3 tools/coverage.py` lists, for every function of /repo/estrade, the lines cited).

## 1. Shape of the model (rocq/theories)

| file | models |
|---|---|
| PyBase.v | exceptions as values, Python indexing/slicing, insertion-ordered dicts, `ref or uuid` (mixins/ref.py) |
| Num.v | class `Num F`: the operations the code uses on `float`; instance `NumQ` (exact rationals, `round(x,2)` half-even) |
| NumFloat.v | instance `NumB64`: IEEE-754 binary64 (Flocq `binary_float 53 1024`), CPython's `round(x,2)` |
| Calendar.v | Python datetime fields of a wall-clock microsecond count, proleptic Gregorian calendar, year 1..9999 range |
| Arrow.v | arrow.Arrow values (instant, wall clock, tzinfo), comparison, `.to`, shift |
| Timeframe.v | mixins/timeframe.py |
| Tick.v | tick.py, mixins/timed.py |
| Trade.v | trade.py |
| Frames.v | graph/frame_set.py, graph/base_indicator.py, graph/indicators/*.py |
| World.v | epic.py, strategy.py, trade_provider.py, tick_provider.py as one state machine |
| Reentrant.v | epic.py:206-259 again, with callbacks that may make any operation (ticks and registrations included) |
| Settings.v | epic.py:75-84, 106-132 assigned after construction; epic.py:206-259 with callbacks that assign |
| Manual.v | trade.py:44-156, trade_provider.py:63-83, 104-117, 147-193 as calls of their own: trades built by hand and handed to providers; epic.py:214-259 with such callbacks |
| Stateful.v | epic.py:206-259 again, with callbacks and a main program (tick_provider.py:45-52) that keep data of their own |
| Navigation.v | graph/base_indicator.py:48-96 (next, nb_ticks, closed) |
| TickObjects.v | epic.py:244 and the setters of tick.py with tick objects in a heap, shared by epics |
| SharedInd.v | frame_set.py:189-191 and `set_frame_set` of base_indicator.py and rsi.py with indicator objects in a heap, shared by frame sets |
| Requests.v | trade_provider.py:44-61, 77-102, 111-117: requests written by users, in threads |
| Preempt.v | trade.py:161-287, trade_provider.py:63-117, 147-193, strategy.py:84-106, epic.py:206-285 one statement at a time, with threads that run between statements |
| Report.v | reporting/csv.py over a map of files |
| Text.v | texts: dates (arrow format, strftime), csv.writer, Tick.asdict, Tick.\_\_str\_\_ |
| Spec*.v | small independent specifications used in statements |
| *Proofs.v, RepeatSim.v, RepeatWorld.v, RepeatLedger.v, RepeatNumbers.v | lemmas |
| *Examples.v | concrete runs used by the non-vacuity examples |
| Prop*.v | the property theorems, each closed by a lemma, with `Print Assumptions` and examples |

Conventions
* **Numbers.** The model is written once against `Num F`. Facts that need no arithmetic law are proved
  for every `F` (hence for Python floats); arithmetic facts are proved for exact rationals; order and accuracy facts
  are proved again on binary64 (PropFloat.v, PropFloatTrade.v, PropFloatIndicators.v).
* **Objects.** Mutable objects (trades, frames, frame sets, strategies, epics, providers) live in list heaps
  indexed by allocation number; attributes holding an object hold its index. Ticks are values.
* **Exceptions** are values (`Err e`); where code mutates before raising, the function returns the mutated
  state together with `Err`.
* **Loops** that are not structurally bounded take binary fuel and return `Err Diverges` when it runs out;
  C37 proves that the fuel given by the model (`gap_fuel`) never runs out for positive quantities.
* **Strategies** (user code) are arbitrary trees of API calls (`script`): every continuation sees the whole state and
  the outcome of the last call, so callbacks can branch, catch exceptions, raise. `programs` gives one script per
  strategy, callback, epic and state.
* **Threads** are pending jobs run by explicit scheduler steps (`CRun`), between operations and inside callbacks, in any order.
* **Time zones** are records of arbitrary functions (UTC->wall, wall->UTC, resolution of imaginary wall times); hypotheses
  on zones are stated in each theorem (`resolves_forward`: skipped times resolve forwards; `no_skip`: no skipped times;
  `aligned`, SpecSkip.v: the skipped times are whole frames, proved for changes of whole hours with seconds, minutes, single hours and for changes
  away from midnight with days and longer).
* **Reachability.** `reach P w` (SpecWorld.v): the states a program whose API calls satisfy `P` goes through, also in the
  middle of a tick. `C15_runs_are_reachable` shows it contains every state of `run`. Frame sets alone: `fs_hist I T fs0 fs`
  (SpecFrames.v), all histories of ticks, indicator registrations, attachments and exceptions;
  `C32_history_of_program` shows every frame set of every program state has such a history.

## 2. Properties: what is modelled and how it is proved

C01 `tick_init`; case analysis, every arithmetic. NaN on binary64 refuted.
C02 rounding lemmas (error 1/200, monotone, fixes cents) over Q; the same with Flocq error bounds on binary64.
C03-C06 Trade.v; induction over call histories (`rtc trade_call`), and for every trade of every reachable world.
C07 invariant over tick histories (`observed`); refutations: explicit close price, float noise. SpecEnvelope.v, EnvelopeProofs.v: each trade of a program is
  a created trade, its quantity possibly reduced by netting, then revalued (`watched`): invariant over `reach`.
C08-C10 Trade.v, computation and rounding lemmas; refutations for price 0.
C11-C15 provider functions; `net_step` refined to a numeric walk (`NettingProofs.v`), ledger invariant over `reach`.
C16 ThreadProofs.v/ScheduleProofs.v: run_thread commutes with everything that does not read statuses (`erase`, `woven`).
C17 `update_open_trades`; shared provider refuted. C18-C20 strategy functions; list induction over the ledger invariant.
C21-C25 `epic_on_new_tick`; invariants over runs, ghost log of callbacks; C25 parametrised by tz.
C26 registration functions, dict lemmas. C27 Python indexing lemma.
C28-C31 Timeframe.v + Calendar.v; the calendar is pinned by an independent "next day" relation (SpecCalendar.v);
the 400-year cycle is swept once by `vm_compute` and lifted to all dates.
C32-C37 Frames.v; invariant of the linked structure over `fs_hist`; refinement to a grouping of the received ticks;
termination by measure. FrameSkipProofs.v, NestSkipProofs.v: the same over the boundaries that exist in a zone with clock changes (C30, C33, C34, C37, C53).
ProgramChartProofs.v: C33-C36 and C57 for programs from the empty state; a frame set no epic lists has received no tick (invariant of `step`).
ProgramNestProofs.v: C33, C34, C37, C53, C54 for such programs in zones with clock changes; `charted` (SpecProgram.v) says what the program does. Strategies may raise in it, frame sets may not (`charts_fine`): PropProgramRaise.v shows this is weaker than "no tick raises" (C33_no_raise_charts), that C71 discharges it for built-in indicators on exact numbers (C71_charted), and a program whose ticks all raise (C34_ex_raising).
ProgramToldProofs.v: the logs of C44 and C62 for such programs (`listening`, SpecTold.v). PeriodLogProofs.v: the log of a timed frame is made of the ticks of its period (`frame_log`); induction on the history, spans of old frames do not change. TickLogProofs.v: frames of ticks, where the logs put end to end are the ticks received.
C38-C44 indicator functions through the refinement of C34; sliding-window lemmas. ProgramHistProofs.v: every frame set of every program started
from nothing has such a history (exceptions included), hence the `_any_program` theorems of C32 and C38-C43 on exact numbers and floats.
FloatAverageProofs.v bounds the rounding errors of means and levels in cents (C41, C43 on binary64); FloatHeikinProofs.v, FloatOlhcProofs.v and FloatRsiValueProofs.v
(relative errors through sums and quotients) do the same for Heikin Ashi candles, OLHC pivots and the value of the RSI (C40, C42, C43).
FloatEnvelopeProofs.v, FloatStrategyProofs.v: results of trades priced in cents are within n/2^21 of the exact amount (n closes), hence C07 and C09
up to 0.002, C10 and C19 exactly, on binary64 (SpecFloatTrade.v); FloatFrozenProofs.v: C06 and C08 on binary64.
C50-C52 Trade.v: simulations between two call histories (`sym_laws`, `shifted`), C51 also on binary64 (FloatMirrorProofs.v).
C53-C54 NestProofs.v: the steps of a frame set on frame contents are deterministic; the ticks split along fine frames.
C45 Report.v over any folder content. C46 pigeonhole. C47-C49 frame conditions on `step`.
C55 Reentrant.v: World.v is the special case (`embed`); one invariant rule for all re-entrant programs, instantiated with `reach` and with
`forward`. C61 Stateful.v: programs with private data; the log of callbacks numbers them, so what the k-th one did can be replayed by a
program without data (StatefulProofs.v). C62 Frames.v (`KCustom`), LogProofs.v: the invariant of C44 extended with what the class was told.
C63 MarketProofs.v: a relation between the trades before and after every stage of a step (`at_last_tick`), and an invariant over `reach` for the dates.
C64 OwnProofs.v, OwnRunProofs.v: a relation between two states (equal `own` views, k-th own trade to k-th own trade), preserved by each stage of a tick, by netting restricted to the own trades of the provider, and by calls elsewhere on either side.
C65 OwnProofs.v, OwnRunProofs.v: the relation of C64 with a set of epics and a set of frame sets of the strategy; the wiring (`wired`) is a function of the view and lasts; a tick of another epic changes nothing in the view.
C66 ProfitProofs.v: C63, C05, C03 and C19 combined into a sum over fills; bounds by an invariant along the run (every trade and close at quotes within the bounds), using that rounding to cents keeps cent bounds.
C67 LiveProofs.v: two-run simulation on states without provider kinds, statuses and thread progress (as C16); an opening that no open trade opposes makes the netting loop the identity; for one-direction strategies an invariant on directions, after close_opened_trades C20 and C15.
C68 Manual.v: World.v is the special case (C68_api). ManualProofs.v: an invariant (ledgers without repetition, quantities, one direction) that does not use the order of ids; a direct induction over the netting loop for a trade that is in no ledger.
C69 SimProofs.v: a simulation between two runs, generic in the relation between prices, quantities, directions and ticks, and insensitive to frame sets; UnitsProofs.v instantiates it with an affine change of prices (over Q).
C70 ChartFreeProofs.v: the simulation of SimProofs.v at equality, for every Num.
C71 FineProofs.v: invariant `fset_fine` (frames in one time zone, values of the class of their indicator, dates within the calendar) kept by every step; FineFloatProofs.v: floats, with the bounds of FloatProofs.v.
C72 HistoryProofs.v: the preorder `remembered` contains every elementary step; induction of ReentrantProofs.v.
C73 Settings.v adds assignments to operations and callbacks; SettingsProofs.v: books (trades, providers, strategies) do not depend on calendar settings, market state or frame sets (`dress_cmd`), so a shadow state in `reach` follows the run.
C74 MovedDates.v: calendar and frame boundaries commute with the shift; MovedFrames.v: indicators, gap filling, frame sets; MovedProofs.v: relation `world_moved` kept by every call, callback, tick and operation; MovedReads.v: what is read is the same.
C75 Requests.v: requests as trees of assignments, calls, return and raise, advanced one at a time by a scheduler; RequestsProofs.v: the invariant of C68 kept by every action and step; RequestsFills.v: amounts over Q, and the providers of World.v as a special case.
C76 RepeatProofs.v: the second delivery finds a frame that already heard the tick and every update is idempotent; RepeatSim.v: frame sets that differ by tick counts only answer ticks alike; RepeatWorld.v, RepeatLedger.v: whole programs, by induction on the repetitions.
C77 SharedInd.v: indicator objects in a heap; simulation: what a frame set reads of a shared object is what its own copy would hold, unless quantities differ.
C78 Preempt.v: the functions of trade.py, trade_provider.py, strategy.py and epic.py one statement at a time, threads after each; every statement commutes with every thread that exists already, so the run is the one of World.v followed by the threads.
C56 ChartProofs.v: two-run simulations. C57 induction over the linked structure of C32.
C58 TickObjects.v: simulation between the programs on shared tick objects and those on values (World.v). C59-C60 Text.v: digits and calendar lemmas; a reader of words and a
reader of CSV texts (SpecText.v) is the inverse of the writer.
Float variants (`*_b64`): C01, C02, C05, C06, C07, C08, C09, C10, C19, C34, C38, C39, C40, C41, C42, C43, C50, C51.

Expressible only in part: C16 (the OS scheduler and the GIL are represented by atomic runs of whole request hooks);
C25 (zones are arbitrary functions, the pytz database is not modelled).

Specifications are kept apart from the model: e.g. C31 uses the last calendar boundary at or before the date, with
boundaries defined by the successor relation on dates; C34 uses a grouping of the list of ticks by frame start;
C41/C42 use the closes of the frames ever created; C11/C12 use a list of numbers walked newest first.

## 3. Findings (each is a `_refuted` theorem with a concrete witness)

| theorem | finding |
|---|---|
| C01_nan_bid_refuted | a NaN bid passes the order check |
| C02_value_between_quotes_refuted | sub-cent quotes: value outside [bid, ask] |
| C04_negative_close_refuted | closing with a negative quantity reopens a closed trade |
| C07_envelope_explicit_close_refuted, C07_envelope_b64_refuted | max_result below result after an explicit price / by float noise |
| C07_netting_refuted | max_result below result after netting reduced the quantity of a new trade |
| C10_zero_quantity_refuted | result_avg of a trade used up by netting: ZeroDivisionError |
| C12_other_epic_refuted | a SELL on one epic closes the BUY held on another epic |
| C34_gap_counts_refuted | gap frames count one tick |
| C50_order_b64_refuted | on floats the order of closes changes the result |
| C52_price_zero_refuted | an initial price of 0 breaks translation invariance |
| C53_gap_frames_refuted, C53_weeks_in_months_refuted | merging gap frames gives wrong coarse frames; weeks do not nest in months |
| C08_price_zero_refuted | a price of 0 is falsy: trade valued at its open price |
| C09_result_kept_b64_refuted | a partial close moves the result by float noise |
| C11_exposure_conserved_refuted | BUY 5, BUY 5, SELL 5 closes both |
| C13_negative_quantity_refuted | a negative close leaves both directions open |
| C17_own_epic_only_refuted | shared provider: another epic's trades revalued at this epic's price |
| C18_two_epics_refuted | only_after stops at the first older trade |
| C19_empty_list_refuted | result([]) is the result of all trades |
| C20_explicit_quantity_refuted | close_opened_trades(quantity) leaves trades open |
| C21_stop_during_tick_refuted | a strategy stopping itself still gets the rest of the tick |
| C22_earlier_utc_refuted, C25_clock_back_refuted | wall-clock comparison at a clock change |
| C24_lost_opening_refuted | an exception in one strategy loses on_market_open for the next ones |
| C26_strategy_epics_refuted | strategy.epics collides for epics of the same reference |
| C27_negative_offset_refuted | get_frame(-1) is the oldest frame |
| C29_year_quantity_refuted | YEAR quantity above the year: ValueError |
| C30_skipped_boundary_refuted, C33_overlap_refuted | overlapping frames at a skipped midnight |
| C33_two_hours_refuted | two-hour frames overlap when 02:00 becomes 03:00 |
| C35_closed_after_eviction_refuted | an evicted frame reports closed = False |
| C35_no_memory_refuted | max_frames_in_memory = 0: IndexError |
| C36_day_split_refuted | TICK frames never split at a day change |
| C37_negative_quantity_refuted | a negative quantity makes gap filling walk back to year 1 |
| C40_stable_refuted | Heikin Ashi open of a closed candle changes on eviction |
| C42_one_period_refuted, C42_one_frame_refuted, C42_no_period_refuted | RSI with 1 change, 1 frame in memory, 0 periods |
| C43_olhc_refuted | OLHC pivots not ordered |
| C44_gap_refuted, C44_sma_refuted | market_open_only values read closed-market ticks |
| C45_same_reference_refuted, C45_same_second_refuted | CSV rows silently dropped when the file exists |
| C49_rsi_registered_refuted | rejected RSI stays registered |
| C55_protocol_refuted, C55_late_opening_refuted | a tick sent from a callback reorders callbacks: market close without open |
| C55_registration_refuted | registering a strategy with the calling epic: RuntimeError, later strategies are not called |
| C57_previous_next_refuted | market_open_only: v.previous.next is None |
| C58_two_zones_refuted, C58_acceptance_refuted | a tick object shared by epics of two zones: the market flag and is_market_open() disagree; other ticks are accepted |
| C59_tick_year_refuted, C59_clock_back_refuted | Tick.asdict does not pad years below 1000; texts of dates do not sort like instants when clocks go back |
| C58_setter_refuted | tick.bid = x can put the bid above the ask |
| C63_closed_again_refuted | closing a closed trade again records a close of quantity 0, dated now, at an old price |
| C64_raise_refuted | a strategy that raises silences the strategies registered after it |
| C65_shared_provider_refuted | a tick of one epic revalues the open trades of the other epics of its provider at its own price |
| C66_early_trade_refuted | a trade opened before the first tick of its epic is booked at price 0 and later earns the whole price |
| C67_against_refuted | a trade against an open position: the backtest closes part of it, a live provider holds both trades; the results differ by the spread |
| C68_twice_refuted, C68_late_refuted, C68_astray_refuted | nothing stops a program from handing a trade to a provider twice (it counts twice), after part of it was closed (closed > opened), or to another provider than its epic's (it is never revalued) |
| C69_profit_factor_refuted, C69_fine_quotes_refuted | profit_factor takes losses below 1 for 1, so it depends on the unit; prices finer than a cent are rounded away: 40 pips give a result of 0 |
| C71_reused_reference_refuted | add_indicator accepts the reference of an indicator of another class whose values are stored already: every later tick of the epic raises AttributeError |
| C72_settled_negative_quantity_refuted | a close with a negative quantity re-opens a closed trade |
| C73_market_state_stale_refuted | `market_open` keeps the state of the last tick when hours, days or holidays are reassigned |
| C73_provider_refuted | after `epic.trade_provider` is assigned, ticks no longer revalue the epic's trades open in the former provider |
| C73_zone_frames_refuted | after `epic.timezone` is assigned, the next daily frame begins inside the previous one |
| C74_days_refuted | the same quotes moved by 5 days fall on a weekend: half the trades of the strategy disappear |
| C74_months_refuted | monthly frames moved by 12 weeks: one frame becomes two |
| C75_envelope_refuted | a fill at a better price than quoted is not seen by max_result: the result of the trade is above its maximum until the next tick |
| C75_refused_refuted | a trade that the broker refused, or whose request failed, stays open, is revalued by ticks and counts in the result of its strategy |
| C75_fill_refuted | a broker reports 2 filled of 5 when 4 are closed already: open quantity -2 and the trade never counts as closed |
| C75_close_fill_refuted | on a provider derived from TradeProviderBacktests, a close made by netting and filled partially leaves the strategy with both directions |
| C76_tick_frames_refuted | a frame set of unit TICK counts a repeated quote: its frames end earlier |
| C76_orders_refuted | a strategy that orders on every tick orders again when the quote is repeated |
| C76_custom_refuted | a user-written indicator may count the repeated quote |
| C77_periods_refuted | an RSI object registered with frame sets of 1 and 5 minutes: the RSI of the first is computed over the periods of the second |
| C77_failed_refuted | a registration of an RSI object that raises has changed the chart that shows it already |
| C77_epic_refuted | indicator.epic of a shared object is not the epic of all the charts that show it |
| C78_watching_refuted | a strategy that reads statuses can reach, when threads run inside its calls, a state it reaches under no later schedule |
| C56_raising_indicator_refuted | an indicator that raises stops the frame sets registered after it and all strategies |

## 4. Simplifications of the model

* Ticks are values in World.v. In the code `epic.on_new_tick` rewrites `tick.datetime` in place (epic.py:244), even when the tick is then
  rejected. TickObjects.v has tick objects in a heap (C58): programs agree with World.v unless epics of two zones share an object.
  There the object last received by an epic follows later rewrites; the ticks kept by frames and indicator values stay as received, and
  callbacks neither send nor modify tick objects.
* In World.v callbacks cannot call `Epic.on_new_tick` recursively, create objects, register frame sets or strategies. They can make every
  other API call, in any number, depending on the whole state. Reentrant.v lifts this restriction (C55): all theorems about
  `reach` hold for re-entrant callbacks too; those about `run` (callback order, histories) are for callbacks without ticks.
* Python's recursion limit is the number of nested ticks (`rtick depth`), not the number of Python frames.
* In World.v an indicator object is registered with one frame set; SharedInd.v has objects registered with several (C77). Attributes of epics (zone, hours...) are reassigned after construction in Settings.v (C73) only. The closes made by netting get the
  reference of the opened trade's call instead of a fresh uuid. `Arrow.replace` keeps `fold`; the model uses fold 0.
* In World.v trades are opened through epics; Manual.v (C68) adds trades built by hand (`Trade(...)`, `open_from_tick`) and handed to providers.
* `trades=` generators given to `result`/`profit_factor` are lists evaluated beforehand (`TGen`); `get_trades` is evaluated
  on one state; in `close_opened_trades` the generator interleaves with closes (modelled step by step).
* Quantities are integers (the code annotates `int`); prices are `F`.
* `float(z)` of an int beyond the float range gives an infinity in the model, OverflowError in Python. Division by a zero float is
  ZeroDivisionError in both. NaN payloads are not distinguished.
* CPython's `round(x, 2)` is modelled as: nearest decimal with two digits to the exact value (ties to even), then nearest float.
  This definition was compared outside Coq with CPython on 1500 random doubles (no difference); the comparison is not part of the proof.
* `sum` of floats adds from left to right (CPython up to 3.11; 3.12 compensates rounding errors).
* arrow 0.17.0: comparison of two datetimes with the same tzinfo object compares wall clocks, otherwise UTC instants; `shift` is a wall
  clock shift followed by `resolve_imaginary`. `fold` is folded into the record (instant, wall clock).
* Log messages, `Epic.__str__`, `meta` dictionaries and docstrings are not modelled. Requests
  of trade providers assign one status in World.v; any code, in threads, is in Requests.v (C75), where requests act between API calls but not inside
  one (the netting loop of `open_trade`). Requests that assign a status act between any two statements in Preempt.v (C78); an attribute assignment or
  a list append is one step, a frame set update is one step. Strategies with private data: Stateful.v (C61).
* Custom indicator classes (`KCustom` in Frames.v): the user's code is a pair of arbitrary functions, for the value's `__init__` and `on_new_tick`; the
  latter calls the inherited one first. It reads the ticks of all frames and its own data on them; its data is a list of numbers; it may raise.
  It does not read other indicators' values, does not call the API and does not replace `build_value_from_frame`.
* In Report.v a file is a header and a list of rows of values; Text.v gives its text (csv.writer of CPython 3.6-3.8, excel dialect) on 8-bit
  characters, with an arbitrary function for `repr` of a float. A reference that is not a valid file name, and failures to create the
  folder, are not modelled.
* uuid4 is an arbitrary string whose first eight characters are hexadecimal digits.

Not modelled at all: event_manager.py (entirely commented out), mixins/meta.py, mixins/transaction.py beyond the status field,
`BaseTickProvider.run` (abstract), samples, docs and tests.

## 5. Trusted base

* Coq 8.16.1: kernel (and its `vm_compute`), checked again by `coqchk`.
* `Print Assumptions` of every theorem in PropTick, PropTrade, PropProvider, PropStrategy, PropEpic, PropTimeframe, PropFrames,
  PropNest, PropSkip, PropIndicators, PropReport, PropReentrant, PropStateful, PropCustom, PropMarket, PropOwn, PropPreempt, PropProfit, PropLive, PropManual, PropUnits, PropFine (except its `_b64` theorems), PropHistory, PropSettings, PropMoved, PropEnvelope, PropRepeat (except its `_b64` theorem), PropShared, PropRequests, PropProgramFrames, PropProgramInd, PropProgramCharts, PropProgramNest, PropProgramTold, PropCharts, PropNavigation, PropTickObjects, PropText, and C50-C52 of PropSymmetry except the `_b64` ones: "Closed under the global context".
* `Print Assumptions` of the theorems in PropFloat.v, PropFloatTrade.v, PropFloatIndicators.v, PropProgramIndFloat.v and the `_b64` theorems of PropSymmetry.v, PropFine.v and PropRepeat.v (binary64): the standard library's real numbers and classical logic:
  `ClassicalDedekindReals.sig_forall_dec`, `ClassicalDedekindReals.sig_not_dec`,
  `FunctionalExtensionality.functional_extensionality_dep`, `Classical_Prop.classic`. No axiom of another library.
* `coqchk -o` also lists, for the files loaded as a whole, module parameters of the standard library that are sealed
  by a module type (`Coq.Reals.Rdefinitions.RbaseSymbolsImpl.*`, `RinvImpl.*`, `Coq.ssr.ssrunder.Under_rel.*`); no
  theorem depends on the latter.
* Libraries: std++ (lists, `rtc`, options), Flocq 4.1.0 (floats). No axiom comes from them.
* No axiom, `Parameter`, `Admitted`, section-less `Variable`/`Hypothesis`, functor or module type is declared here; no kernel check is
  switched off; no OCaml plugin is used.
* The correspondence between the Python source and the model definitions (citations), the semantics of Python, arrow, dateutil and
  CPython's `round` as written in PyBase.v, Arrow.v, Calendar.v, NumFloat.v.
* The readings of the English statements by the Spec*.v definitions.

## 6. Mutation testing

seeded/LOG.jsonl: one line per wrong variant of the model. A variant is built in a scratch copy; proofs that fail are replaced by
`Admitted` and the build goes on, so the log lists every property theorem whose proof fails or depends on a lemma that fails.
A theorem listed there need not be false in the variant (its proof may only go through a changed lemma); the field `breaks` names the
claim that is false.
