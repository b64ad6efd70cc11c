{
 "C01": {
  "note": "Every arithmetic; on binary64 a NaN bid is accepted (refuted theorem)."
 },
 "C02": {
  "note": "Exact rationals and binary64 (quotes up to 2^30). Sub-cent quotes leave the interval (refuted theorem)."
 },
 "C03": {
  "note": "Every arithmetic; for a trade alone and for every trade of every reachable state."
 },
 "C04": {
  "note": "Every arithmetic; a negative close quantity reopens the trade (C04_negative_close_refuted)."
 },
 "C05": {
  "note": "Exact rationals; on binary64 within 0.001 for cent prices."
 },
 "C06": {
  "note": "Every arithmetic; on binary64 also for the result read after further ticks of any finite prices up to 2^1000."
 },
 "C07": {
  "note": "Exact rationals; explicit close price (refuted theorem) and binary64 rounding (refuted theorem) break the envelope. On binary64 the envelope holds up to 0.002 for prices in cents (2 b q <= 2^30, at most 900 closes). Netting leaves the envelope of the unreduced quantity (refuted theorem). C07_program, C07_program_bracket, C07_program_ticked: every reachable state of every program at the quotes (exact rationals)."
 },
 "C08": {
  "note": "Exact rationals; a closing-side price of exactly 0 is falsy and is replaced by the open price (refuted theorem). On binary64 the opening result is the float version of the spread, within 2^-19."
 },
 "C09": {
  "note": "Every arithmetic for the booked price, exact rationals for the kept result; refuted on binary64, where the result moves by at most 0.002 for prices in cents (same bounds as C07)."
 },
 "C10": {
  "note": "Exact rationals, and binary64 for the closed part of trades priced in cents. A trade used up by netting has no average (refuted theorem)."
 },
 "C28": {
  "note": "All units and integer quantities."
 },
 "C29": {
  "note": "All units, quantities, zones resolving skipped times forwards. YEAR with quantity above the year raises ValueError (refuted theorem)."
 },
 "C30": {
  "note": "Zones without skipped times, and zones with clock changes that fit the timeframe (aligned, *_skip theorems; sufficient conditions proved); overlap with a skipped midnight proved in the refuted theorem."
 },
 "C31": {
  "note": "All units and datetimes; calendar specified by an inductive day-successor relation."
 },
 "C32": {
  "note": "Every arithmetic, every zone resolving skipped times forwards. `_any_program`: for every program started from nothing, exceptions included."
 },
 "C33": {
  "note": "Every arithmetic, zones without skipped times or with clock changes that fit the timeframe (*_skip); overlap with a skipped midnight, and of two-hour frames at a change from 02:00 to 03:00, refuted. Flatness of gap frames is part of C34_frame_content. C33_any_program: programs from the empty state, one attachment. C33_any_program_skip: the same with clock changes. In the *_any_program* theorems strategies may raise, frame sets may not; C33_no_raise_charts: no raise at all is a special case."
 },
 "C34": {
  "note": "Every arithmetic whose values are comparable: all rationals, binary64 with finite quotes up to 2^1019. Gap frames count one tick (refuted theorem). Zones without skipped times or aligned (*_skip). C34_any_program: programs from the empty state, one attachment; the ticks are those the epic accepted after it. C34_any_program_skip: the same with clock changes. In the *_any_program* theorems strategies may raise, frame sets may not (C34_ex_raising)."
 },
 "C35": {
  "note": "All histories, exceptions included, memory >= 1. Findings: evicted frames report closed=False; memory 0 raises IndexError. C35_any_program: every frame set of every program."
 },
 "C36": {
  "note": "Every arithmetic, memory >= 1. The split at day change written in is_frame_over_tick never happens (refuted theorem). C36_any_program: programs from the empty state. In C36_any_program strategies may raise, frame sets may not."
 },
 "C37": {
  "note": "All histories and gaps, positive quantities; negative quantity finding refuted. Exact count and absence of exceptions: zones without skipped times or aligned (*_skip). C37_any_program: programs from the empty state, zones with clock changes included. In C37_any_program strategies may raise, frame sets may not."
 },
 "C11": {
  "note": "Every arithmetic, all reachable states; exact condition, and a refutation of unconditional conservation."
 },
 "C12": {
  "note": "Every arithmetic, all reachable states of programs with positive opening and non-negative close quantities. Netting crosses epics (refuted theorem)."
 },
 "C13": {
  "note": "Every arithmetic; refuted when a close uses a negative quantity."
 },
 "C14": {
  "note": "Every arithmetic, any state (no reachability needed)."
 },
 "C15": {
  "note": "Every arithmetic, all programs including callbacks and failed calls."
 },
 "C16": {
  "note": "Every arithmetic; threads may run between operations and inside callbacks."
 },
 "C17": {
  "note": "Every arithmetic; shared provider finding refuted."
 },
 "C18": {
  "note": "Every arithmetic. Exactness with only_after for dates in opening order, which every program guarantees for one epic after its first tick; refuted for two epics with different clocks."
 },
 "C19": {
  "note": "Exact rationals; on binary64 the result of a strategy is the float of the exact sum in cents (at most 900 closes, gross moves up to 2^30). The profit factor on binary64 is finite and not negative; it is also proved for an explicitly given list of trades. result([]) falls back to all trades (refuted theorem)."
 },
 "C20": {
  "note": "Every arithmetic, every reachable state. With an explicit quantity trades can stay open (refuted theorem)."
 },
 "C21": {
  "note": "Every arithmetic, every program whose calls do not toggle the strategy; a strategy stopping itself in a callback still gets the rest of the tick (refuted theorem)."
 },
 "C22": {
  "note": "Every arithmetic, every program. Order is the wall clock of the epic: when it goes back a tick earlier in UTC is accepted (refuted theorem)."
 },
 "C23": {
  "note": "Every arithmetic, every state of every program."
 },
 "C24": {
  "note": "Every arithmetic, every program. When a tick raises, later strategies lose the opening notification (refuted theorem)."
 },
 "C25": {
  "note": "Every zone given by conversion functions whose wall clock is monotone; refuted when it goes back."
 },
 "C26": {
  "note": "Every arithmetic, every program. strategy.epics is keyed by epic reference and collides (refuted theorem)."
 },
 "C27": {
  "note": "Every arithmetic, every reachable state, memory >= 1; offset -1 returns the oldest frame (refuted theorem)."
 },
 "C47": {
  "note": "Every arithmetic, every reachable state."
 },
 "C48": {
  "note": "All epic lists."
 },
 "C49": {
  "note": "Every arithmetic, every reachable state; add_indicator of an RSI is the exception (refuted theorem)."
 },
 "C38": {
  "note": "Exact arithmetic and binary64 (finite quotes up to 2^1019), every history of ticks, registrations, attachments and exceptions. `_any_program`: for every program started from nothing, exceptions included."
 },
 "C39": {
  "note": "Exact arithmetic and binary64 (quotes up to 2^30), every candle of every history. `_any_program`: for every program started from nothing, exceptions included."
 },
 "C40": {
  "note": "Recurrence over exact arithmetic, and on binary64 for quotes up to 2^27 (in whole cents); stability for every arithmetic as long as no frame is evicted; instability on eviction is a refuted theorem. `_any_program`: for every program started from nothing, exceptions included."
 },
 "C41": {
  "note": "Every memory size >= 1, registration before the first tick or later; histories with exceptions included. Exact arithmetic, and binary64 (p <= 1000, p * 2^(e+1) <= 2^30 for quotes up to 2^e): the float of a nearest number of cents to the exact mean, between two of the closes; only ties can differ from exact rounding. `_any_program`: for every program started from nothing, exceptions included."
 },
 "C42": {
  "note": "Exact arithmetic, at least two frames in memory, histories without exception; on binary64 the range (quotes up to 2^800) and the value (quotes up to 2^20, up to 2^20 periods); 1 change, 1 frame in memory and 0 periods are refuted theorems. `_any_program`: for every program started from nothing whose charts raise nothing."
 },
 "C43": {
  "note": "Exact arithmetic, and binary64 for quotes up to 2^27 (levels are the floats of the exact numbers of cents, in order); OLHC pivots: levels in order exactly when the pivot is in the previous range (otherwise refuted). `_any_program`: for every program started from nothing, exceptions included."
 },
 "C44": {
  "note": "Every arithmetic with comparable values: values summarise the ticks heard; open-market ticks only unless a gap frame is created at an opening; gap frames and moving averages refuted. C44_any_program: programs from the empty state, indicator registered before the attachment. C44_any_program_periods: on timed frames the ticks are those of the calendar period (zones whose clock changes fit the timeframe). C44_any_program_ticks: frames of q ticks. C44_any_program_hours: on a frame whose period has ticks, the value summarises those in market hours. In the *_any_program* theorems strategies may raise, frame sets may not."
 },
 "C45": {
  "note": "Every reachable state, list of strategies and folder content; the text written by csv.DictWriter is the subject of C60. Same reference and same second: refuted theorems."
 },
 "C46": {
  "note": "All arguments and UUID texts beginning with 8 hexadecimal digits; the bound 16^5 is exact."
 },
 "C50": {
  "note": "Exact rationals; the order shows on binary64 (refuted theorem)."
 },
 "C51": {
  "note": "Exact rationals and binary64 (infinities and NaN included)."
 },
 "C52": {
  "note": "Exact rationals; an initial price of 0 breaks it (refuted theorem)."
 },
 "C53": {
  "note": "Every arithmetic whose values are comparable, zones without skipped times or aligned for both timeframes (*_skip). Merging gap frames too is wrong (refuted theorem). C53_any_program: programs from the empty state, zones with clock changes included. In C53_any_program strategies may raise, frame sets may not."
 },
 "C54": {
  "note": "Every arithmetic, every zone, ticks in any order; TICK unit when driven by an epic. C54_any_program: also across programs that accept the same ticks. In C54_any_program strategies may raise, frame sets may not."
 },
 "C55": {
  "note": "Every arithmetic; depth of nesting is the room on the interpreter's stack. Callback order and registration during a tick: refuted theorems."
 },
 "C56": {
  "note": "Every arithmetic. A raising indicator of another frame set of the same epic breaks the second part (refuted theorem)."
 },
 "C57": {
  "note": "Every arithmetic, every history of a frame set, exceptions included. previous.next is refuted for market_open_only indicators. C57_any_program: every frame set of every program."
 },
 "C58": {
  "note": "Every arithmetic. Epics of two zones sharing a tick object: refuted theorems; setters do not check the order of the prices (refuted theorem). Callbacks that modify tick objects are not modelled."
 },
 "C59": {
  "note": "arrow's formatter and glibc's strftime. Unpadded years below 1000 in Tick.asdict and the hour in which clocks go back: refuted theorems."
 },
 "C60": {
  "note": "CPython's csv.writer, excel dialect, on 8-bit characters; the text of a float (repr) is any function. A reference that is not a file name (a slash) is not modelled."
 },
 "C61": {
  "note": "All arithmetics; simulation: the k-th callback of the run is replaced by the straight code it executed."
 },
 "C62": {
  "note": "All arithmetics. The class does not read other indicators nor call the API. Ticks received while the market is closed are told too once the value exists (base_indicator.py:98-105 guards the inherited part only). C62_any_program: the same for whole programs from the empty state. C62_any_program_periods: with the calendar period of each frame. C62_any_program_ticks: frames of q ticks. In the *_any_program* theorems strategies may raise, frame sets may not."
 },
 "C63": {
  "note": "All arithmetics. Placeholder tick of 1900 included: a trade opened before the first tick of its epic has its price 0 and date. The price of a close with quantity 0 is not covered and can be that of an earlier tick (C63_closed_again_refuted): closing a closed trade again records the price it was closed at, with the new date."
 },
 "C64": {
  "note": "All arithmetics. Two-run theorem by a relation between states that maps the k-th trade of the strategy to its k-th trade in the other run (ids differ). Main programs act through strategies and epics, not on trades by id. A strategy that raises does influence those registered after it (C64_raise_refuted)."
 },
 "C65": {
  "note": "All arithmetics. Same two-run relation as C64, with the epics and frame sets outside the division masked to their wiring. Creations and registrations happen before (or identically in both runs when nothing is left out). False for epics sharing a provider (C65_shared_provider_refuted)."
 },
 "C66": {
  "note": "Rationals. Combines C63 (prices of openings and closes in programs), C05 (profit and loss identity), C03 (quantities), C19 (sum over trades). False for a trade opened before the first tick of its epic (C66_early_trade_refuted). On floats results carry float noise (C05_b64, C50_order_b64_refuted)."
 },
 "C67": {
  "note": "All arithmetics. Two-run simulation up to kinds, statuses and thread progress; the hypothesis is on the backtest run only. Providers that modify trades beyond their status are not modelled. False for openings against an open position (C67_against_refuted)."
 },
 "C68": {
  "note": "Manual.v extends the model with Trade(...), open_from_tick, open_from_epic, provider.open_trade and provider.close_trade as calls of their own, in callbacks and outside. C68_books for whole runs, C68_books_inside for every state on the way; three _refuted theorems show each condition of `careful` is needed."
 },
 "C69": {
  "note": "run_converted over whole programs through the two-run simulation of SimProofs.v; two _refuted theorems for losses below 1 and quotes finer than cents"
 },
 "C70": {
  "note": "no side condition besides charts_fine (no frame set raises along the run)"
 },
 "C71": {
  "note": "Whole program, on exact numbers, on floats within 2^800, and on all numbers without RSI; discharges the hypothesis charts_fine of C69 and C70. C71_charted: on exact numbers it also discharges the hypothesis of the *_any_program theorems stated with charted or listening."
 },
 "C72": {
  "note": "All states and continuations, re-entrant callbacks included; the statement on closed trades needs closes of non-negative quantities (refuted without)."
 },
 "C73": {
  "note": "Refuted variants: the market state is not revised until the next tick (C73_market_state_stale_refuted); after trade_provider is assigned, open trades of the former provider are no longer revalued (C73_provider_refuted); after a zone change daily frames overlap (C73_zone_frames_refuted)."
 },
 "C74": {
  "note": "C74_moved for all number types (charts assumed to raise nothing, which C74_plain/_b64 discharge for built-in indicators with C71); what is read is the same: C74_trade, C74_strategy, C74_lookup, C74_values; C74_zones: UTC and fixed offsets qualify. Refuted: shifts by days that are not weeks (C74_days_refuted), months moved by weeks (C74_months_refuted)."
 },
 "C75": {
  "note": "Requests act between API calls, callbacks and operations, not in the middle of one API call (such as the netting loop of open_trade); Trade.meta is not modelled."
 },
 "C76": {
  "note": "C76_charts for any strategies on both sides; C76_ledger when callbacks make no calls (calls of the program between ticks are allowed); both for every number type with an irreflexive transitive <, which C76_numbers and C76_numbers_b64 give. Three refutations record where repeating a quote matters."
 },
 "C77": {
  "note": "Every arithmetic. Indicator objects in a heap shared by the dictionaries of frame sets; simulation by the programs of World.v. An RSI object on frame sets of two quantities, a registration that raises, and indicator.epic of a shared object: refuted theorems."
 },
 "C78": {
  "note": "Over every Num. The code once more in small steps (Preempt.v): after each statement the scheduler may run any threads. Simulation: the interrupted state is the uninterrupted one followed by some threads. Threads assign one status (World.v); the preemption points are between statements on shared attributes, frame set updates are one statement. The hypothesis that decisions ignore statuses is needed (C78_watching_refuted)."
 }
}