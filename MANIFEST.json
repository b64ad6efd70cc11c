{
 "claims": [
  {
   "property": "C01",
   "status": "proved",
   "theorems": [
    "C01_nan_bid_refuted",
    "C01_tick_accepts",
    "C01_tick_accepts_Q",
    "C01_tick_rejects"
   ],
   "note": "Every arithmetic; on binary64 a NaN bid is accepted (refuted theorem)."
  },
  {
   "property": "C02",
   "status": "proved",
   "theorems": [
    "C02_spread_nonneg_b64",
    "C02_value_near_midpoint_b64",
    "C02_value_between_quotes_b64",
    "C02_spread_nonneg",
    "C02_value_near_midpoint",
    "C02_value_between_quotes",
    "C02_value_between_quotes_refuted"
   ],
   "note": "Exact rationals and binary64 (quotes up to 2^30). Sub-cent quotes leave the interval (refuted theorem)."
  },
  {
   "property": "C03",
   "status": "proved",
   "theorems": [
    "C03_quantities_in_every_state",
    "C03_quantity_accounting",
    "C03_closed_is_booked"
   ],
   "note": "Every arithmetic; for a trade alone and for every trade of every reachable state."
  },
  {
   "property": "C04",
   "status": "proved",
   "theorems": [
    "C04_trades_only_evolve",
    "C04_close_quantity",
    "C04_closed_stays_closed",
    "C04_negative_close_refuted"
   ],
   "note": "Every arithmetic; a negative close quantity reopens the trade (C04_negative_close_refuted)."
  },
  {
   "property": "C05",
   "status": "proved",
   "theorems": [
    "C05_pnl_b64",
    "C05_pnl_exact",
    "C05_pnl_rounded"
   ],
   "note": "Exact rationals; on binary64 within 0.001 for cent prices."
  },
  {
   "property": "C06",
   "status": "proved",
   "theorems": [
    "C06_closed_result_frozen_b64",
    "C06_closed_frozen",
    "C06_closed_result_frozen"
   ],
   "note": "Every arithmetic; on binary64 also for the result read after further ticks of any finite prices up to 2^1000."
  },
  {
   "property": "C07",
   "status": "proved",
   "theorems": [
    "C07_program",
    "C07_program_bracket",
    "C07_program_ticked",
    "C07_envelope_b64_refuted",
    "C07_envelope_near_b64",
    "C07_netting_refuted",
    "C07_envelope",
    "C07_envelope_explicit_close_refuted"
   ],
   "note": "Exact rationals; explicit close price (refuted theorem) and binary64 rounding (refuted theorem) break the envelope. On binary64 the envelope holds up to 0.002 for prices in cents (2 b q <= 2^30, at most 900 closes). Netting leaves the envelope of the unreduced quantity (refuted theorem). C07_program, C07_program_bracket, C07_program_ticked: every reachable state of every program at the quotes (exact rationals)."
  },
  {
   "property": "C08",
   "status": "proved",
   "theorems": [
    "C08_open_b64",
    "C08_open_buy",
    "C08_open_sell",
    "C08_bad_direction",
    "C08_price_zero_refuted"
   ],
   "note": "Exact rationals; a closing-side price of exactly 0 is falsy and is replaced by the open price (refuted theorem). On binary64 the opening result is the float version of the spread, within 2^-19."
  },
  {
   "property": "C09",
   "status": "proved",
   "theorems": [
    "C09_result_kept_b64_refuted",
    "C09_result_near_b64",
    "C09_close_from_tick"
   ],
   "note": "Every arithmetic for the booked price, exact rationals for the kept result; refuted on binary64, where the result moves by at most 0.002 for prices in cents (same bounds as C07)."
  },
  {
   "property": "C10",
   "status": "proved",
   "theorems": [
    "C10_averages_b64",
    "C10_zero_quantity_refuted",
    "C10_averages"
   ],
   "note": "Exact rationals, and binary64 for the closed part of trades priced in cents. A trade used up by netting has no average (refuted theorem)."
  },
  {
   "property": "C11",
   "status": "proved",
   "theorems": [
    "C11_exposure_conserved_iff",
    "C11_exposure_conserved_refuted"
   ],
   "note": "Every arithmetic, all reachable states; exact condition, and a refutation of unconditional conservation."
  },
  {
   "property": "C12",
   "status": "proved",
   "theorems": [
    "C12_netting_outcome",
    "C12_other_epic_refuted"
   ],
   "note": "Every arithmetic, all reachable states of programs with positive opening and non-negative close quantities. Netting crosses epics (refuted theorem)."
  },
  {
   "property": "C13",
   "status": "proved",
   "theorems": [
    "C13_one_direction",
    "C13_negative_quantity_refuted"
   ],
   "note": "Every arithmetic; refuted when a close uses a negative quantity."
  },
  {
   "property": "C14",
   "status": "proved",
   "theorems": [
    "C14_other_strategies_untouched"
   ],
   "note": "Every arithmetic, any state (no reachability needed)."
  },
  {
   "property": "C15",
   "status": "proved",
   "theorems": [
    "C15_registered_in_order",
    "C15_registered_once",
    "C15_registered_with_own_epic",
    "C15_strategy_trades",
    "C15_opened_trades",
    "C15_opened_trades_newest_first",
    "C15_runs_are_reachable"
   ],
   "note": "Every arithmetic, all programs including callbacks and failed calls."
  },
  {
   "property": "C16",
   "status": "proved",
   "theorems": [
    "C16_thread_touches_own_status",
    "C16_thread_status",
    "C16_all_confirmed",
    "C16_every_close_confirmed",
    "C16_schedule_independent",
    "C16_same_figures"
   ],
   "note": "Every arithmetic; threads may run between operations and inside callbacks."
  },
  {
   "property": "C17",
   "status": "proved",
   "theorems": [
    "C17_revaluation",
    "C17_own_epic_only_refuted"
   ],
   "note": "Every arithmetic; shared provider finding refuted."
  },
  {
   "property": "C18",
   "status": "proved",
   "theorems": [
    "C18_get_trades_exact",
    "C18_get_trades_newest_first",
    "C18_get_trades_all",
    "C18_only_after_prefix",
    "C18_only_after_exact",
    "C18_only_after_one_epic",
    "C18_two_epics_refuted"
   ],
   "note": "Every arithmetic. Exactness with only_after for dates in opening order, which every program guarantees for one epic after its first tick; refuted for two epics with different clocks."
  },
  {
   "property": "C19",
   "status": "proved",
   "theorems": [
    "C19_result_b64",
    "C19_profit_factor_b64",
    "C19_result",
    "C19_result_given",
    "C19_profit_factor",
    "C19_profit_factor_given",
    "C19_empty_list_refuted"
   ],
   "note": "Exact rationals; on binary64 the result of a strategy is the float of the exact sum in cents (at most 900 closes, gross moves up to 2^30). The profit factor on binary64 is finite and not negative; it is also proved for an explicitly given list of trades. result([]) falls back to all trades (refuted theorem)."
  },
  {
   "property": "C20",
   "status": "proved",
   "theorems": [
    "C20_close_opened_trades",
    "C20_explicit_quantity_refuted"
   ],
   "note": "Every arithmetic, every reachable state. With an explicit quantity trades can stay open (refuted theorem)."
  },
  {
   "property": "C21",
   "status": "proved",
   "theorems": [
    "C21_no_callback",
    "C21_resumes",
    "C21_stop_during_tick_refuted"
   ],
   "note": "Every arithmetic, every program whose calls do not toggle the strategy; a strategy stopping itself in a callback still gets the rest of the tick (refuted theorem)."
  },
  {
   "property": "C22",
   "status": "proved",
   "theorems": [
    "C22_refused",
    "C22_refused_iff",
    "C22_first_tick",
    "C22_accepted",
    "C22_never_back",
    "C22_accepted_in_order",
    "C22_earlier_utc_refuted"
   ],
   "note": "Every arithmetic, every program. Order is the wall clock of the epic: when it goes back a tick earlier in UTC is accepted (refuted theorem)."
  },
  {
   "property": "C23",
   "status": "proved",
   "theorems": [
    "C23_flag_after_tick",
    "C23_created",
    "C23_flag_always"
   ],
   "note": "Every arithmetic, every state of every program."
  },
  {
   "property": "C24",
   "status": "proved",
   "theorems": [
    "C24_one_tick",
    "C24_whole_run",
    "C24_flag_is_market_hours",
    "C24_lost_opening_refuted"
   ],
   "note": "Every arithmetic, every program. When a tick raises, later strategies lose the opening notification (refuted theorem)."
  },
  {
   "property": "C25",
   "status": "proved",
   "theorems": [
    "C25_utc_order_accepted",
    "C25_clock_back_refuted"
   ],
   "note": "Every zone given by conversion functions whose wall clock is monotone; refuted when it goes back."
  },
  {
   "property": "C26",
   "status": "proved",
   "theorems": [
    "C26_add_frame_set",
    "C26_add_strategy",
    "C26_references_unique",
    "C26_never_replaced",
    "C26_strategy_epics_refuted"
   ],
   "note": "Every arithmetic, every program. strategy.epics is keyed by epic reference and collides (refuted theorem)."
  },
  {
   "property": "C27",
   "status": "proved",
   "theorems": [
    "C27_get_frame",
    "C27_get_indicator_value",
    "C27_negative_offset_refuted"
   ],
   "note": "Every arithmetic, every reachable state, memory >= 1; offset -1 returns the oldest frame (refuted theorem)."
  },
  {
   "property": "C28",
   "status": "proved",
   "theorems": [
    "C28_accepted",
    "C28_rejected",
    "C28_zero",
    "C28_any_sign"
   ],
   "note": "All units and integer quantities."
  },
  {
   "property": "C29",
   "status": "proved",
   "theorems": [
    "C29_dt_in_frame",
    "C29_start_total",
    "C29_end_total",
    "C29_year_quantity_refuted"
   ],
   "note": "All units, quantities, zones resolving skipped times forwards. YEAR with quantity above the year raises ValueError (refuted theorem)."
  },
  {
   "property": "C30",
   "status": "proved",
   "theorems": [
    "C30_end_is_next_start_skip",
    "C30_partition_skip",
    "C30_no_change_aligned",
    "C30_whole_hours_aligned",
    "C30_no_midnight_aligned",
    "C30_idempotent",
    "C30_monotone",
    "C30_end_is_next_start",
    "C30_same_frame",
    "C30_partition",
    "C30_skipped_boundary_refuted"
   ],
   "note": "Zones without skipped times, and zones with clock changes that fit the timeframe (aligned, *_skip theorems; sufficient conditions proved); overlap with a skipped midnight proved in the refuted theorem."
  },
  {
   "property": "C31",
   "status": "proved",
   "theorems": [
    "C31_last_boundary",
    "C31_tick"
   ],
   "note": "All units and datetimes; calendar specified by an inductive day-successor relation."
  },
  {
   "property": "C32",
   "status": "proved",
   "theorems": [
    "C32_history_of_program",
    "C32_current_holds_last_tick",
    "C32_any_program"
   ],
   "note": "Every arithmetic, every zone resolving skipped times forwards. `_any_program`: for every program started from nothing, exceptions included."
  },
  {
   "property": "C33",
   "status": "proved",
   "theorems": [
    "C33_contiguous",
    "C33_calendar_periods",
    "C33_overlap_refuted",
    "C33_any_program",
    "C33_any_program_skip",
    "C33_instants_no_change",
    "C33_no_raise_charts",
    "C33_contiguous_skip",
    "C33_calendar_periods_skip",
    "C33_two_hours_refuted"
   ],
   "note": "Every arithmetic, zones without skipped times or with clock changes that fit the timeframe (*_skip); overlap with a skipped midnight, and of two-hour frames at a change from 02:00 to 03:00, refuted. Flatness of gap frames is part of C34_frame_content. C33_any_program: programs from the empty state, one attachment. C33_any_program_skip: the same with clock changes. In the *_any_program* theorems strategies may raise, frame sets may not; C33_no_raise_charts: no raise at all is a special case."
  },
  {
   "property": "C34",
   "status": "proved",
   "theorems": [
    "C34_comparable_b64",
    "C34_frame_content",
    "C34_comparable_Q",
    "C34_each_tick_in_one_frame",
    "C34_gap_counts_refuted",
    "C34_any_program",
    "C34_any_program_skip",
    "C34_frame_content_skip",
    "C34_each_tick_in_one_frame_skip"
   ],
   "note": "Every arithmetic whose values are comparable: all rationals, binary64 with finite quotes up to 2^1019. Gap frames count one tick (refuted theorem). Zones without skipped times or aligned (*_skip). C34_any_program: programs from the empty state, one attachment; the ticks are those the epic accepted after it. C34_any_program_skip: the same with clock changes. In the *_any_program* theorems strategies may raise, frame sets may not (C34_ex_raising)."
  },
  {
   "property": "C35",
   "status": "proved",
   "theorems": [
    "C35_most_recent_in_memory",
    "C35_links",
    "C35_memory_valid",
    "C35_only_current_open",
    "C35_evicted_unreachable",
    "C35_closed_after_eviction_refuted",
    "C35_no_memory_refuted",
    "C35_any_program"
   ],
   "note": "All histories, exceptions included, memory >= 1. Findings: evicted frames report closed=False; memory 0 raises IndexError. C35_any_program: every frame set of every program."
  },
  {
   "property": "C36",
   "status": "proved",
   "theorems": [
    "C36_tick_frames",
    "C36_day_split_refuted",
    "C36_any_program"
   ],
   "note": "Every arithmetic, memory >= 1. The split at day change written in is_frame_over_tick never happens (refuted theorem). C36_any_program: programs from the empty state. In C36_any_program strategies may raise, frame sets may not."
  },
  {
   "property": "C37",
   "status": "proved",
   "theorems": [
    "C37_terminates",
    "C37_one_frame_per_period",
    "C37_no_exception",
    "C37_negative_quantity_refuted",
    "C37_any_program",
    "C37_one_frame_per_period_skip",
    "C37_no_exception_skip"
   ],
   "note": "All histories and gaps, positive quantities; negative quantity finding refuted. Exact count and absence of exceptions: zones without skipped times or aligned (*_skip). C37_any_program: programs from the empty state, zones with clock changes included. In C37_any_program strategies may raise, frame sets may not."
  },
  {
   "property": "C38",
   "status": "proved",
   "theorems": [
    "C38_candle_order_b64",
    "C38_candle_order",
    "C38_close",
    "C38_of_program",
    "C38_any_program",
    "C38_any_program_b64"
   ],
   "note": "Exact arithmetic and binary64 (finite quotes up to 2^1019), every history of ticks, registrations, attachments and exceptions. `_any_program`: for every program started from nothing, exceptions included."
  },
  {
   "property": "C39",
   "status": "proved",
   "theorems": [
    "C39_geometry_b64",
    "C39_geometry",
    "C39_any_program",
    "C39_any_program_b64"
   ],
   "note": "Exact arithmetic and binary64 (quotes up to 2^30), every candle of every history. `_any_program`: for every program started from nothing, exceptions included."
  },
  {
   "property": "C40",
   "status": "proved",
   "theorems": [
    "C40_recurrence_b64",
    "C40_recurrence",
    "C40_stable_in_memory",
    "C40_stable_refuted",
    "C40_any_program",
    "C40_any_program_b64"
   ],
   "note": "Recurrence over exact arithmetic, and on binary64 for quotes up to 2^27 (in whole cents); stability for every arithmetic as long as no frame is evicted; instability on eviction is a refuted theorem. `_any_program`: for every program started from nothing, exceptions included."
  },
  {
   "property": "C41",
   "status": "proved",
   "theorems": [
    "C41_sma_b64",
    "C41_sma",
    "C41_sma_registered_later",
    "C41_any_program",
    "C41_any_program_b64"
   ],
   "note": "Every memory size >= 1, registration before the first tick or later; histories with exceptions included. Exact arithmetic, and binary64 (p <= 1000, p * 2^(e+1) <= 2^30 for quotes up to 2^e): the float of a nearest number of cents to the exact mean, between two of the closes; only ties can differ from exact rounding. `_any_program`: for every program started from nothing, exceptions included."
  },
  {
   "property": "C42",
   "status": "proved",
   "theorems": [
    "C42_rsi_range_b64",
    "C42_rsi_value_b64",
    "C42_rsi",
    "C42_rsi_registered_later",
    "C42_memory_check",
    "C42_one_period_refuted",
    "C42_one_frame_refuted",
    "C42_no_period_refuted",
    "C42_any_program",
    "C42_any_program_b64",
    "C42_value_any_program_b64"
   ],
   "note": "Exact arithmetic, at least two frames in memory, histories without exception; on binary64 the range (quotes up to 2^800) and the value (quotes up to 2^20, up to 2^20 periods); 1 change, 1 frame in memory and 0 periods are refuted theorems. `_any_program`: for every program started from nothing whose charts raise nothing."
  },
  {
   "property": "C43",
   "status": "proved",
   "theorems": [
    "C43_pivots_b64",
    "C43_olhc_b64",
    "C43_pivots",
    "C43_olhc",
    "C43_olhc_refuted",
    "C43_any_program",
    "C43_olhc_any_program",
    "C43_any_program_b64",
    "C43_olhc_any_program_b64"
   ],
   "note": "Exact arithmetic, and binary64 for quotes up to 2^27 (levels are the floats of the exact numbers of cents, in order); OLHC pivots: levels in order exactly when the pivot is in the previous range (otherwise refuted). `_any_program`: for every program started from nothing, exceptions included."
  },
  {
   "property": "C44",
   "status": "proved",
   "theorems": [
    "C44_hears",
    "C44_open_ticks_only",
    "C44_determined",
    "C44_gap_refuted",
    "C44_sma_refuted",
    "C44_of_program",
    "C44_any_program",
    "C44_any_program_periods",
    "C44_any_program_hours",
    "C44_any_program_ticks"
   ],
   "note": "Every arithmetic with comparable values: values summarise the ticks heard; open-market ticks only unless a gap frame is created at an opening; gap frames and moving averages refuted. C44_any_program: programs from the empty state, indicator registered before the attachment. C44_any_program_periods: on timed frames the ticks are those of the calendar period (zones whose clock changes fit the timeframe). C44_any_program_ticks: frames of q ticks. C44_any_program_hours: on a frame whose period has ticks, the value summarises those in market hours. In the *_any_program* theorems strategies may raise, frame sets may not."
  },
  {
   "property": "C45",
   "status": "proved",
   "theorems": [
    "C45_report",
    "C45_returns",
    "C45_failed",
    "C45_same_reference_refuted",
    "C45_same_second_refuted"
   ],
   "note": "Every reachable state, list of strategies and folder content; the text written by csv.DictWriter is the subject of C60. Same reference and same second: refuted theorems."
  },
  {
   "property": "C46",
   "status": "proved",
   "theorems": [
    "C46_explicit",
    "C46_default",
    "C46_collision",
    "C46_bound"
   ],
   "note": "All arguments and UUID texts beginning with 8 hexadecimal digits; the bound 16^5 is exact."
  },
  {
   "property": "C47",
   "status": "proved",
   "theorems": [
    "C47_isolated"
   ],
   "note": "Every arithmetic, every reachable state."
  },
  {
   "property": "C48",
   "status": "proved",
   "theorems": [
    "C48_get_epic_by_ref"
   ],
   "note": "All epic lists."
  },
  {
   "property": "C49",
   "status": "proved",
   "theorems": [
    "C49_failed_operation",
    "C49_opening_fails_iff",
    "C49_closing_succeeds",
    "C49_rsi_registered_refuted"
   ],
   "note": "Every arithmetic, every reachable state; add_indicator of an RSI is the exception (refuted theorem)."
  },
  {
   "property": "C50",
   "status": "proved",
   "theorems": [
    "C50_results_by_price",
    "C50_order_b64_refuted"
   ],
   "note": "Exact rationals; the order shows on binary64 (refuted theorem)."
  },
  {
   "property": "C51",
   "status": "proved",
   "theorems": [
    "C51_mirror",
    "C51_mirror_b64"
   ],
   "note": "Exact rationals and binary64 (infinities and NaN included)."
  },
  {
   "property": "C52",
   "status": "proved",
   "theorems": [
    "C52_translation",
    "C52_price_zero_refuted"
   ],
   "note": "Exact rationals; an initial price of 0 breaks it (refuted theorem)."
  },
  {
   "property": "C53",
   "status": "proved",
   "theorems": [
    "C53_nested",
    "C53_units",
    "C53_weeks_in_months_refuted",
    "C53_gap_frames_refuted",
    "C53_any_program",
    "C53_nested_skip"
   ],
   "note": "Every arithmetic whose values are comparable, zones without skipped times or aligned for both timeframes (*_skip). Merging gap frames too is wrong (refuted theorem). C53_any_program: programs from the empty state, zones with clock changes included. In C53_any_program strategies may raise, frame sets may not."
  },
  {
   "property": "C54",
   "status": "proved",
   "theorems": [
    "C54_memory_only_retains",
    "C54_memory_only_retains_tick",
    "C54_any_program"
   ],
   "note": "Every arithmetic, every zone, ticks in any order; TICK unit when driven by an epic. C54_any_program: also across programs that accept the same ticks. In C54_any_program strategies may raise, frame sets may not."
  },
  {
   "property": "C55",
   "status": "proved",
   "theorems": [
    "C55_conservative",
    "C55_states",
    "C55_quantities",
    "C55_one_direction",
    "C55_market_flag",
    "C55_references",
    "C55_refused",
    "C55_never_back",
    "C55_accepted",
    "C55_protocol_refuted",
    "C55_late_opening_refuted",
    "C55_registration_refuted"
   ],
   "note": "Every arithmetic; depth of nesting is the room on the interpreter's stack. Callback order and registration during a tick: refuted theorems."
  },
  {
   "property": "C56",
   "status": "proved",
   "theorems": [
    "C56_trading",
    "C56_own_ticks",
    "C56_raising_indicator_refuted"
   ],
   "note": "Every arithmetic. A raising indicator of another frame set of the same epic breaks the second part (refuted theorem)."
  },
  {
   "property": "C57",
   "status": "proved",
   "theorems": [
    "C57_next",
    "C57_previous",
    "C57_next_previous",
    "C57_previous_next",
    "C57_walks",
    "C57_closed",
    "C57_nb_ticks",
    "C57_previous_next_refuted",
    "C57_any_program"
   ],
   "note": "Every arithmetic, every history of a frame set, exceptions included. previous.next is refuted for market_open_only indicators. C57_any_program: every frame set of every program."
  },
  {
   "property": "C58",
   "status": "proved",
   "theorems": [
    "C58_quote_kept",
    "C58_zone_of_epic",
    "C58_as_values",
    "C58_two_zones_refuted",
    "C58_acceptance_refuted",
    "C58_setters",
    "C58_set_datetime",
    "C58_setter_refuted"
   ],
   "note": "Every arithmetic. Epics of two zones sharing a tick object: refuted theorems; setters do not check the order of the prices (refuted theorem). Callbacks that modify tick objects are not modelled."
  },
  {
   "property": "C59",
   "status": "proved",
   "theorems": [
    "C59_shows",
    "C59_one_second",
    "C59_order",
    "C59_utc",
    "C59_tick",
    "C59_tick_prices",
    "C59_line",
    "C59_line_order",
    "C59_file_names",
    "C59_tick_year_refuted",
    "C59_clock_back_refuted"
   ],
   "note": "arrow's formatter and glibc's strftime. Unpadded years below 1000 in Tick.asdict and the hour in which clocks go back: refuted theorems."
  },
  {
   "property": "C60",
   "status": "proved",
   "theorems": [
    "C60_reads_back",
    "C60_report",
    "C60_determines"
   ],
   "note": "CPython's csv.writer, excel dialect, on 8-bit characters; the text of a float (repr) is any function. A reference that is not a file name (a slash) is not modelled."
  },
  {
   "property": "C61",
   "status": "proved",
   "theorems": [
    "C61_no_data",
    "C61_no_data_calls",
    "C61_trace",
    "C61_states",
    "C61_protocol"
   ],
   "note": "All arithmetics; simulation: the k-th callback of the run is replaced by the straight code it executed."
  },
  {
   "property": "C62",
   "status": "proved",
   "theorems": [
    "C62_told",
    "C62_fold",
    "C62_any_program",
    "C62_any_program_periods",
    "C62_any_program_ticks"
   ],
   "note": "All arithmetics. The class does not read other indicators nor call the API. Ticks received while the market is closed are told too once the value exists (base_indicator.py:98-105 guards the inherited part only). C62_any_program: the same for whole programs from the empty state. C62_any_program_periods: with the calendar period of each frame. C62_any_program_ticks: frames of q ticks. In the *_any_program* theorems strategies may raise, frame sets may not."
  },
  {
   "property": "C63",
   "status": "proved",
   "theorems": [
    "C63_step",
    "C63_run",
    "C63_order",
    "C63_order_reentrant",
    "C63_closed_again_refuted"
   ],
   "note": "All arithmetics. Placeholder tick of 1900 included: a trade opened before the first tick of its epic has its price 0 and date. The price of a close with quantity 0 is not covered and can be that of an earlier tick (C63_closed_again_refuted): closing a closed trade again records the price it was closed at, with the new date."
  },
  {
   "property": "C64",
   "status": "proved",
   "theorems": [
    "C64_independent",
    "C64_alone",
    "C64_results",
    "C64_raise_refuted"
   ],
   "note": "All arithmetics. Two-run theorem by a relation between states that maps the k-th trade of the strategy to its k-th trade in the other run (ids differ). Main programs act through strategies and epics, not on trades by id. A strategy that raises does influence those registered after it (C64_raise_refuted)."
  },
  {
   "property": "C65",
   "status": "proved",
   "theorems": [
    "C65_independent",
    "C65_alone",
    "C65_shared_provider_refuted"
   ],
   "note": "All arithmetics. Same two-run relation as C64, with the epics and frame sets outside the division masked to their wiring. Creations and registrations happen before (or identically in both runs when nothing is left out). False for epics sharing a provider (C65_shared_provider_refuted)."
  },
  {
   "property": "C66",
   "status": "proved",
   "theorems": [
    "C66_trade",
    "C66_strategy",
    "C66_bounds",
    "C66_flat_market",
    "C66_early_trade_refuted"
   ],
   "note": "Rationals. Combines C63 (prices of openings and closes in programs), C05 (profit and loss identity), C03 (quantities), C19 (sum over trades). False for a trade opened before the first tick of its epic (C66_early_trade_refuted). On floats results carry float noise (C05_b64, C50_order_b64_refuted)."
  },
  {
   "property": "C67",
   "status": "proved",
   "theorems": [
    "C67_any_provider",
    "C67_same_trades",
    "C67_same_figures",
    "C67_fixed_direction",
    "C67_after_closing",
    "C67_against_refuted"
   ],
   "note": "All arithmetics. Two-run simulation up to kinds, statuses and thread progress; the hypothesis is on the backtest run only. Providers that modify trades beyond their status are not modelled. False for openings against an open position (C67_against_refuted)."
  },
  {
   "property": "C68",
   "status": "proved",
   "theorems": [
    "C68_build_give",
    "C68_close_hand",
    "C68_books",
    "C68_books_inside",
    "C68_waiting",
    "C68_api",
    "C68_built",
    "C68_built_tick",
    "C68_twice_refuted",
    "C68_late_refuted",
    "C68_astray_refuted"
   ],
   "note": "Manual.v extends the model with Trade(...), open_from_tick, open_from_epic, provider.open_trade and provider.close_trade as calls of their own, in callbacks and outside. C68_books for whole runs, C68_books_inside for every state on the way; three _refuted theorems show each condition of `careful` is needed."
  },
  {
   "property": "C69",
   "status": "proved",
   "theorems": [
    "C69_converted",
    "C69_trade",
    "C69_strategy",
    "C69_profit_factor",
    "C69_profit_factor_refuted",
    "C69_fine_quotes_refuted"
   ],
   "note": "run_converted over whole programs through the two-run simulation of SimProofs.v; two _refuted theorems for losses below 1 and quotes finer than cents"
  },
  {
   "property": "C70",
   "status": "proved",
   "theorems": [
    "C70_removed",
    "C70_others"
   ],
   "note": "no side condition besides charts_fine (no frame set raises along the run)"
  },
  {
   "property": "C71",
   "status": "proved",
   "theorems": [
    "C71_charts_raise_nothing",
    "C71_charts_raise_nothing_b64",
    "C71_without_rsi",
    "C71_removed",
    "C71_removed_b64",
    "C71_reused_reference_refuted",
    "C71_charted"
   ],
   "note": "Whole program, on exact numbers, on floats within 2^800, and on all numbers without RSI; discharges the hypothesis charts_fine of C69 and C70. C71_charted: on exact numbers it also discharges the hypothesis of the *_any_program theorems stated with charted or listening."
  },
  {
   "property": "C72",
   "status": "proved",
   "theorems": [
    "C72_append_only",
    "C72_append_only_run",
    "C72_inside_callbacks",
    "C72_booked_results",
    "C72_settled",
    "C72_settled_negative_quantity_refuted"
   ],
   "note": "All states and continuations, re-entrant callbacks included; the statement on closed trades needs closes of non-negative quantities (refuted without)."
  },
  {
   "property": "C73",
   "status": "proved",
   "theorems": [
    "C73_extends",
    "C73_books",
    "C73_one_direction",
    "C73_market_state",
    "C73_assigned",
    "C73_provider_change",
    "C73_zone_change",
    "C73_zone_refused",
    "C73_history",
    "C73_market_state_stale_refuted",
    "C73_provider_refuted",
    "C73_zone_frames_refuted"
   ],
   "note": "Refuted variants: the market state is not revised until the next tick (C73_market_state_stale_refuted); after trade_provider is assigned, open trades of the former provider are no longer revalued (C73_provider_refuted); after a zone change daily frames overlap (C73_zone_frames_refuted)."
  },
  {
   "property": "C74",
   "status": "proved",
   "theorems": [
    "C74_moved",
    "C74_plain",
    "C74_plain_b64",
    "C74_trade",
    "C74_strategy",
    "C74_lookup",
    "C74_values",
    "C74_zones",
    "C74_days_refuted",
    "C74_months_refuted"
   ],
   "note": "C74_moved for all number types (charts assumed to raise nothing, which C74_plain/_b64 discharge for built-in indicators with C71); what is read is the same: C74_trade, C74_strategy, C74_lookup, C74_values; C74_zones: UTC and fixed offsets qualify. Refuted: shifts by days that are not weeks (C74_days_refuted), months moved by weeks (C74_months_refuted)."
  },
  {
   "property": "C75",
   "status": "proved",
   "theorems": [
    "C75_books",
    "C75_books_fills",
    "C75_books_inside",
    "C75_own",
    "C75_over",
    "C75_statuses",
    "C75_idle",
    "C75_idle_run",
    "C75_fill_price",
    "C75_fill_quantity",
    "C75_fill_close",
    "C75_fill_close_quantity",
    "C75_envelope_refuted",
    "C75_refused_refuted",
    "C75_fill_refuted",
    "C75_close_fill_refuted"
   ],
   "note": "Requests act between API calls, callbacks and operations, not in the middle of one API call (such as the netting loop of open_trade); Trade.meta is not modelled."
  },
  {
   "property": "C76",
   "status": "proved",
   "theorems": [
    "C76_charts",
    "C76_ledger",
    "C76_trade",
    "C76_numbers",
    "C76_numbers_b64",
    "C76_tick_frames_refuted",
    "C76_orders_refuted",
    "C76_custom_refuted"
   ],
   "note": "C76_charts for any strategies on both sides; C76_ledger when callbacks make no calls (calls of the program between ticks are allowed); both for every number type with an irreflexive transitive <, which C76_numbers and C76_numbers_b64 give. Three refutations record where repeating a quote matters."
  },
  {
   "property": "C77",
   "status": "proved",
   "theorems": [
    "C77_shared",
    "C77_results",
    "C77_epic",
    "C77_periods_refuted",
    "C77_failed_refuted",
    "C77_epic_refuted"
   ],
   "note": "Every arithmetic. Indicator objects in a heap shared by the dictionaries of frame sets; simulation by the programs of World.v. An RSI object on frame sets of two quantities, a registration that raises, and indicator.epic of a shared object: refuted theorems."
  },
  {
   "property": "C78",
   "status": "proved",
   "theorems": [
    "C78_any_point",
    "C78_same_outcomes",
    "C78_same_figures",
    "C78_all_confirmed",
    "C78_reachable",
    "C78_watching_refuted"
   ],
   "note": "Over every Num. The code once more in small steps (Preempt.v): after each statement the scheduler may run any threads. Simulation: the interrupted state is the uninterrupted one followed by some threads. Threads assign one status (World.v); the preemption points are between statements on shared attributes, frame set updates are one statement. The hypothesis that decisions ignore statuses is needed (C78_watching_refuted)."
  }
 ]
}