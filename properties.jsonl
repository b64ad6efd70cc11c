{"id": "C01", "title": "Tick construction accepts exactly the valid quotes", "statement": "Tick(datetime, bid, ask) succeeds exactly when the datetime is timezone-aware, ask and bid are numbers and bid is not greater than ask; the created tick then carries exactly that instant and those prices. Otherwise it raises TimeException for a naive datetime (checked first), else TickException. (The test is 'not bid > ask', so NaN quotes are accepted.)", "quantifier": "every datetime, every pair of bid/ask arguments (numeric or not)", "why_tests_cant": "the accept/reject boundary ranges over all numbers and argument kinds; tests sample a few", "anchors": ["estrade/tick.py:Tick.__init__", "estrade/tick.py:Tick.check_value", "estrade/mixins/timed.py:TimedMixin.datetime"]}
{"id": "C02", "title": "Tick spread and mid value are sound", "statement": "For every valid tick the spread is never negative, the reported value is within 0.0075 of the true midpoint of bid and ask, and when bid and ask are quoted in whole cents the value lies between bid and ask. (For sub-cent quotes the value may leave the [bid, ask] interval.)", "quantifier": "all bid <= ask", "why_tests_cant": "rounding boundaries occur at arbitrary prices", "anchors": ["estrade/tick.py:Tick.spread", "estrade/tick.py:Tick.value"]}
{"id": "C03", "title": "Trade quantity accounting", "statement": "Whatever sequence of updates and closes (with non-negative quantities) a trade goes through, opened_quantities + closed_quantities equals open_quantity, 0 <= opened_quantities <= open_quantity, opened_quantities never increases, and every recorded close has a quantity between 0 and what was open before it.", "quantifier": "all trades with non-negative quantity and all finite histories of update/close calls", "why_tests_cant": "unbounded histories of partial closes", "anchors": ["estrade/trade.py:Trade.close", "estrade/trade.py:Trade.closed_quantities", "estrade/trade.py:Trade.opened_quantities"]}
{"id": "C04", "title": "Close quantity: default and clamping", "statement": "close() without a quantity (or with 0) closes everything that is still open; a requested positive quantity closes exactly min(requested, still open). Open price, direction and previous closes are not changed by a close. A fully closed trade stays fully closed under any later close with a non-negative quantity (later closes are recorded with quantity 0).", "quantifier": "all trades and requested quantities", "why_tests_cant": "boundary requested = remaining and repeated closes for every quantity", "anchors": ["estrade/trade.py:Trade.close", "estrade/trade.py:Trade.closed"]}
{"id": "C05", "title": "Profit and loss identity", "statement": "For a trade whose prices are in whole cents, result equals the signed sum over closes of (close price - open price) * closed quantity plus (current price - open price) * still open quantity (sign +1 for BUY, -1 for SELL). For arbitrary prices each per-unit difference is first rounded to cents. With binary64 floats and whole-cent prices the result is within 0.001 of that sum (at most 900 closes, exposure below 2^30).", "quantifier": "all trades, close lists and prices", "why_tests_cant": "sum over unbounded close lists; rounding", "anchors": ["estrade/trade.py:Trade.result", "estrade/trade.py:Trade.closed_result", "estrade/trade.py:TradeClose.result"]}
{"id": "C06", "title": "Fully closed trades are frozen", "statement": "Once a trade is fully closed, no later update or tick changes its current_close_value, result, max_result or min_result, and later closes do not change its result.", "quantifier": "all closed trades, all later histories of updates and non-negative closes", "why_tests_cant": "unbounded future histories", "anchors": ["estrade/trade.py:Trade.update", "estrade/trade.py:Trade.opened_result_avg"]}
{"id": "C07", "title": "Max/min result envelope", "statement": "max_result (min_result) equals the maximum (minimum) of the results observed at creation and after each update, and min_result <= result <= max_result at all times for a trade that is only updated and closed from ticks. (With binary64 floats this holds up to rounding only: a partial close can move the result above max_result by float noise. With an explicit close price, or after a backtest provider reduces the quantity of a trade it opens, the current result can lie outside of [min_result, max_result].) In a program opening and closing at the quotes, whatever the strategies do, these extrema range over the result of each trade when ordered and after each revaluation since; they bracket the result at all times on providers that do not net, once part of the trade was closed on backtest providers, and on every provider from the first completed tick after the opening on.", "quantifier": "all trades, all histories of ticks and tick-driven closes; all reachable states and all runs of all programs", "why_tests_cant": "invariant over unbounded histories", "anchors": ["estrade/trade.py:Trade._update_min_max", "estrade/trade.py:Trade.update", "estrade/trade_provider.py:TradeProviderBacktests.open_trade"]}
{"id": "C08", "title": "Trades open on the right side of the quote", "statement": "A BUY opened from a tick opens at ask and is valued at bid, a SELL opens at bid and is valued at ask, with the tick datetime; its initial result is minus the spread times the quantity. An invalid direction raises TradeException and opens nothing. (If the closing side price is exactly 0 the code values the trade at its open price instead.)", "quantifier": "all ticks, quantities and directions", "why_tests_cant": "all prices incl. the falsy price 0", "anchors": ["estrade/trade.py:Trade.open_from_tick", "estrade/trade.py:Trade.__init__"]}
{"id": "C09", "title": "Closing from a tick books the market price and keeps the result", "statement": "Closing an open trade from a tick records a close at the tick's bid (BUY) or ask (SELL) with the tick datetime, and the trade result right after the close equals the result it would have by only being updated with that tick, for every partial quantity (in exact arithmetic; with binary64 floats a partial close can change the result by rounding noise).", "quantifier": "all open trades, ticks and quantities", "why_tests_cant": "every split of the quantity; rounding", "anchors": ["estrade/trade.py:Trade.close_from_tick", "estrade/trade.py:Trade.update_from_tick"]}
{"id": "C10", "title": "Average results never fail on opened trades", "statement": "For a trade opened with a positive quantity, result_avg and closed_result_avg return a value after any history of non-negative closes, and closed_result_avg lies between the worst and the best per-unit close result. (A trade whose quantity was reduced to 0 by the backtest provider makes result_avg raise ZeroDivisionError.)", "quantifier": "all trades and histories", "why_tests_cant": "division by zero reachable only by specific histories", "anchors": ["estrade/trade.py:Trade.result_avg", "estrade/trade.py:Trade.closed_result_avg"]}
{"id": "C11", "title": "Backtest netting: when net exposure is conserved", "statement": "When a trade of quantity q is opened through the backtest provider, the signed net open quantity of its strategy (BUY positive, SELL negative) changes by exactly the signed quantity of the new trade if and only if the open quantities of all its opposite open trades except the oldest add up to less than q. Otherwise (a defect: BUY 5, BUY 5, SELL 5 closes both) the older opposite trades are closed entirely although the new quantity is already used up.", "quantifier": "all provider states and new trades", "why_tests_cant": "depends on the whole set of currently open trades and their quantities", "anchors": ["estrade/trade_provider.py:TradeProviderBacktests.open_trade", "estrade/trade.py:Trade.close"]}
{"id": "C12", "title": "Backtest netting outcome is fully determined", "statement": "Opening a trade of quantity q through the backtest provider walks the strategy's opposite open trades newest first: each is closed by min(its open quantity, q left) while q left is positive and entirely once q left is zero; the new trade's quantity becomes q minus the quantities absorbed while q was positive, it is registered iff that is positive, and no other trade changes.", "quantifier": "all provider states and positive quantities", "why_tests_cant": "unbounded number of open trades", "anchors": ["estrade/trade_provider.py:TradeProviderBacktests.open_trade"]}
{"id": "C13", "title": "A backtest strategy never holds both directions", "statement": "In every reachable state, all open trades of one strategy registered in one backtest provider have the same direction, provided that trades are opened through the epic with positive quantities and closes use non-negative quantities.", "quantifier": "all histories of API calls from an empty system, any number of epics/strategies sharing the provider", "why_tests_cant": "inductive invariant over unbounded histories", "anchors": ["estrade/trade_provider.py:TradeProviderBacktests.open_trade", "estrade/epic.py:Epic.open_trade"]}
{"id": "C14", "title": "Netting does not touch other strategies", "statement": "Opening a trade for a strategy never changes any trade belonging to another strategy, nor any other strategy's trade list.", "quantifier": "all states, all new trades", "why_tests_cant": "frame condition over all other objects", "anchors": ["estrade/trade_provider.py:TradeProviderBacktests.open_trade"]}
{"id": "C15", "title": "Trade ledgers are consistent", "statement": "In every reachable state each trade registered in a provider is registered there exactly once, a strategy's trades list contains exactly the registered trades that were opened for it, once each and in opening order, the provider's opened_trades are exactly the registered trades that are not fully closed, newest first.", "quantifier": "all histories of API calls", "why_tests_cant": "invariant over unbounded histories and aliasing of trade objects", "anchors": ["estrade/trade_provider.py:BaseTradeProvider.open_trade", "estrade/trade_provider.py:BaseTradeProvider.opened_trades"]}
{"id": "C16", "title": "Transaction threads: every schedule confirms the same statuses", "statement": "Whatever the order in which the provider's request threads run, interleaved with any API calls, running a thread changes nothing but the status of its own trade or close; once is_alive is False every trade registered in and every close handed to a backtest provider has status CONFIRMED; and, for programs whose decisions do not read statuses, the final states of any two schedules differ in statuses only: quantities, prices and results are identical.", "quantifier": "all interleavings of threads with API calls", "why_tests_cant": "schedules cannot be enumerated by tests", "anchors": ["estrade/trade_provider.py:BaseTradeProvider.open_trade", "estrade/trade_provider.py:BaseTradeProvider.close_trade", "estrade/trade_provider.py:BaseTradeProvider.is_alive"]}
{"id": "C17", "title": "Each tick revalues the open trades", "statement": "After an epic accepts a tick and before strategies run, every open trade registered in its provider is valued at the tick's bid (BUY) or ask (SELL), keeping everything else but the result envelope, and all other trades are unchanged. With a provider shared by two epics this includes the other epic's trades, which are valued at this epic's price (a defect).", "quantifier": "all states and ticks", "why_tests_cant": "quantifies over all registered trades", "anchors": ["estrade/epic.py:Epic._update_open_trades", "estrade/trade.py:Trade.update_from_tick"]}
{"id": "C18", "title": "get_trades returns exactly the matching trades, newest first", "statement": "get_trades(epics, open_only, only_after) yields the strategy's trades in reverse opening order restricted to the given epics and, if asked, to not fully closed ones; with only_after, when trade datetimes are non-decreasing it yields exactly the matching trades dated at or after only_after. (If datetimes are not ordered, e.g. several epics, trades after the first older one are skipped.)", "quantifier": "all trade lists and filters", "why_tests_cant": "all list contents and filter combinations", "anchors": ["estrade/strategy.py:BaseStrategy.get_trades"]}
{"id": "C19", "title": "Strategy result and profit factor", "statement": "result() is the cent-rounded sum of the results of the strategy's trades, profit_factor() is never negative and equals gains over losses (losses counted as at least 1, gains alone when there is no loss). result(trades) is the sum over the given trades. (Passing an empty list falls back to all trades of the strategy.)", "quantifier": "all trade lists", "why_tests_cant": "unbounded lists and sign/zero boundaries", "anchors": ["estrade/strategy.py:BaseStrategy.result", "estrade/strategy.py:BaseStrategy.profit_factor"]}
{"id": "C20", "title": "close_opened_trades closes everything of the strategy and nothing else", "statement": "After close_opened_trades() every trade of the strategy is fully closed, each one that was open got exactly one close of its remaining quantity at its own epic's last tick, and no trade of another strategy changed.", "quantifier": "all states", "why_tests_cant": "unbounded number of trades over several epics/providers", "anchors": ["estrade/strategy.py:BaseStrategy.close_opened_trades", "estrade/epic.py:Epic.close_trade"]}
{"id": "C21", "title": "Pause and stop are honoured", "statement": "A stopped strategy never receives a callback; a strategy paused until T receives no callback for a tick dated before T, and is active again for the first tick dated T or later (the pause is then cleared).", "quantifier": "all tick sequences and pause dates", "why_tests_cant": "temporal property over all histories", "anchors": ["estrade/strategy.py:BaseStrategy.is_active", "estrade/epic.py:Epic._execute_strategies"]}
{"id": "C22", "title": "Ticks are accepted in time order only", "statement": "An epic raises EpicException for a tick dated before its last accepted tick and then nothing changes (no frame, trade, strategy or market flag); every other tick is accepted and becomes last_tick, so the sequence of last_tick datetimes never decreases.", "quantifier": "all tick sequences", "why_tests_cant": "invariant over unbounded sequences", "anchors": ["estrade/epic.py:Epic.on_new_tick"]}
{"id": "C23", "title": "Market open predicate", "statement": "After each accepted tick, market_open is True exactly when the tick's local time of day is within [open_time, close_time] (both inclusive), its weekday is a trade day and its date is not a holiday, all in the epic's timezone.", "quantifier": "all ticks and epic calendars", "why_tests_cant": "inclusive boundaries, weekday arithmetic over all dates", "anchors": ["estrade/epic.py:Epic.is_market_open", "estrade/epic.py:Epic._in_market_hours"]}
{"id": "C24", "title": "Strategy callback protocol", "statement": "For each accepted tick an active strategy receives, in this order: on_market_open or on_market_close exactly when the market flag changed at this tick, on_every_tick_market_open iff the market is open, then on_every_tick once. Over a whole run an always-active strategy sees on_market_open and on_market_close alternate, starting with open, and exactly one on_every_tick per accepted tick.", "quantifier": "all tick sequences", "why_tests_cant": "temporal alternation over unbounded runs", "anchors": ["estrade/epic.py:Epic._execute_strategies", "estrade/epic.py:Epic.on_new_tick"]}
{"id": "C25", "title": "Ticks in UTC order are accepted in every timezone", "statement": "A sequence of ticks in non-decreasing UTC order is never rejected when the epic's local wall clock never goes backwards; (at a daylight-saving fall-back the wall clock repeats an hour and a later tick is rejected).", "quantifier": "all timezones (UTC offset functions) and tick sequences", "why_tests_cant": "needs all instants incl. the ambiguous hour", "anchors": ["estrade/epic.py:Epic.on_new_tick"]}
{"id": "C26", "title": "References are unique per epic", "statement": "add_frame_set / add_strategy with a reference already registered on the epic raises EpicException and changes nothing; otherwise it registers exactly the new object, so each epic maps each reference to at most one frame set / strategy and earlier registrations are never replaced.", "quantifier": "all registration histories", "why_tests_cant": "all sequences of registrations", "anchors": ["estrade/epic.py:Epic.add_frame_set", "estrade/epic.py:Epic.add_strategy"]}
{"id": "C27", "title": "get_frame and get_indicator_value offsets", "statement": "get_frame(ref, offset) with offset >= 0 returns the offset-th most recent frame in memory (0 = current) and None when there are not that many; an unknown frame-set reference raises KeyError; get_indicator_value returns the indicator value stored on that same frame, or None.", "quantifier": "all offsets and memory sizes", "why_tests_cant": "index arithmetic boundaries", "anchors": ["estrade/epic.py:Epic.get_frame", "estrade/epic.py:Epic.get_indicator_value", "estrade/graph/frame_set.py:FrameSet.__getitem__"]}
{"id": "C28", "title": "Accepted frame-set units", "statement": "A FrameSet with positive quantity q is accepted exactly when q divides 60 (seconds, minutes), 12 (hours, months), 7 (days), 1 (weeks), and always for ticks and years; otherwise TimeFrameException. (Quantity 0 raises ZeroDivisionError for timed units other than years; negative divisors are accepted by the code.)", "quantifier": "all units and integer quantities", "why_tests_cant": "infinite quantity domain", "anchors": ["estrade/mixins/timeframe.py:TimeframeMixin._check_unit_consistency"]}
{"id": "C29", "title": "A datetime lies in its own timeframe", "statement": "For every accepted positive unit quantity and datetime dt: frame_start(dt) <= dt < frame_end(frame_start(dt)).", "quantifier": "all units, quantities, datetimes in Python's range", "why_tests_cant": "calendar arithmetic over all dates", "anchors": ["estrade/mixins/timeframe.py:TimeframeMixin.get_frame_start", "estrade/mixins/timeframe.py:TimeframeMixin.get_frame_end"]}
{"id": "C30", "title": "Timeframes partition time", "statement": "frame_start is idempotent and monotone, the end of a timeframe is the start of the next one, and two datetimes have the same frame_start exactly when no timeframe boundary separates them: s = frame_start(dt) iff s is a frame start and s <= dt < frame_end(s).", "quantifier": "all pairs of datetimes", "why_tests_cant": "relational over all pairs", "anchors": ["estrade/mixins/timeframe.py:TimeframeMixin.get_frame_start", "estrade/mixins/timeframe.py:TimeframeMixin.get_frame_end"]}
{"id": "C31", "title": "Timeframe starts are calendar boundaries", "statement": "frame_start(dt) is the calendar boundary users expect: same minute/hour/day with seconds (minutes, hours) truncated to a multiple of q, midnight of the day, midnight of the Monday of the same ISO week (weeks and 7-day units), midnight of the first day of the month group (q months from January), 1 January of the year group (year multiple of q).", "quantifier": "all datetimes", "why_tests_cant": "leap years, month lengths over all dates", "anchors": ["estrade/mixins/timeframe.py:TimeframeMixin._get_timeframe_start_month", "estrade/mixins/timeframe.py:TimeframeMixin._get_timeframe_start_week", "estrade/mixins/timeframe.py:TimeframeMixin._get_timeframe_start_year"]}
{"id": "C32", "title": "The current frame holds the last tick", "statement": "After a timed frame set received ticks in time order, its current frame satisfies period_start <= last tick datetime < period_end and its last_tick is the last tick received.", "quantifier": "all ordered tick sequences, all units", "why_tests_cant": "unbounded sequences incl. arbitrary gaps", "anchors": ["estrade/graph/frame_set.py:FrameSet.on_new_tick", "estrade/graph/frame_set.py:FrameSet._create_new_frame_timed"]}
{"id": "C33", "title": "Timed frames are contiguous, gaps are filled with flat frames", "statement": "In a timezone without clock changes, or whose skipped times are whole frames of the timeframe (e.g. a change of one hour for minutes and single hours, or away from midnight for days), the frames in memory cover the existing times without hole or overlap: each frame ends exactly where the next starts; a frame created for a period without ticks is flat (open, high, low, last all equal to the previous frame's last tick). (When the clock skips a boundary in another way, e.g. a midnight for days or 02:00-03:00 for two hours, frames overlap.)", "quantifier": "all ordered tick sequences", "why_tests_cant": "arbitrary gaps", "anchors": ["estrade/graph/frame_set.py:FrameSet._create_new_frame_timed", "estrade/graph/frame_set.py:FrameSet.create_new_frame"]}
{"id": "C34", "title": "A frame summarises exactly the ticks of its period", "statement": "The frame covering a period that received ticks has first_tick = first of them, last_tick = last of them, high_tick / low_tick the earliest tick with the greatest / least value, nb_ticks = their number; every received tick is counted in exactly one such frame.", "quantifier": "all tick sequences", "why_tests_cant": "refinement over unbounded sequences", "anchors": ["estrade/graph/frame_set.py:Frame.on_new_tick", "estrade/graph/frame_set.py:FrameSet.on_new_tick"]}
{"id": "C35", "title": "Frame memory is bounded and frames are linked", "statement": "After every tick at most max_frames_in_memory (>= 1) frames are kept, they are the most recent ones in creation order, previous_frame/next_frame link exactly the neighbours in memory, only the current frame is not closed, and evicted frames are no longer reachable from frames in memory.", "quantifier": "all tick sequences and memory sizes", "why_tests_cant": "invariant of a mutable linked structure over unbounded sequences", "anchors": ["estrade/graph/frame_set.py:FrameSet.clean_old_frames", "estrade/graph/frame_set.py:FrameSet.create_new_frame"]}
{"id": "C36", "title": "Tick-count frames group exactly q ticks", "statement": "A frame set with unit TICK and quantity q >= 1 attached to an epic puts the i-th tick it receives into frame i div q, whatever the dates of the ticks. (is_frame_over_tick is meant to start a new frame on a new day, but this never happens when ticks come from an epic, because the epic's last tick is updated before the frame sets are called.)", "quantifier": "all tick sequences", "why_tests_cant": "unbounded sequences; end-to-end interaction of epic and frame set", "anchors": ["estrade/graph/frame_set.py:FrameSet.is_frame_over_tick", "estrade/epic.py:Epic.on_new_tick"]}
{"id": "C37", "title": "Gap filling terminates", "statement": "Processing a tick terminates for every accepted positive unit quantity and every gap length, creating exactly one frame per elapsed period. (For an accepted negative quantity the fill loop walks backwards in time: the second tick is never processed and the loop only ends with OverflowError at the first date of Python.)", "quantifier": "all gaps and units", "why_tests_cant": "termination is not testable", "anchors": ["estrade/graph/frame_set.py:FrameSet._create_new_frame_timed"]}
{"id": "C38", "title": "Candles are well ordered", "statement": "Every Japanese and Heikin Ashi candle satisfies low <= min(open, last) <= max(open, last) <= high, at all times, for every tick history; this also holds with IEEE-754 binary64 arithmetic for finite quotes up to 2^1019 in magnitude.", "quantifier": "all tick histories", "why_tests_cant": "invariant over histories plus rounding", "anchors": ["estrade/graph/indicators/candle_set.py:JapaneseCandle", "estrade/graph/indicators/candle_set.py:HeikinAshiCandle", "estrade/graph/base_indicator.py:BaseIndicatorValue.on_new_tick"]}
{"id": "C39", "title": "Candle geometry", "statement": "For a candle with non-zero open and last, head, body and tail are non-negative and add up to height, and the color is GREEN/RED/BLACK exactly when last is above/below/equal to open; when open or last is 0 body, head, tail and color are None. With binary64 floats head, body and tail are the floats nearest to the exact cent differences (quotes up to 2^30).", "quantifier": "all candles", "why_tests_cant": "all numeric inputs", "anchors": ["estrade/graph/indicators/candle_set.py:BaseCandle"]}
{"id": "C40", "title": "Heikin Ashi recurrence and stability", "statement": "A Heikin Ashi candle opens at the mean of the previous candle's open and last (first tick value if there is none) and its last is the mean of its first, high, low and last tick values. The open of a closed candle should never change afterwards; the code recomputes it from the frames in memory, so it changes when older frames are evicted.", "quantifier": "all tick histories and memory sizes", "why_tests_cant": "history-dependent recursion", "anchors": ["estrade/graph/indicators/candle_set.py:HeikinAshiCandle.open", "estrade/graph/frame_set.py:FrameSet.clean_old_frames"]}
{"id": "C41", "title": "Simple moving average", "statement": "get_value(p) for 1 <= p <= max_periods on any frame of a frame set is the cent-rounded mean of the last tick values of the p most recent frames up to that frame (regardless of how many frames are kept in memory), and None exactly when fewer than p frames were created so far.", "quantifier": "all tick histories, all p, all memory sizes >= 1", "why_tests_cant": "sliding window over unbounded histories with eviction", "anchors": ["estrade/graph/indicators/simple_moving_average.py:SimpleMovingAverageValue"]}
{"id": "C42", "title": "Relative strength index", "statement": "With n = periods * unit_quantity >= 2 the RSI value of a frame is 100 - 100/(1 + gains/losses) over the last n frame-to-frame changes (100 when there is no loss, 0 when no gain), it always lies in [0, 100], and is None exactly when fewer than n+1 frames were created. The range [0, 100] also holds with binary64 floats, where the value is the float of the index rounded to hundredths (off by at most one hundredth at near ties). (With n = 1 only the second frame ever gets a value.)", "quantifier": "all tick histories", "why_tests_cant": "sliding window over unbounded histories", "anchors": ["estrade/graph/indicators/rsi.py:RSIValue", "estrade/graph/indicators/rsi.py:RSI.set_frame_set"]}
{"id": "C43", "title": "Pivot levels are ordered", "statement": "Classic pivots satisfy support3 <= support2 <= support1 <= pivot <= resistance1 <= resistance2 <= resistance3, computed from the previous frame's high, low and last; OLHC pivots, which also use the current open, satisfy it exactly when the pivot is in the previous range, in particular when the current open is. (OLHC pivots violate it when the current open gaps far enough outside the previous range; all levels are None when the pivot is exactly 0.)", "quantifier": "all previous frames", "why_tests_cant": "all numeric inputs, rounding", "anchors": ["estrade/graph/indicators/pivot.py:PivotTypeClassic", "estrade/graph/indicators/pivot.py:PivotTypeOLHC"]}
{"id": "C44", "title": "market_open_only indicators ignore closed-market ticks", "statement": "The values of an indicator created with market_open_only depend only on ticks received while the market is open. (Holds for candles as long as no gap frame is created at an opening; violated by gap-filling frames and by SMA/RSI, which read the frame's last tick.)", "quantifier": "all tick histories", "why_tests_cant": "relational property over histories", "anchors": ["estrade/graph/base_indicator.py:BaseIndicatorValue.on_new_tick", "estrade/graph/base_indicator.py:BaseIndicator.build_value_from_frame", "estrade/graph/frame_set.py:FrameSet._create_new_frame_timed"]}
{"id": "C45", "title": "CSV reports contain every trade", "statement": "A report writes one row per strategy and, per strategy, one row per trade (newest first) with the trade's own figures. (When the target file already exists, e.g. two reports within one second or two strategies with the same reference, nothing is written to it.)", "quantifier": "all strategies, trades and pre-existing files", "why_tests_cant": "file-system states and unbounded rows", "anchors": ["estrade/reporting/csv.py:CSVWriter.dict_to_csv", "estrade/reporting/csv.py:ReportingCSV.report"]}
{"id": "C46", "title": "Default references", "statement": "An explicit non-empty reference is kept as is; a default reference is a 5 character prefix of a UUID, so among more than 16^5 default references two must coincide, whatever the UUIDs.", "quantifier": "all reference arguments, all UUID generators", "why_tests_cant": "counting argument", "anchors": ["estrade/mixins/ref.py:RefMixin"]}
{"id": "C47", "title": "Epics are isolated", "statement": "A tick sent to an epic changes nothing in another epic with its own provider: last_tick, market flag, frame sets attached only there, and the trades of that provider, provided strategies take no action.", "quantifier": "all states with several epics", "why_tests_cant": "frame condition over all other objects", "anchors": ["estrade/epic.py:Epic.on_new_tick"]}
{"id": "C48", "title": "Tick provider lookup", "statement": "get_epic_by_ref returns the last epic of the given list having that reference and None when there is none.", "quantifier": "all epic lists and references", "why_tests_cant": "all lists incl. duplicates", "anchors": ["estrade/tick_provider.py:BaseTickProvider"]}
{"id": "C49", "title": "Failed calls leave no half-done trade", "statement": "Opening a trade with an invalid direction or closing with a naive datetime raises and leaves trades, ledgers, threads and frames unchanged. (Adding an RSI needing more frames than kept in memory raises but leaves the indicator registered.)", "quantifier": "all states and failing calls", "why_tests_cant": "exception safety over all states", "anchors": ["estrade/trade.py:Trade.open_from_tick", "estrade/trade.py:Trade.close", "estrade/graph/indicators/rsi.py:RSI.set_frame_set", "estrade/graph/frame_set.py:FrameSet.add_indicator"]}
{"id": "C50", "title": "Results depend only on the quantity closed at each price", "statement": "Two trades with the same direction, open price, open quantity and current price have the same opened_quantities, closed_quantities, closed_result and result as soon as the same quantity was closed at each price, whatever the number, the order and the splitting of the closes (exact arithmetic; on floats the order of the closes shows in the last digits).", "quantifier": "all trades and all lists of closes", "why_tests_cant": "relational over all reorderings and splittings of closes", "anchors": ["estrade/trade.py:Trade.result", "estrade/trade.py:Trade.closed_result", "estrade/trade.py:TradeClose.result"]}
{"id": "C51", "title": "A SELL is the mirror of a BUY", "statement": "Two trades differing only in their direction and receiving the same updates and closes (any prices, quantities, dates) record the same closes and open quantities, have opposite result, opened_result and closed_result, and the max_result of one is the opposite of the min_result of the other. This holds in exact arithmetic and in binary64, infinities and NaN included.", "quantifier": "all prices, quantities and call sequences", "why_tests_cant": "relational over all call histories", "anchors": ["estrade/trade.py:Trade", "estrade/trade.py:TradeClose.result_avg"]}
{"id": "C52", "title": "Results only depend on price differences", "statement": "Adding the same amount to the open price, the initial price and all prices of the updates and closes of a trade changes neither its quantities nor result, opened_result, closed_result, max_result and min_result, as long as the initial price is not exactly 0 in either case (0 is replaced by the open price).", "quantifier": "all prices, quantities and call sequences", "why_tests_cant": "relational over all call histories", "anchors": ["estrade/trade.py:Trade.__init__", "estrade/trade.py:Trade.update", "estrade/trade.py:Trade.close"]}
{"id": "C53", "title": "Nested timeframes agree", "statement": "When two frame sets receive the same ticks and every boundary of the coarse unit is a boundary of the fine one (multiples of the same unit, seconds in minutes in hours in days in weeks, single days in months, months in years), each coarse frame that received ticks has the first tick of the first, the last tick of the last, the highest high and lowest low (earliest on ties) and the total number of ticks of the fine frames of its period that received ticks. (Fine frames filling a gap must be left out; weeks do not nest in months.)", "quantifier": "all tick histories, units, quantities and memory sizes", "why_tests_cant": "relational over unbounded histories and all pairs of units", "anchors": ["estrade/graph/frame_set.py:FrameSet.on_new_tick", "estrade/graph/frame_set.py:Frame.on_new_tick", "estrade/mixins/timeframe.py:TimeframeMixin"]}
{"id": "C54", "title": "Memory size, market flag, indicators and epic do not change frames", "statement": "The frames created by a frame set (period, first, last, high, low tick, number of ticks) are determined by its unit and the ticks received: max_frames_in_memory (>= 1), indicators, market flag and the epic it is attached to make no difference.", "quantifier": "all tick histories in any order and zone", "why_tests_cant": "relational over unbounded histories", "anchors": ["estrade/graph/frame_set.py:FrameSet.on_new_tick", "estrade/graph/frame_set.py:FrameSet.clean_old_frames"]}
{"id": "C55", "title": "Strategies may send ticks and register objects from their callbacks", "statement": "When callbacks themselves send ticks to epics (the calling epic included, to any depth), create objects or register them, every state is still one of the states the other properties are about: quantities stay accounted for, a backtest strategy never holds both directions, the market flag matches the last tick, references stay unique; a refused tick changes nothing and the clock of an epic's last tick never goes back. (The order of callbacks is not preserved: a strategy may be told that the market closed without having been told that it opened; registering a strategy with the calling epic raises RuntimeError.)", "quantifier": "all programs of callbacks making any operation, all recursion depths, all histories", "why_tests_cant": "unbounded nesting and interleaving of ticks inside ticks", "anchors": ["estrade/epic.py:Epic.on_new_tick", "estrade/epic.py:Epic._execute_strategies", "estrade/epic.py:Epic.add_strategy"]}
{"id": "C56", "title": "Charts depend on ticks only", "statement": "Frames, indicator values, last ticks and market flags do not depend on what strategies and the program trade, pause, stop or raise; and the frame set of one epic depends only on the ticks sent to this epic, not on the other epics nor on the interleaving of their ticks, as long as no tick raises.", "quantifier": "all pairs of programs and histories with the same ticks", "why_tests_cant": "relational: compares all pairs of runs", "anchors": ["estrade/epic.py:Epic.on_new_tick", "estrade/epic.py:Epic._update_frame_sets", "estrade/graph/frame_set.py:FrameSet.on_new_tick"]}
{"id": "C57", "title": "Navigation between indicator values", "statement": "Walking from an indicator value with .previous ends and sees exactly the earlier values in memory, the most recent first; walking with .next ends and sees the values of the following frames up to the first frame without one. next.previous gives the value back; previous.next gives it back for indicators that listen to all ticks. closed is true exactly on frames in memory that have a successor.", "quantifier": "all indicators, frame set histories, frames in memory", "why_tests_cant": "needs the linked structure after arbitrary histories with evictions, gaps and exceptions", "anchors": ["estrade/graph/base_indicator.py:BaseIndicatorValue.previous", "estrade/graph/base_indicator.py:BaseIndicatorValue.next", "estrade/graph/base_indicator.py:BaseIndicatorValue.closed"]}
{"id": "C58", "title": "Shared tick objects", "statement": "An epic rewrites the datetime of the tick object it receives, accepted or not, into its own timezone; the instant and the prices never change. As long as every tick object goes to epics of one timezone only, programs that share and resend tick objects behave exactly as if each tick were a fresh copy.", "quantifier": "all programs, tick objects, interleavings of epics", "why_tests_cant": "aliasing: compares all programs on shared objects with the same programs on copies", "anchors": ["estrade/epic.py:Epic.on_new_tick", "estrade/tick.py:Tick", "estrade/mixins/timed.py:TimedMixin.datetime"]}
{"id": "C59", "title": "Texts of dates", "statement": "The open_date of a trade's dictionary, the date of Tick.asdict(datetime_to_str=True) and the stamp in the names of the reports show the wall clock to the second: the text determines the second, and sorting texts sorts wall clocks; texts of datetime_utc sort like instants. Reports made in different seconds never write to each other's files. The text of a tick (str(tick)) has the date, the mid value, bid, ask and spread as separate words, and these lines sort by wall clock.", "quantifier": "all representable datetimes, separators, reports", "why_tests_cant": "order and injectivity of texts for all pairs of dates", "anchors": ["estrade/trade.py:Trade.asdict", "estrade/tick.py:Tick.asdict", "estrade/mixins/timed.py:TimedMixin.datetime_utc", "estrade/reporting/csv.py:ReportingCSV.report", "estrade/tick.py:Tick.__str__"]}
{"id": "C60", "title": "CSV reports read back", "statement": "The text of a CSV report, read by any RFC 4180 reader, gives back one row per strategy and one row per trade with its reference, status, epic, strategy, open second, direction, quantities, open value and result, whatever characters the references contain.", "quantifier": "all reachable states, lists of strategies, references, texts of floats", "why_tests_cant": "all field contents, quoting included", "anchors": ["estrade/reporting/csv.py:CSVWriter.dict_to_csv", "estrade/reporting/csv.py:ReportingCSV.report", "estrade/trade.py:Trade.asdict"]}
{"id": "C61", "title": "Strategies and tick providers may keep data of their own", "statement": "Whatever private data the callbacks of strategies and the main program keep and read between calls (attributes, counters, files, clocks, random numbers), the program makes the same operations with the same states and outcomes as one whose callbacks depend on the state of the library only: every state is one the other properties are about, and properties of whole runs, e.g. the callback protocol, hold as they are.", "quantifier": "all types of private data, all callbacks and main programs using it (re-entrant ones included), all depths of nested ticks, all initial states", "why_tests_cant": "quantifies over all user code with memory; a test exercises one strategy with one history", "anchors": ["estrade/strategy.py:BaseStrategy.on_every_tick", "estrade/tick_provider.py:BaseTickProvider.run", "estrade/epic.py:Epic.on_new_tick"]}
{"id": "C62", "title": "Indicator classes of the user are told every tick of their frame once", "statement": "The value of an indicator class written by a user is created on a frame at the first tick of the frame the indicator listens to, never without one; from then on its on_new_tick is called exactly once per tick of the frame, in order of reception, and when it is, its frame already shows the tick (last, high, low, number of ticks) and earlier frames show what they will show for ever. A class that only uses the ticks it is given therefore holds a fold over these ticks.", "quantifier": "all user classes (arbitrary functions of the frames, which may raise), all frame units and memories, all tick and market histories, all arithmetics", "why_tests_cant": "quantifies over user code and over all histories, including frames created for empty periods and openings and closings within a frame", "anchors": ["estrade/graph/base_indicator.py:BaseIndicatorValue.on_new_tick", "estrade/graph/base_indicator.py:BaseIndicator.build_value_from_frame", "estrade/graph/frame_set.py:Frame._upsert_indicators"]}
{"id": "C63", "title": "Programs open and close at quoted prices, when quoted, in order", "statement": "Unless Trade.close is called with a price of the caller, everything a program opens or closes, in callbacks or outside, directly or as reductions by a provider, is opened at the ask (BUY) or bid (SELL) and closed at the bid or ask of a tick its epic accepted, and dated by this tick: the last one of the epic when the call is made. Terms of trades and of closes never change later. For a trade opened after the first tick of its epic, opening, closes and last tick are in this order on the clock of the epic.", "quantifier": "all programs, all strategies (callbacks reading the whole state), all providers, all sequences of ticks and calls, all arithmetics; the order also with callbacks that send ticks", "why_tests_cant": "look-ahead or stale prices are a property of all interleavings of ticks, callbacks and closes; tests check one opening and one closing", "anchors": ["estrade/trade.py:Trade.open_from_tick", "estrade/trade.py:Trade.close_from_epic", "estrade/epic.py:Epic.on_new_tick", "estrade/trade_provider.py:TradeProviderBacktests.open_trade"]}
{"id": "C64", "title": "Strategies do not influence each other", "statement": "A strategy whose callbacks decide on its own trades, its own flags and the market (epics, frames, indicators) ends with the same trades, closes, prices, results, pause and stop flags and the same sequence of callback calls whatever the other strategies and the request threads do, as long as the others do not raise and do not act on its trades: two runs with the same ticks, registrations and orders of this strategy agree on all it owns, in particular a run in which the other strategies are idle. Sharing epics and a netting provider makes no difference.", "quantifier": "all pairs of programs, all other strategies and all their calls, all tick sequences, all schedules of request threads, all providers, all arithmetics", "why_tests_cant": "it compares two executions, for every other strategy and every interleaving; a test compares one strategy with one other", "anchors": ["estrade/trade_provider.py:TradeProviderBacktests.open_trade", "estrade/trade_provider.py:BaseTradeProvider.opened_trades", "estrade/epic.py:Epic.on_new_tick", "estrade/epic.py:Epic._execute_strategies", "estrade/strategy.py:BaseStrategy.open_trade", "estrade/strategy.py:BaseStrategy.close_opened_trades"]}
{"id": "C65", "title": "Several epics can be backtested together", "statement": "A strategy that runs on some epics, with frame sets and trade providers that the other epics do not use, and decides on its own trades and flags and on those epics and frame sets, ends with the same trades, results, candles, indicators, flags and callback calls whether or not the other epics receive ticks, at any moments and at any prices, and whatever the strategies on them do, as long as they do not raise and do not act on its trades. When two epics share a provider this is false: a tick of one revalues the open trades of the other.", "quantifier": "all divisions of epics and frame sets, all reachable states wired along the division, all pairs of programs, all interleavings of ticks of the other epics, all schedules of request threads, all arithmetics", "why_tests_cant": "it compares two executions for every interleaving of the ticks of the epics; a test sends one sequence", "anchors": ["estrade/epic.py:Epic.on_new_tick", "estrade/epic.py:Epic._update_frame_sets", "estrade/epic.py:Epic._execute_strategies", "estrade/epic.py:Epic._update_open_trades", "estrade/trade_provider.py:BaseTradeProvider.opened_trades"]}
{"id": "C66", "title": "Backtest results come from quoted prices", "statement": "In a program that opens with positive quantities and closes at the quotes, the result of a closed trade is the sum, over its closes, of the quantity times the difference between the quotes of two ticks its epic accepted: the tick of the opening and the tick of that close (ask to bid for a BUY, bid to ask for a SELL); the result of a strategy without open trades is the sum over all its trades, without rounding loss when quotes are in cents. Hence no strategy, whatever it does, earns per unit more than the highest bid less the lowest ask, nor loses more than the highest ask less the lowest bid; while quotes do not move, every strategy loses exactly the spread on every unit traded. This needs a tick before the first trade: a trade opened before the first tick of its epic is booked at price 0.", "quantifier": "all strategies (all programs), all tick sequences, all netting and partial closes, all bounds on the quotes, exact arithmetic", "why_tests_cant": "it bounds the result of every conceivable strategy on every sequence of quotes; a test computes one result", "anchors": ["estrade/strategy.py:BaseStrategy.result", "estrade/trade.py:Trade.result", "estrade/trade.py:Trade.close", "estrade/trade.py:Trade.open_from_tick", "estrade/epic.py:Epic.open_trade", "estrade/epic.py:Epic.close_trade", "estrade/trade_provider.py:TradeProviderBacktests.open_trade"]}
{"id": "C67", "title": "A backtest tells what a live provider would record", "statement": "A program run on TradeProviderBacktests and the same program run on any other trade provider (one that answers requests with other statuses, or not at all) end with the same trades (quantities, prices, closes, results, envelopes; statuses apart), the same ledgers, strategies, frames and callbacks, provided that no strategy opens a trade while it has an open trade in the other direction on that provider, opens with positive quantities, and decides independently of statuses. This holds for strategies that trade in one direction only, and for strategies that call close_opened_trades() before opening. A trade against an open position is recorded differently: the backtest closes part of the position, another provider holds both trades and the result differs by the spread.", "quantifier": "all strategies (all programs), all kinds of providers, all schedules of the request threads, all operations and tick sequences, all arithmetics", "why_tests_cant": "it compares two runs of an arbitrary program; a test runs one program on one provider", "anchors": ["estrade/trade_provider.py:TradeProviderBacktests.open_trade", "estrade/trade_provider.py:BaseTradeProvider.open_trade", "estrade/trade_provider.py:BaseTradeProvider.close_trade", "estrade/strategy.py:BaseStrategy.close_opened_trades"]}
{"id": "C68", "title": "Trades handled by hand keep the books in order", "statement": "Building a trade with Trade.open_from_epic and handing it to the epic's trade provider is the same as Epic.open_trade; closing it with Trade.close_from_epic and handing the close over is the same as Epic.close_trade. Trade(...) keeps every argument it is given (a current_close_value that is missing or 0 becomes the open value), starts with max_result = min_result = result, refuses a naive date, and changes nothing else. In a program that also builds trades itself (Trade(...) with any price, date and status, or Trade.open_from_tick), and hands each of them over at most once, to the provider of its epic, before any of it is closed: every ledger holds each trade once, a provider holds only trades of its epics, a strategy holds exactly its registered trades, no trade is closed beyond its quantity, and the open trades of a strategy on a backtest provider have one direction. A trade not handed over yet is in no ledger and is left alone by ticks, netting and close_opened_trades(). Each condition is needed: a trade handed over twice counts twice in results, one that was partly closed before can end with more closed than opened, one handed to another provider than its epic's is not revalued by the ticks of its epic.", "quantifier": "all programs mixing all API calls with hand-built trades, in callbacks or outside, in any order; all arithmetics", "why_tests_cant": "it is an invariant of all interleavings of building, handing over, ticks and netting; tests build one trade", "anchors": ["estrade/trade.py:Trade.__init__", "estrade/trade.py:Trade.open_from_tick", "estrade/trade.py:Trade.open_from_epic", "estrade/trade_provider.py:BaseTradeProvider.open_trade", "estrade/trade_provider.py:BaseTradeProvider.close_trade", "estrade/trade_provider.py:TradeProviderBacktests.open_trade", "estrade/epic.py:Epic.open_trade"]}
{"id": "C69", "title": "Units do not matter", "statement": "A program run in other units - every price multiplied by a factor k and moved by an offset, every quantity multiplied by a positive integer, and for a negative k the market turned upside down with bid and ask, BUY and SELL exchanged - goes through the same callbacks and ends with corresponding trades, ledgers, strategies and epics; quantities are multiplied alike, and every result (of a trade, a close, a strategy) by |k| times the factor of the quantities, whatever frame sets and indicators either program has. Changing the size of prices requires quotes in whole cents in both units; moving them requires that no trade is opened before the first tick of its epic and no price is 0. The profit factor of a strategy is unchanged when its losses are at least 1 in both units; below that it depends on the units. Prices finer than a cent are lost: a gain of 40 pips on an instrument quoted with four decimals is recorded as 0.", "quantifier": "all strategies (all programs, deciding on anything the two runs have in common), all unit changes, all operations and tick sequences, exact arithmetic", "why_tests_cant": "it relates two runs of an arbitrary program under all changes of units; a test runs one program in one unit", "anchors": ["estrade/trade.py:Trade.result", "estrade/trade.py:Trade.close", "estrade/trade.py:Trade.current_close_value", "estrade/strategy.py:BaseStrategy.result", "estrade/strategy.py:BaseStrategy.profit_factor", "estrade/tick.py:Tick", "estrade/trade_provider.py:TradeProviderBacktests.open_trade", "estrade/epic.py:Epic.on_new_tick"]}
{"id": "C70", "title": "Charts do not influence trading", "statement": "For strategies that do not look at frame sets and indicators, creating frame sets, attaching them to epics and adding indicators changes nothing: the run ends with the same trades, ledgers, strategies, epics (ticks, market state) and the same sequence of callbacks as the program without them, as long as no frame set or indicator raises. Two programs that differ only in their charts trade alike. (An indicator that raises prevents the callbacks of that tick: C56.)", "quantifier": "all chart-blind programs, all operations and tick sequences, all frame sets and indicators, all arithmetics", "why_tests_cant": "it compares all pairs of programs that differ in their charts; tests run one configuration", "anchors": ["estrade/epic.py:Epic.on_new_tick", "estrade/epic.py:Epic.add_frame_set", "estrade/graph/frame_set.py:FrameSet.on_new_tick", "estrade/graph/base_indicator.py:BaseIndicator"]}
{"id": "C71", "title": "Charts of built-in indicators raise nothing", "statement": "A program whose frame sets keep at least one frame of at least one unit, are used in one time zone each (of forward-resolving gaps) and carry built-in indicators only (candles, pivots, moving averages, RSI with a number of periods other than 0, no reference used for two classes of indicators) is never interrupted by its charts: no tick raises out of a frame set or an indicator, whatever the quotes, the strategies and the order of operations, as long as the ticks stay N years away from the ends of the calendar (N the longest frame in years). On floats this holds for quotes up to 2^800, and for all floats (NaN and infinities included) without RSI. With C70, such charts change nothing for strategies that do not look at them. A reference reused for an indicator of another class in the course of the run makes every later tick raise.", "quantifier": "all programs of strategies, all operations and tick sequences, all frame sets and built-in indicators, all time zones resolving gaps forward, exact numbers and floats", "why_tests_cant": "an exception appears only in particular sequences of ticks (equal prices, jumps over frames, month ends, changes of hour); tests feed a handful of sequences", "anchors": ["estrade/graph/frame_set.py:FrameSet.on_new_tick", "estrade/graph/frame_set.py:FrameSet.create_new_frame", "estrade/graph/frame_set.py:Frame.on_new_tick", "estrade/graph/base_indicator.py:BaseIndicator.build_value_from_frame", "estrade/graph/indicators/rsi.py:RSIValue._build_rsi", "estrade/mixins/timeframe.py:TimeframeMixin"]}
{"id": "C72", "title": "The record of a run is only ever added to", "statement": "From any state on, whatever the program and its callbacks do (ticks, openings, closings, netting, threads, new objects): every trade keeps its epic, strategy, direction, quantity, open price, date and reference; its closes stay in place with their price, quantity, date and reference; the trade lists of providers and strategies and the registrations of epics only grow at the end; requests handed to providers stay, those answered stay answered; epics keep their settings and frame sets their definition. Hence booked results never change, and a trade found closed has its final result, maximum and minimum (closes with negative quantities excluded).", "quantifier": "all states, all programs (re-entrant callbacks included), all continuations, all arithmetics", "why_tests_cant": "it relates every state to all its continuations; tests look at the state after particular calls", "anchors": ["estrade/trade.py:Trade.close", "estrade/trade.py:Trade.update", "estrade/trade_provider.py:TradeProviderBacktests.open_trade", "estrade/trade_provider.py:BaseTradeProvider.open_trade", "estrade/strategy.py:BaseStrategy.close_opened_trades", "estrade/epic.py:Epic.on_new_tick"]}
{"id": "C73", "title": "Settings of an epic may be reassigned at any time", "statement": "Opening hours, trading days, holidays, time zone and trade provider of an epic may be reassigned by the main program or by strategy callbacks. Reassigning hours, days or holidays never touches the books: trades, ledgers and strategies are those of some run that reassigns nothing, so every guarantee about them still holds. The market state set by a tick is the one given by the settings in force when the tick arrives, even if callbacks reassign them while the tick is handled. An unknown zone name raises EpicException and changes nothing; after a change of zone, ticks are refused exactly when they are earlier, as instants, than the last one. Whatever is reassigned, trades, ledgers and requests are only ever added to.", "quantifier": "all programs (callbacks included), all sequences of operations and assignments, all states, all zones and ticks", "why_tests_cant": "assignments can happen between any two steps of a run and inside callbacks of a tick being handled; the claim compares all such runs with runs without assignments", "anchors": ["estrade/epic.py:75-84", "estrade/epic.py:106-132", "estrade/epic.py:152-204", "estrade/epic.py:227-259"]}
{"id": "C74", "title": "A backtest does the same at other dates", "statement": "Move every date of a program - ticks, holidays, pauses, explicit closing dates - by a whole number of weeks (by whole periods of 400 years when it uses frame sets of months or years, and by a multiple of q years when it has frames of q years). Then, provided charts raise no exception in either run (always so for built-in indicators away from the ends of the calendar), the moved program goes through the same states with the dates moved: the same frames with the same prices and indicator values, the same market openings, the same callbacks, trades, results and profit factors, and every operation ends the same way. Strategies may read charts, trades and dates, as long as they make the same calls with moved dates.", "quantifier": "all programs, all strategies that make corresponding calls in corresponding states, all ticks from 2 January 1900 on, all time zones that do later what they did, all numbers (exact, floats), whole weeks of any sign", "why_tests_cant": "A relation between two whole runs of arbitrary programs: each test fixes one history at one date.", "anchors": ["estrade/mixins/timeframe.py:84-162", "estrade/graph/frame_set.py:193-279", "estrade/epic.py:152-259", "estrade/strategy.py:46-68", "estrade/trade.py:189-287"]}
{"id": "C75", "title": "Trade providers written by users, whose requests run in threads", "statement": "open_trade_request and close_trade_request may be any code that reads everything, assigns the status and the price of the trade or close it is about, makes API calls with sound quantities, returns or raises; its threads may go on at any point between two calls of the program, also between the calls of a callback during a tick. Then the books stay in order: ledgers and strategies list each of their trades once, a strategy lists exactly its trades, a trade is never closed beyond its quantity, and the open trades a backtest provider holds for one strategy all have the same direction. The same holds when requests also assign filled quantities, as long as a trade is not set below what is already closed and closes are lowered on other than backtest providers only. A request changes only its own trade or close, disturbs no other request, and a request that raises ends its thread and nothing else. A price or quantity other than the ordered one moves the trade's result by exactly the difference.", "quantifier": "all request codes, all schedules, all programs (callbacks included), all reachable states; over exact numbers for the amounts, every number type for the rest", "why_tests_cant": "threads interleave with the program in unboundedly many ways and the code of the broker is unknown; a test runs one request under one schedule", "anchors": ["estrade/trade_provider.py:44-83", "estrade/trade_provider.py:85-117", "estrade/trade.py:73-91", "estrade/trade.py:421-428", "estrade/epic.py:214-259"]}
{"id": "C76", "title": "A quote delivered more than once", "statement": "Feeds repeat quotes. When some ticks are passed to their epic again, any number of times, before anything else happens, a program whose frame sets use calendar units and library indicators ends with the same epics, frames (prices, dates, memory, links) and indicator values as if each quote had come once, whatever its strategies do; only the frames' numbers of ticks differ. If the orders do not come from the strategies' callbacks, trades, providers and strategies are the same too. With tick-count frames, user-written indicators or strategies that order on every tick this is not so.", "quantifier": "all programs, all numbers of repetitions of all ticks, all time zones whose gaps resolve forward, all strategies, exact numbers and floats (NaN included)", "why_tests_cant": "a repeated quote passes through gap filling, min/max, moving averages and RSI in every possible state of the frames; a test repeats one quote in one state", "anchors": ["estrade/graph/frame_set.py:84-123", "estrade/graph/frame_set.py:175-286", "estrade/graph/base_indicator.py:98-105", "estrade/graph/indicators/rsi.py:55-95", "estrade/epic.py:227-259", "estrade/trade.py:155-205"]}
{"id": "C77", "title": "Indicator objects registered with several frame sets", "statement": "Registering one indicator object with several frame sets, of any epics, at any time, gives the same charts, trades and exceptions as creating one object per registration, provided an RSI object is used with frame sets of one unit_quantity. indicator.epic is the epic of the frame set registered last.", "quantifier": "all programs, strategies, indicators (user-written ones included), registrations at any time", "why_tests_cant": "aliasing between every pair of frame sets over all interleavings of registrations and ticks", "anchors": ["estrade/graph/frame_set.py:FrameSet.add_indicator", "estrade/graph/base_indicator.py:BaseIndicator.set_frame_set", "estrade/graph/indicators/rsi.py:RSI.set_frame_set", "estrade/graph/base_indicator.py:BaseIndicator.epic"]}
{"id": "C78", "title": "Request threads may run at any point", "statement": "Request threads may run between any two statements of the library: inside the netting loop of open_trade, while open trades are revalued, between the computation of a close and its registration, inside callbacks. For a program whose decisions do not depend on statuses or on the progress of threads, every operation returns or raises as without interruptions, every figure is the same, and the final state is the one reached when the same threads run after the last operation, one after the other; in particular no status is lost.", "quantifier": "all such programs, all schedules of all threads at all preemption points", "why_tests_cant": "interleavings inside calls depend on the interpreter's thread switches; a test sees a few of them", "anchors": ["estrade/trade_provider.py:TradeProviderBacktests.open_trade", "estrade/trade_provider.py:BaseTradeProvider.open_trade", "estrade/trade_provider.py:BaseTradeProvider.close_trade", "estrade/trade.py:Trade.update", "estrade/trade.py:Trade.close", "estrade/epic.py:Epic.on_new_tick", "estrade/strategy.py:BaseStrategy.close_opened_trades"]}
