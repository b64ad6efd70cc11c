-Q theories Verif
theories/PyBase.v
theories/Num.v
theories/Calendar.v
theories/SpecCalendar.v
theories/Arrow.v
theories/Timeframe.v
theories/Tick.v
theories/Trade.v
theories/Frames.v
theories/World.v
theories/Report.v
theories/NumQProofs.v
theories/SpecTick.v
theories/TickProofs.v
theories/PropTick.v
theories/SpecRound.v
theories/SpecTrade.v
theories/TradeProofs.v
theories/SpecCalls.v
theories/MirrorProofs.v
theories/PropTrade.v
theories/CalendarProofs.v
theories/SpecTimeframe.v
theories/TimeframeProofs.v
theories/PropTimeframe.v
theories/SpecFrames.v
theories/FramesProofs.v
theories/FrameTimeProofs.v
theories/FrameMoreProofs.v
theories/FrameFinalProofs.v
theories/SpecNest.v
theories/NestProofs.v
theories/FrameExamples.v
theories/PropFrames.v
theories/PropNest.v
theories/SpecSkip.v
theories/FrameSkipProofs.v
theories/NestSkipProofs.v
theories/SkipExamples.v
theories/PropSkip.v
theories/SpecWorld.v
theories/WorldProofs.v
theories/LedgerProofs.v
theories/NettingProofs.v
theories/QuantityProofs.v
theories/ScheduleProofs.v
theories/ThreadProofs.v
theories/ProviderProofs.v
theories/WorldExamples.v
theories/PropProvider.v
theories/SpecEpic.v
theories/EpicProofs.v
theories/StrategyProofs.v
theories/EpicMoreProofs.v
theories/EpicTimeProofs.v
theories/EpicRunProofs.v
theories/EpicFinalProofs.v
theories/EpicHistProofs.v
theories/EpicApiProofs.v
theories/StrategyExamples.v
theories/PropStrategy.v
theories/EpicExamples.v
theories/PropEpic.v
theories/SpecIndicators.v
theories/IndicatorProofs.v
theories/IndicatorRunProofs.v
theories/CandleProofs.v
theories/PivotProofs.v
theories/AverageProofs.v
theories/RsiProofs.v
theories/LogProofs.v
theories/IndicatorFinalProofs.v
theories/IndicatorExamples.v
theories/CustomExamples.v
theories/SpecMarket.v
theories/MarketProofs.v
theories/TightenProofs.v
theories/ProgramLogProofs.v
theories/OlhcProofs.v
theories/PropIndicators.v
theories/Navigation.v
theories/SpecNavigation.v
theories/NavigationProofs.v
theories/PropNavigation.v
theories/SpecReport.v
theories/ReportProofs.v
theories/RefProofs.v
theories/ReportExamples.v
theories/PropReport.v
theories/NumFloat.v
theories/SpecBinary64.v
theories/FloatProofs.v
theories/FloatModelProofs.v
theories/FloatRsiProofs.v
theories/FloatTradeProofs.v
theories/FloatAverageProofs.v
theories/SpecFloatTrade.v
theories/FloatEnvelopeProofs.v
theories/FloatStrategyProofs.v
theories/FloatMirrorProofs.v
theories/FloatFrozenProofs.v
theories/FloatExamples.v
theories/FloatTradeExamples.v
theories/PropFloat.v
theories/PropFloatTrade.v
theories/FloatHeikinProofs.v
theories/SpecFloatRsi.v
theories/FloatRsiValueProofs.v
theories/FloatOlhcProofs.v
theories/PropFloatIndicators.v
theories/PropSymmetry.v
theories/Reentrant.v
theories/SpecReentrant.v
theories/ReentrantProofs.v
theories/ReentrantExamples.v
theories/PropReentrant.v
theories/Stateful.v
theories/SpecStateful.v
theories/StatefulProofs.v
theories/StatefulExamples.v
theories/PropStateful.v
theories/PropCustom.v
theories/PropMarket.v
theories/PropProgramFrames.v
theories/ProgramHistProofs.v
theories/ProgramIndProofs.v
theories/ProgramIndFloatProofs.v
theories/PropProgramInd.v
theories/PropProgramIndFloat.v
theories/ProgramChartProofs.v
theories/PropProgramCharts.v
theories/SpecProgram.v
theories/ProgramNestProofs.v
theories/ProgramNestExamples.v
theories/PropProgramNest.v
theories/SpecTold.v
theories/ProgramToldProofs.v
theories/PeriodLogProofs.v
theories/TickLogProofs.v
theories/PropProgramTold.v
theories/PropProgramRaise.v
theories/SpecCharts.v
theories/ChartProofs.v
theories/PropCharts.v
theories/TickObjects.v
theories/SpecTickObjects.v
theories/TickObjectProofs.v
theories/PropTickObjects.v
theories/Text.v
theories/SpecText.v
theories/CsvProofs.v
theories/DateTextProofs.v
theories/ReportTextProofs.v
theories/TickTextProofs.v
theories/PropText.v
theories/SpecOwn.v
theories/OwnProofs.v
theories/OwnRunProofs.v
theories/OwnExamples.v
theories/PropOwn.v
theories/SpecProfit.v
theories/ProfitProofs.v
theories/ProfitExamples.v
theories/PropProfit.v
theories/SpecLive.v
theories/LiveProofs.v
theories/LiveExamples.v
theories/PropLive.v
theories/Manual.v
theories/SpecManual.v
theories/ManualProofs.v
theories/ManualExamples.v
theories/PropManual.v
theories/TightenMoreProofs.v
theories/SpecBlind.v
theories/SpecUnits.v
theories/SimProofs.v
theories/UnitsProofs.v
theories/ChartFreeProofs.v
theories/UnitsExamples.v
theories/PropUnits.v
theories/SpecFine.v
theories/FineProofs.v
theories/FineFloatProofs.v
theories/PropFine.v
theories/SpecHistory.v
theories/HistoryProofs.v
theories/PropHistory.v
theories/Settings.v
theories/SpecSettings.v
theories/SettingsProofs.v
theories/PropSettings.v
theories/SpecMoved.v
theories/MovedDates.v
theories/MovedFrames.v
theories/MovedProofs.v
theories/MovedReads.v
theories/MovedFloat.v
theories/MovedExamples.v
theories/PropMoved.v
theories/Requests.v
theories/SpecRequests.v
theories/RequestsProofs.v
theories/RequestsFills.v
theories/RequestsExamples.v
theories/PropRequests.v
theories/SpecEnvelope.v
theories/EnvelopeProofs.v
theories/PropEnvelope.v
theories/SpecRepeat.v
theories/RepeatProofs.v
theories/RepeatSim.v
theories/RepeatWorld.v
theories/RepeatLedger.v
theories/RepeatNumbers.v
theories/PropRepeat.v
theories/SharedInd.v
theories/SpecShared.v
theories/SharedProofs.v
theories/PropShared.v
theories/Preempt.v
theories/SpecPreempt.v
theories/PreemptProofs.v
theories/PreemptSimProofs.v
theories/PreemptExamples.v
theories/PropPreempt.v
