-Q theories Verif
theories/Base.v
theories/BaseLemmas.v
theories/Items.v
theories/Series.v
theories/SpecSeries.v
theories/SeriesProofs.v
theories/SeriesProofs2.v
theories/SeriesProofs3.v
theories/SeriesProofs4.v
theories/Witness.v
theories/PropTactics.v
theories/Access.v
theories/SpecAccess.v
theories/AccessProofs.v
theories/AccessProofs2.v
theories/DictLemmas.v
theories/AccessProofs3.v
theories/Ops.v
theories/SpecOps.v
theories/OpsProofs.v
theories/OpsProofs2.v
theories/OpsProofs3.v
theories/OpsProofs4.v
theories/OpsProofs5.v
theories/OpsProofs6.v
theories/OpsProofs7.v
theories/OpsProofs8.v
theories/OpsProofs9.v
theories/MergeProofs.v
theories/OpsProofs10.v
theories/Alias.v
theories/AliasProofs.v
theories/Intervals.v
theories/SpecIntervals.v
theories/IntervalsProofs.v
theories/IntervalsProofs2.v
theories/IntervalsProofs3.v
theories/SamplingProofs.v
theories/InterpProofs.v
theories/Transform.v
theories/TransformProofs.v
theories/TransformProofs2.v
theories/TransformProofs3.v
theories/TransformProofs4.v
theories/TransformProofs5.v
theories/TransformProofs6.v
theories/TransformProofs7.v
theories/TransformProofs8.v
theories/TransformProofs9.v
theories/SpecTransform.v
theories/TransformProofs10.v
theories/TransformProofs11.v
theories/TransformProofs12.v
theories/TransformProofs13.v
theories/TransformProofs14.v
theories/Models.v
theories/SpecModels.v
theories/ModelsProofs.v
theories/ModelsProofs2.v
theories/Recon.v
theories/SpecRecon.v
theories/ReconProofs.v
theories/ReconProofs2.v
theories/ReconProofs3.v
theories/ReconProofs4.v
theories/Forecast.v
theories/SpecForecast.v
theories/ForecastProofs.v
theories/ForecastProofs2.v
theories/ForecastProofs3.v
theories/Utils.v
theories/SpecUtils.v
theories/UtilsProofs.v
theories/Save.v
theories/SpecSave.v
theories/SaveProofs.v
theories/SaveProofs2.v
theories/SaveProofs3.v
theories/Lstm.v
theories/SpecLstm.v
theories/LstmProofs.v
theories/LstmProofs2.v
theories/LstmProofs3.v
theories/LstmProofs4.v
theories/LstmProofs5.v
theories/LstmProofs6.v
theories/Events.v
theories/SpecEvents.v
theories/EventsProofs.v
theories/Anomaly.v
theories/SpecAnomaly.v
theories/AnomalyProofs.v
theories/AnomalyProofs2.v
theories/AnomalyProofs3.v
theories/AnomalyProofs4.v
theories/AnomalyProofs5.v
theories/Csv.v
theories/SpecCsv.v
theories/CsvProofs.v
theories/CsvProofs2.v
theories/CsvProofs3.v
theories/CsvProofs4.v
theories/CsvProofs5.v
theories/CsvProofs6.v
theories/CsvProofs7.v
theories/CsvProofs8.v
theories/CsvProofs9.v
theories/CsvProofs10.v
theories/CsvProofs11.v
theories/CsvProofs12.v
theories/CsvProofs13.v
theories/Evaluate.v
theories/SpecEvaluate.v
theories/EvaluateProofs.v
theories/EvaluateProofs2.v
theories/EvaluateProofs3.v
theories/EvaluateProofs4.v
theories/EvaluateProofs5.v
theories/EvaluateProofs6.v
theories/PropSeries.v
theories/PropAccess.v
theories/PropOps.v
theories/PropOps2.v
theories/PropIntervals.v
theories/PropTransform.v
theories/PropModels.v
theories/PropRecon.v
theories/PropForecast.v
theories/PropUtils.v
theories/PropSave.v
theories/PropLstm.v
theories/PropEvents.v
theories/PropAnomaly.v
theories/PropCsv.v
theories/PropCsv2.v
theories/PropCsv3.v
theories/PropEvaluate.v
theories/Wrappers.v
theories/SpecWrappers.v
theories/WrappersProofs.v
theories/WrappersProofs2.v
theories/WrappersProofs3.v
theories/PropWrappers.v
theories/Plots.v
theories/SpecPlots.v
theories/PlotsProofs.v
theories/PropPlots.v
theories/Cache.v
theories/SpecCache.v
theories/PropCache.v
theories/Load.v
theories/SpecLoad.v
theories/PropLoad.v
theories/Periodicity.v
theories/SpecPeriodicity.v
theories/PeriodicityProofs.v
theories/PeriodicityProofs2.v
theories/PeriodicityProofs3.v
theories/PeriodicityProofs4.v
theories/PeriodicityProofs5.v
theories/PropPeriodicity.v
theories/Convert.v
theories/SpecConvert.v
theories/ConvertProofs.v
theories/ConvertProofs2.v
theories/ConvertProofs3.v
theories/PropConvert.v
theories/Lists.v
theories/SpecLists.v
theories/ListsProofs.v
theories/PropLists.v
theories/Make.v
theories/SpecMake.v
theories/MakeProofs.v
theories/PropMake.v
theories/Generic.v
theories/SpecGeneric.v
theories/GenericProofs.v
theories/GenericProofs2.v
theories/PropGeneric.v
theories/Float.v
theories/SpecFloat.v
theories/FloatProofs.v
theories/FloatProofs2.v
theories/FloatProofs3.v
theories/PropFloat.v
theories/FloatOps.v
theories/FloatProofs4.v
theories/FloatProofs5.v
theories/PropFloat2.v
theories/FloatProofs6.v
theories/FloatProofs7.v
theories/PropFloat3.v
theories/FloatProofs8.v
theories/PropFloat4.v
theories/Summary.v
theories/SpecSummary.v
theories/SummaryProofs.v
theories/PropSummary.v
theories/Marks.v
theories/SpecMarks.v
theories/PropMarks.v
theories/Inspect.v
theories/SpecInspect.v
theories/PropInspect.v
theories/PropIndexes.v
theories/SpecCalculus.v
theories/PropCalculus.v
theories/FloatCalc.v
theories/SpecFloatCalc.v
theories/FloatProofs9.v
theories/PropFloat5.v
theories/FloatInt.v
theories/PropFloat6.v
theories/FloatProofs10.v
theories/PropFloat7.v
theories/FloatProofs11.v
theories/PropFloat8.v
