-Q theories Verif
theories/Machine.v
theories/Complexity.v
theories/Floats.v
theories/Analysis.v
theories/GrowthSpec.v
theories/AnalysisF64.v
theories/AnalysisF64b.v
theories/AnalysisF64c.v
theories/AnalysisF64d.v
theories/AnalysisF64e.v
theories/AnalysisR.v
theories/Demo.v
theories/PropsAnalysis.v
theories/Ring.v
theories/RingSpec.v
theories/RingSeq.v
theories/RingConc.v
theories/RingConc2.v
theories/RingConc3.v
theories/RingInit.v
theories/RingWrap.v
theories/PropsRing.v
theories/Alloc.v
theories/AllocSpec.v
theories/AllocProofs.v
theories/AllocConc.v
theories/AllocConcSpec.v
theories/AllocConcProofs.v
theories/AllocConcProofs2.v
theories/AllocConcProofs3.v
theories/PropsAlloc.v
theories/IterPass.v
theories/IterSpec.v
theories/IterPassProofs.v
theories/PropsIter.v
theories/Report.v
theories/ReportProofs.v
theories/Features.v
theories/PropsReport.v
theories/PropsFeatures.v
theories/Crud.v
theories/CrudSpec.v
theories/CrudProofs.v
theories/CrudMain.v
theories/CrudRetry.v
theories/PropsCrud.v
theories/Free.v
theories/Standard.v
theories/StandardSpec.v
theories/PropsStandard.v
theories/Present.v
theories/PropsPresent.v
theories/PassTime.v
theories/DurationProofs.v
theories/PropsDuration.v
theories/Builder.v
theories/BuilderSpec.v
theories/BuilderProofs.v
theories/PropsBuilder.v
theories/AnalysisTable.v
theories/Bridge.v
theories/Bridge2.v
theories/Bridge3.v
theories/Bridge4.v
theories/PropsBridge.v
theories/PropsUnits.v
theories/PropsReport2.v
theories/CrudNumber.v
theories/EndToEnd.v
theories/EndToEndSpec.v
theories/EndToEndProofs.v
theories/PropsEndToEnd.v
theories/EndToEndDemo.v
theories/CrudLawsSpec.v
theories/CrudLawsProofs.v
theories/PropsCrudLaws.v
theories/CrudLawsDemo.v
theories/RingWeak.v
theories/RingWeakSpec.v
theories/RingWeakProofs.v
theories/RingWeakProofs2.v
theories/RingWeakProofs3.v
theories/RingWeakProofs4.v
theories/RingWeakProofs5.v
theories/RingWeakProofs6.v
theories/RingWeakDrf.v
theories/PropsRingWeak.v
theories/AllocWeak.v
theories/AllocWeakSpec.v
theories/AllocWeakProofs.v
theories/AllocWeakProofs2.v
theories/AllocWeakProofs3.v
theories/RingWeakPeek.v
theories/AllocWeakProofs4.v
theories/AllocWeakProofs5.v
theories/AllocWeakCalls.v
theories/AllocWeakRegion.v
theories/AllocWeakRaces.v
theories/AllocWeakMinMax.v
theories/AllocWeakMinMax2.v
theories/AllocWeakMinMax3.v
theories/AllocWeakDemo.v
theories/AllocWeakSerial.v
theories/AllocWeakSerial2.v
theories/AllocWeakSerial3.v
theories/AllocWeakSerial4.v
theories/AllocWeakSerial5.v
theories/PropsAllocWrap.v
theories/PropsAllocWeak.v
theories/AllocWeakMono.v
theories/PropsAllocMono.v
theories/CrudMsg.v
theories/TextProofs.v
theories/PropsCrudMsg.v
theories/StatsText.v
theories/PropsStatsText.v
theories/CrudAlloc.v
theories/CrudAllocSpec.v
theories/CrudAllocProofs.v
theories/PropsCrudAlloc.v
theories/CrudAllocDemo.v
theories/BuilderAlloc.v
theories/BuilderAllocSpec.v
theories/BuilderAllocProofs.v
theories/PropsBuilderAlloc.v
theories/BuilderAllocDemo.v
theories/RunnerMsg.v
theories/PropsRunnerMsg.v
theories/RingText.v
theories/PropsRingText.v
theories/Format.v
theories/ReadSpec.v
theories/FormatProofs.v
theories/PresentText.v
theories/PropsPresentText.v
theories/ReportText.v
theories/ReportTextSpec.v
theories/ReportTextProofs.v
theories/PropsReportText.v
theories/StdText.v
theories/RunTextSpec.v
theories/PropsStdText.v
theories/CrudText.v
theories/PropsCrudText.v
theories/CacheConc.v
theories/PropsCacheConc.v
theories/BuilderText.v
theories/PropsBuilderText.v
theories/PropsBuilderStops.v
theories/PropsCrudStops.v
theories/RingLinSpec.v
theories/RingLin.v
theories/PropsRingLin.v
theories/PropsVec.v
