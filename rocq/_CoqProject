-Q theories Verif
theories/Outcome.v
theories/Float.v
theories/Payload.v
theories/Addr.v
theories/AvgEngine.v
theories/SpecOct.v
theories/AddrFacts.v
theories/PropAddr.v
theories/FloatFacts.v
theories/SpecAvg.v
theories/PathFacts.v
theories/AvgInv.v
theories/AvgOverlap.v
theories/AvgProof.v
theories/AvgBounds.v
theories/AvgFinal.v
theories/PropAvg.v
theories/Geom.v
theories/GeomFacts.v
theories/SpecGeom.v
theories/GeomProof.v
theories/GeomLevel.v
theories/GeomRot.v
theories/ToyLib.v
theories/TrigNum.v
theories/PropGeom.v
theories/ErrorHandler.v
theories/VMQuery.v
theories/SpecQuery.v
theories/QueryFacts.v
theories/QueryProof.v
theories/QuerySurface.v
theories/SpecHist.v
theories/QueryHist.v
theories/QueryIndep.v
theories/ToyDb.v
theories/QueryMain.v
theories/PropQuery.v
theories/PropHist.v
theories/Store.v
theories/Averager.v
theories/VMCreator.v
theories/Stream.v
theories/GridIngester.v
theories/SpecStore.v
theories/StoreFacts.v
theories/PropStore.v
theories/SpecText.v
theories/StreamFacts.v
theories/SpecGrid.v
theories/GridFacts.v
theories/GridMain.v
theories/GridRes.v
theories/GridCheck.v
theories/ToyGrid.v
theories/PropGrid.v
theories/SpecFail.v
theories/AvgFail.v
theories/PropFail.v
theories/CApi.v
theories/Fortran.v
theories/SpecCApi.v
theories/CApiFacts.v
theories/PropCApi.v
theories/VMDB.v
theories/SpecVMDB.v
theories/VMDBFacts.v
theories/PropVMDB.v
theories/SpecE2E.v
theories/E2EFacts.v
theories/PropE2E.v
theories/VsGrader.v
theories/SpecGrade.v
theories/GradeFacts.v
theories/GradeGrid.v
theories/GradeFloat.v
theories/GradeMach.v
theories/GradeRatio.v
theories/GradeMain.v
theories/SpecDomain.v
theories/GetOpt.v
theories/QueryApp.v
theories/IsoApp.v
theories/SpecApp.v
theories/SpecIso.v
theories/IsoNum.v
theories/GradePlace.v
theories/ToyGrade.v
theories/PropGrade.v
theories/AppFacts.v
theories/AppMain.v
theories/PropApp.v
theories/IsoFacts.v
theories/IsoMain.v
theories/IsoRun.v
theories/ToyIso.v
theories/PropIso.v
theories/VsRun.v
theories/SpecParams.v
theories/ParamFacts.v
theories/PropParams.v
theories/SpecExtract.v
theories/ExtractFacts.v
theories/PropExtract.v
theories/PropVsRun.v
theories/SmallApps.v
theories/SpecSmall.v
theories/SmallFacts.v
theories/GridInv.v
theories/PropSmall.v
theories/SpecPipe.v
theories/PropPipe.v
theories/SpecInfo.v
theories/PropInfo.v
theories/CExample.v
theories/SpecCExample.v
theories/CExampleFacts.v
theories/PropCExample.v
theories/FExample.v
theories/SpecFExample.v
theories/FExampleFacts.v
theories/PropFExample.v
theories/SpecRunDomain.v
theories/PropRunDomain.v
theories/Report.v
theories/SpecReport.v
theories/ReportFacts.v
theories/PropReport.v
theories/Steps.v
theories/SpecSteps.v
theories/StepFacts.v
theories/StepRuns.v
theories/PropSteps.v
theories/SpecFlawless.v
theories/PropFlawless.v
theories/PropIsoErr.v
theories/PropConst.v
theories/QueryStages.v
theories/SpecStages.v
theories/PropStages.v
theories/IsoStages.v
theories/PropIsoStages.v
theories/SpecColumns.v
theories/PropColumns.v
theories/SpecLines.v
theories/PropLines.v
theories/SpecDepths.v
theories/PropDepths.v
theories/PropTwice.v
theories/Projector.v
theories/SpecProj.v
theories/PropProj.v
theories/SpecRange.v
theories/RangeFacts.v
theories/RangeTree.v
theories/RangeWave.v
theories/PropRange.v
theories/SpecOrder.v
theories/OrderFacts.v
theories/PropOrder.v
theories/SpecLocal.v
theories/LocalFacts.v
theories/PropLocal.v
theories/PropShuffle.v
theories/SpecGradePipe.v
theories/PropGradePipe.v
theories/PropGradeExit.v
theories/PropGradeFixed.v
theories/SpecSame.v
theories/PropSame.v
theories/PropSameApps.v
theories/PropE2EExt.v
theories/PropLocalExt.v
theories/PropConstSquash.v
theories/PropGradeAgain.v
theories/PropSameC.v
theories/SpecGradeNear.v
theories/PropGradeNear.v
theories/SpecRaise.v
theories/RaiseFacts.v
theories/PropRaise.v
theories/PropSameDb.v
theories/SpecOrderCalls.v
theories/PropOrderCalls.v
theories/PropNested.v
theories/SpecSplit.v
theories/PropSplit.v
theories/PropIsoSplit.v
theories/PropNoList.v
