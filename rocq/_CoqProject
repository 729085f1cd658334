-Q theories Verif
theories/Py.v
theories/Num.v
theories/ModelField.v
theories/ModelAquifer.v
theories/ModelTrace.v
theories/ModelObs.v
theories/ModelDist.v
theories/ModelDriver.v
theories/ModelPlot.v
theories/ModelDraw.v
theories/ModelArchive.v
theories/ModelMain.v
theories/Grid.v
theories/NumXR.v
theories/SpecField.v
theories/ProofGeom.v
theories/ProofField.v
theories/ProofInsert.v
theories/ProofOps.v
theories/ProofFieldProps.v
theories/ProofFieldHist.v
theories/ProofDiscard.v
theories/ProofFieldEx.v
theories/ProofFloat.v
theories/ProofFieldFloat.v
theories/ProofFieldArgs.v
theories/PropField.v
theories/PropFieldFloat.v
theories/ProofPi.v
theories/SpecAquifer.v
theories/ProofAquifer.v
theories/ProofHead.v
theories/ProofAquiferEx.v
theories/ProofWellEx.v
theories/PropAquifer.v
theories/LinAlg.v
theories/Lstsq.v
theories/SpecFit.v
theories/ProofFit.v
theories/ProofFitSolve.v
theories/ProofFitProps.v
theories/ProofFitEx.v
theories/PropFit.v
theories/SpecTrace.v
theories/ProofTrace.v
theories/ProofTraceLoop.v
theories/ProofTraceTerm.v
theories/ProofTraceField.v
theories/ProofTraceOrder.v
theories/ProofTraceFlow.v
theories/ProofTraceEx.v
theories/PropTrace.v
theories/SpecObs.v
theories/ProofObs.v
theories/ProofObsProps.v
theories/ProofStats.v
theories/PropObs.v
theories/SpecDist.v
theories/ProofDist.v
theories/PropDist.v
theories/SpecDriver.v
theories/ProofDriver.v
theories/ProofFuel.v
theories/ProofDriverProps.v
theories/ProofDriverEx.v
theories/PropDriver.v
theories/SpecPlot.v
theories/SpecDraw.v
theories/ProofPlot.v
theories/ProofDecile.v
theories/ProofPlotEx.v
theories/ProofContour.v
theories/ProofDraw.v
theories/ProofDrawCells.v
theories/PropPlot.v
theories/PropDraw.v
theories/SpecArchive.v
theories/ProofArchive.v
theories/PropArchive.v
theories/SpecMain.v
theories/ProofMain.v
theories/ProofMainRun.v
theories/ProofMainEnd.v
theories/ProofMainEx.v
theories/ProofMainFinite.v
theories/ProofPosed.v
theories/PropMain.v
theories/SpecWhole.v
theories/SpecFloats.v
theories/ProofFloatGrow.v
theories/ProofFloatOps.v
theories/ProofFloatMean.v
theories/SpecExact.v
theories/ProofFloatGrid.v
theories/ProofDistError.v
theories/ProofFloatDist.v
theories/ProofFloatInsert.v
theories/ProofFloatWeight.v
theories/ProofFloatField.v
theories/ProofFloatCases.v
theories/PropFloatField.v
theories/SpecFloatTrace.v
theories/ProofFloatTrace.v
theories/SpecFloatFlow.v
theories/ProofFloatFlow.v
theories/PropFloatTrace.v
theories/SpecBalance.v
theories/ProofBalance.v
theories/PropBalance.v
theories/PropFloatMean.v
theories/SpecStuck.v
theories/ProofFloatStuck.v
theories/PropFloatGrow.v
theories/ProofWhole.v
theories/ProofWholeEx.v
theories/PropWhole.v
theories/Tests.v
theories/ModelData.v
theories/ProofData.v
theories/PropData.v
theories/SpecZone.v
theories/ProofFloatZone.v
theories/ProofFloatZoneEx.v
theories/PropFloatZone.v
theories/SpecDraws.v
theories/ProofDraws.v
theories/ProofDrawsEx.v
theories/PropDraws.v
theories/SpecGrowth.v
theories/ProofTraceGrow.v
theories/ProofTraceClear.v
theories/PropGrowth.v
theories/ProofFloatStall.v
theories/PropFloatStall.v
theories/ModelText.v
theories/SpecText.v
theories/ProofText.v
theories/ProofTextRepr.v
theories/ModelLog.v
theories/SpecLog.v
theories/ProofLog.v
theories/SpecTable.v
theories/ProofTable.v
theories/SpecFilterLog.v
theories/ProofFilterLog.v
theories/PropText.v
theories/PropLog.v
theories/PropFilterLog.v
theories/SpecLines.v
theories/ProofLines.v
theories/PropLines.v
theories/SpecPathline.v
theories/ProofPathline.v
theories/ProofPathAffine.v
theories/ProofPathProgram.v
theories/ProofPathTube.v
theories/ProofPathWells.v
theories/SpecPathZone.v
theories/ProofPathZone.v
theories/ProofPathRun.v
theories/ProofPathRunEx.v
theories/ProofPicard.v
theories/ProofPathExists.v
theories/ProofPathExistsRun.v
theories/ProofPathExistsEx.v
theories/ProofTolerance.v
theories/PropPathline.v
theories/ModelTranscript.v
theories/ModelLogging.v
theories/SpecTranscript.v
theories/ProofTranscript.v
theories/ProofTranscriptRun.v
theories/ProofTranscriptMain.v
theories/ProofTranscriptShape.v
theories/ProofLogging.v
theories/ProofLoggingEx.v
theories/ProofErrorLine.v
theories/ProofErrorLineEx.v
theories/PropTranscript.v
theories/SpecExactMap.v
theories/ProofExactMap.v
theories/SpecMonteCarlo.v
theories/ProofMonteCarlo.v
theories/ProofEstimate.v
theories/ProofEstimateProps.v
theories/ProofEstimateEx.v
theories/PropEstimate.v
theories/ProofEdges.v
theories/PropEdges.v
theories/SpecShift.v
theories/ProofShift.v
theories/ProofShiftEx.v
theories/PropShift.v
theories/SpecOrder.v
theories/ProofOrder.v
theories/ProofOrderObs.v
theories/ProofOrderEx.v
theories/PropOrder.v
theories/SpecUnconfined.v
theories/ProofPathUnconfined.v
theories/ProofPathUnconfinedEx.v
theories/PropUnconfined.v
theories/ModelPrint.v
theories/SpecPrint.v
theories/ProofPrint.v
theories/ProofDebug.v
theories/PropPrint.v
theories/ModelFigure.v
theories/SpecFigure.v
theories/ProofFigure.v
theories/PropFigure.v
theories/SpecLiteral.v
theories/ProofLiteral.v
theories/PropLiteral.v
theories/SpecWater.v
theories/ProofWaterPath.v
theories/ProofWaterRun.v
theories/ProofWaterEx.v
theories/PropWater.v
theories/SpecRough.v
theories/SpecDischarge.v
theories/ProofRoughPath.v
theories/ProofRoughFloat.v
theories/ProofRoughStep.v
theories/ProofRoughTrace.v
theories/ProofDischargeFloat.v
theories/ProofDischargeAcc.v
theories/ProofDischargeTrace.v
theories/ProofDischargeEx.v
theories/PropRough.v
theories/SpecVoyage.v
theories/ProofVoyage.v
theories/ProofVoyageEx.v
theories/PropVoyage.v
theories/SpecLevel.v
theories/ProofLevelPot.v
theories/ProofLevelHead.v
theories/ProofLevelVel.v
theories/ProofLevelEx.v
theories/PropLevel.v
theories/ProofLevelTrace.v
theories/ProofLevelTraceEx.v
theories/PropLevelTrace.v
theories/SpecColumns.v
theories/ProofColumns.v
theories/PropColumns.v
theories/ModelSession.v
theories/SpecSession.v
theories/ProofSession.v
theories/PropSession.v
theories/ProofAreas.v
theories/PropAreas.v
theories/SpecDecile.v
theories/ProofDecileFloat.v
theories/PropDecile.v
theories/SpecStart.v
theories/ProofStartFloat.v
theories/PropStart.v
