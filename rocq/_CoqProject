-Q theories Verif
theories/Num.v
theories/NumFacts.v
theories/ModelBase.v
theories/ModelAlignment.v
theories/SpecLine.v
theories/ListFacts.v
theories/ProofAlignment.v
theories/PropAlignment.v
theories/ModelLine.v
theories/SpecTransmission.v
theories/ProofLine.v
theories/ProofLineInv.v
theories/ProofLineFacts.v
theories/SampleLine.v
theories/ProofLineCoord.v
theories/ProofLineSafe.v
theories/ProofLineQuery.v
theories/ProofLineReal.v
theories/ProofConn.v
theories/ProofLineCopy.v
theories/ProofLineContracts.v
theories/ProofLineStale.v
theories/PropLine.v
theories/PropLineMore.v
theories/PropConn.v
theories/ProofLineRefuted.v
theories/PropLineRefuted.v
theories/ProofReal.v
theories/SpecVector.v
theories/ProofVector.v
theories/PropVector.v
theories/ProofLineGeom.v
theories/SpecGeom.v
theories/ProofLineAttach.v
theories/PropLineGeom.v
theories/SpecUnits.v
theories/ProofUnits.v
theories/PropUnits.v
theories/ModelHelper.v
theories/SpecHelper.v
theories/ProofHelper.v
theories/PropHelper.v
theories/ModelPolynomial.v
theories/SpecPolynomial.v
theories/ProofPolynomial.v
theories/PropPolynomial.v
theories/ModelHeap.v
theories/SpecHeap.v
theories/ProofHeap.v
theories/ProofHeapCases.v
theories/PropHeap.v
theories/HypFacts.v
theories/ModelCatenary.v
theories/SpecCatenary.v
theories/ProofCatenary.v
theories/PropCatenary.v
theories/SpecCatenary3.v
theories/ProofCatenary3.v
theories/PropCatenary3.v
theories/ModelSolver.v
theories/SpecSolver.v
theories/ProofSolver.v
theories/ProofSolverReal.v
theories/ProofSolverRate.v
theories/ProofSolverTarget.v
theories/ProofSolverCases.v
theories/PropSolver.v
theories/ModelCable.v
theories/ModelThermal.v
theories/SpecThermal.v
theories/ProofThermal.v
theories/ProofThermalTemp.v
theories/ProofThermalReal.v
theories/ProofThermalCases.v
theories/ProofTransientStart.v
theories/PropThermal.v
theories/ModelSolar.v
theories/SpecSolar.v
theories/ProofSolar.v
theories/ProofSolarRad.v
theories/ProofSolarCases.v
theories/PropSolar.v
theories/ModelLoad.v
theories/ModelElongation.v
theories/SampleElong.v
theories/SpecElong.v
theories/ProofElong.v
theories/ProofElongModel.v
theories/ProofElongHistory.v
theories/ProofElongQuery.v
theories/ProofElongStrain.v
theories/ProofElongReal.v
theories/ProofStrainer.v
theories/ProofElongSafe.v
theories/ProofElongRefuted.v
theories/SampleElongReal.v
theories/ProofLoad.v
theories/PropLoad.v
theories/PropElong.v
theories/ModelReload.v
theories/SpecReload.v
theories/ProofReload.v
theories/ProofReloadGap.v
theories/ProofReloadSafe.v
theories/SampleReload.v
theories/ProofSpan.v
theories/ProofSolverSag.v
theories/ProofTight.v
theories/PropTight.v
theories/ProofReloadRefuted.v
theories/ProofReloadCases.v
theories/PropReload.v
theories/ModelSagtension.v
theories/SpecSagtension.v
theories/ProofSagtension.v
theories/ProofSagHistory.v
theories/ProofSagUnload.v
theories/ProofSagger.v
theories/ProofSagLaws.v
theories/ProofSagParts.v
theories/SampleSag.v
theories/ProofSagCases.v
theories/PropSagtension.v
theories/ModelLocator.v
theories/SpecLocator.v
theories/SampleMath.v
theories/ProofLocator.v
theories/ProofLocatorShape.v
theories/ProofLocatorReal.v
theories/ProofLocatorCase.v
theories/ProofEquilibrium.v
theories/SampleLocator.v
theories/ProofLocatorCases.v
theories/PropLocator.v
theories/ModelSagging.v
theories/SpecSagging.v
theories/ProofSagging.v
theories/ProofSearch.v
theories/ProofCorrector.v
theories/ProofCorrectorCases.v
theories/ProofTransit.v
theories/ProofTransitGeom.v
theories/ProofSaggers.v
theories/ProofTransitCases.v
theories/ProofCorrectorLight.v
theories/SampleSagging.v
theories/PropSagging.v
theories/ModelValidate.v
theories/SpecValidate.v
theories/ProofValidate.v
theories/ProofValidateLine.v
theories/ProofValidateCoord.v
theories/ProofValidateSafe.v
theories/ProofValidateRange.v
theories/ProofValidateAll.v
theories/SampleValidate.v
theories/ProofValidateCase.v
theories/PropValidate.v
theories/ModelReport.v
theories/SpecReport.v
theories/SpecReportAll.v
theories/ProofReport.v
theories/ProofReportLine.v
theories/ProofReportAll.v
theories/ProofReportModel.v
theories/ProofReportSag.v
theories/ProofReportGroups.v
theories/ProofReportCases.v
theories/PropReport.v
theories/ModelPointed.v
theories/SpecPointed.v
theories/ProofPointed.v
theories/ProofPointedRun.v
theories/ProofPointedCases.v
theories/PropPointed.v
theories/ModelText.v
theories/SpecText.v
theories/ProofText.v
theories/ProofTextRead.v
theories/ProofTextWrite.v
theories/ProofTextFigures.v
theories/ProofTextTrip.v
theories/PropText.v
theories/SpecUnits64.v
theories/ProofDouble.v
theories/ProofUnits64.v
theories/ProofUnits64T.v
theories/SamplePow.v
theories/ProofUnits64C.v
theories/PropUnits64.v
theories/SpecSagSafe.v
theories/ProofSagSafe.v
theories/ProofSaggerSafe.v
theories/PropSagSafe.v
theories/SpecDefined.v
theories/ProofDefined.v
theories/ProofLocatorSafe.v
theories/ProofDefinedCases.v
theories/PropDefined.v
theories/SpecCurve.v
theories/ProofNewton.v
theories/ProofCurve.v
theories/ProofElongCurve.v
theories/SampleCurve.v
theories/PropCurve.v
theories/ProofNanStation.v
theories/SpecFragments.v
theories/ProofFragments.v
theories/PropFragments.v
theories/SpecStretch.v
theories/ProofStretch.v
theories/ProofStretchCases.v
theories/PropStretch.v
theories/SpecHeat.v
theories/ProofHeat.v
theories/ProofHeatUnits.v
theories/ProofHeatMono.v
theories/ProofHeatCold.v
theories/ProofHeatCases.v
theories/PropHeat.v
theories/SpecElongLine.v
theories/ProofElongLine.v
theories/ProofElongLineCases.v
theories/PropElongLine.v
theories/SpecNew.v
theories/ProofNew.v
theories/PropNew.v
theories/SpecUnitLoadRun.v
theories/ProofUnitLoadRun.v
theories/PropUnitLoadRun.v
theories/SpecRating.v
theories/ProofRating.v
theories/PropRating.v
theories/SpecScale.v
theories/ProofScale.v
theories/PropScale.v
theories/SpecScale3.v
theories/ProofScale3.v
theories/PropScale3.v
theories/SpecDatum.v
theories/ProofDatum.v
theories/PropDatum.v
theories/SpecAltitude.v
theories/ProofAltitude.v
theories/ProofAltitudeHigh.v
theories/PropAltitude.v
theories/SpecResize.v
theories/ProofResize.v
theories/PropResize.v
theories/ProofLevel.v
theories/PropLevel.v
theories/ProofHeavier.v
theories/ProofHeavierEnd.v
theories/PropHeavier.v
theories/PropStopwatchUnits.v
theories/ProofTransitUnits.v
theories/PropTransitUnits.v
theories/PropRatingUnits.v
theories/PropLoadUnits.v
theories/SpecTangent.v
theories/ProofTangent3.v
theories/PropTangent3.v
theories/ProofWider.v
theories/PropWider.v
theories/ProofHang.v
theories/PropHang.v
theories/ProofSolarBeam.v
theories/PropSolarBeam.v
theories/SpecWindSide.v
theories/ProofWindSide.v
theories/PropWindSide.v
theories/ProofSolarDay.v
theories/PropSolarDay.v
theories/ProofAlignOrder.v
theories/PropAlignOrder.v
theories/ProofRatingLimit.v
theories/PropRatingLimit.v
theories/ProofLineUndo.v
theories/PropLineUndo.v
theories/ProofTransientLaws.v
theories/PropTransientLaws.v
theories/ProofLineOrder.v
theories/PropLineOrder.v
theories/SpecValidLine.v
theories/ProofValidLine.v
theories/PropValidLine.v
theories/ProofConnOrder.v
theories/PropConnOrder.v
theories/ProofStrainSteps.v
theories/PropStrainSteps.v
theories/ProofReloadLength.v
theories/PropReloadLength.v
