-Q theories Verif
theories/Base.v
theories/BaseLemmas.v
theories/Shift.v
theories/ModelPush.v
theories/ModelPushCov.v
theories/ModelKernels.v
theories/ProofPush.v
theories/ProofPushCov.v
theories/Laws.v
theories/ProofKernels.v
theories/ProofRolling.v
theories/Spec.v
theories/ModelAccum.v
theories/ProofSpec.v
theories/ProofReduce.v
theories/Checks.v
theories/PropReduce.v
theories/ProofExp.v
theories/PropKernels.v
theories/ModelConvert.v
theories/ModelSelect.v
theories/SpecSelect.v
theories/ProofConvert.v
theories/ProofSelect.v
theories/PropConvert.v
theories/ModelIndex.v
theories/SpecIndex.v
theories/ProofIndex.v
theories/ProofIndexed.v
theories/ProofLabels.v
theories/PropIndex.v
theories/ModelAxes.v
theories/SpecAxes.v
theories/ProofAxes.v
theories/ProofArrays.v
theories/ProofMulti.v
theories/PropAxes.v
theories/ModelState.v
theories/PropState.v
theories/PropBinom.v
theories/ModelSched.v
theories/PropSched.v
theories/ModelHeap.v
theories/ProofHeap.v
theories/PropHeap.v
theories/ModelConf.v
theories/PropConf.v
theories/ModelParams.v
theories/PropParams.v
theories/ModelSampler.v
theories/PropSampler.v
theories/ModelWrap.v
theories/PropWrap.v
theories/PropReshape.v
theories/PropConcat.v
theories/PropLabelled.v
theories/PropConcatX.v
theories/ModelNd.v
theories/SpecNd.v
theories/ProofNd.v
theories/PropNd.v
theories/ProofNdAt.v
theories/PropNdUse.v
theories/ProofNdVals.v
theories/PropNdVals.v
theories/PropNdValsUse.v
theories/PropProb.v
theories/ModelLabel.v
theories/SpecLabel.v
theories/ProofLabel.v
theories/PropLabel.v
theories/ProofLabelMany.v
theories/SpecLabelTwo.v
theories/ProofLabelReduce.v
theories/PropLabelReduce.v
theories/PropLabelTwo.v
theories/PropLabelJack.v
theories/PropLabelExp.v
theories/PropLabelUse.v
theories/PropLabelCheck.v
theories/SpecLabelVals.v
theories/ProofLabelVals.v
theories/PropLabelVals.v
theories/PropLabelValsMore.v
theories/PropLabelValsUse.v
theories/PropLabelValsCheck.v
theories/ModelMethods.v
theories/SpecMethods.v
theories/ProofMethods.v
theories/PropMethods.v
theories/PropMethodsUse.v
theories/PropMethodsRefuse.v
theories/PropMethodsArith.v
theories/PropMethodsReduce.v
theories/PropMethodsCheck.v
theories/ModelMoments.v
theories/SpecMoments.v
theories/ProofMoments.v
theories/PropMoments.v
theories/PropSelect.v
theories/PropAssign.v
theories/PropValsData.v
theories/PropMomentsCheck.v
theories/ModelWindow.v
theories/SpecWindow.v
theories/ProofWindow.v
theories/PropWindow.v
theories/PropWindowUse.v
theories/PropWindowCheck.v
theories/ModelConstruct.v
theories/PropConstruct.v
theories/PropConstructUse.v
theories/PropConstructStat.v
theories/PropConstructVals.v
theories/PropConstructMake.v
theories/PropConstructCheck.v
theories/ModelMethodsX.v
theories/SpecMethodsX.v
theories/ProofMethodsX.v
theories/PropMethodsX.v
theories/PropMethodsXUse.v
theories/PropMethodsXMore.v
theories/PropMethodsXReduce.v
theories/PropMethodsXCheck.v
theories/SpecMomentsX.v
theories/ModelMomentsX.v
theories/ProofMomentsX.v
theories/PropMomentsX.v
theories/PropComomentsX.v
theories/PropSelectX.v
theories/PropAssignX.v
theories/PropValsDataX.v
theories/PropStatsX.v
theories/PropMomentsXCheck.v
theories/ModelOut.v
theories/SpecOut.v
theories/ProofOut.v
theories/PropOut.v
theories/PropOutVals.v
theories/PropOutCheck.v
theories/ModelDataset.v
theories/SpecDataset.v
theories/ProofDataset.v
theories/PropDataset.v
theories/PropDatasetTwo.v
theories/PropDatasetReduce.v
theories/PropDatasetVals.v
theories/PropDatasetValsMore.v
theories/PropDatasetSampler.v
theories/PropDatasetCheck.v
theories/PropDatasetMisfit.v
theories/ModelShape.v
theories/SpecShape.v
theories/PropShape.v
theories/PropShapeUse.v
theories/PropShapeSelect.v
theories/PropShapeCommute.v
theories/PropShapeBack.v
theories/PropShapeSet.v
theories/PropShapeCheck.v
theories/ModelMethodsS.v
theories/SpecMethodsS.v
theories/PropMethodsS.v
theories/PropMethodsSMore.v
theories/PropMethodsSFail.v
theories/PropMethodsSReduce.v
theories/PropMethodsSCheck.v
theories/ModelCoords.v
theories/SpecCoords.v
theories/PropCoords.v
theories/PropCoordsReduce.v
theories/PropCoordsCheck.v
theories/ModelCoordsPush.v
theories/PropCoordsPush.v
theories/PropCoordsPushCheck.v
theories/ModelMomentsS.v
theories/PropMomentsS.v
theories/PropStatsS.v
theories/PropStatsSCheck.v
theories/PropArithX.v
theories/PropArithXCheck.v
theories/ModelPrepare.v
theories/PropPrepare.v
theories/PropPrepareCheck.v
theories/PropArithS.v
theories/PropArithSCheck.v
theories/ModelSwap.v
theories/PropSwap.v
theories/PropSwapCheck.v
theories/PropSwapUse.v
theories/PropSwapUseCheck.v
theories/PropSwapRows.v
theories/PropSwapRowsCheck.v
theories/ModelProps.v
theories/PropProps.v
theories/PropPropsCheck.v
theories/PropSwapBack.v
