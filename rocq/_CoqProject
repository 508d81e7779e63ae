-Q theories Verif
theories/Base.v
theories/ModelLinAlg.v
theories/SpecLinAlg.v
theories/ProofLinAlg.v
theories/SpecIntegral.v
theories/ProofIntegral.v
theories/ProofWallis.v
theories/ProofGauss.v
theories/ModelKernels.v
theories/SpecKernels.v
theories/ProofKernels.v
theories/ModelKDE.v
theories/SpecKDE.v
theories/ModelExtrema.v
theories/SpecNormal.v
theories/ProofNormal.v
theories/ProofDensity.v
theories/ProofAffine.v
theories/ProofReflect1.v
theories/ProofMarginal.v
theories/ProofKDE.v
theories/ProofExtrema.v
theories/ProofTop.v
theories/ProofMarginal2.v
theories/ProofExamples.v
theories/ProofTop2.v
theories/ProofTop3.v
theories/PropertiesDensity.v
theories/ModelReflect.v
theories/SpecReflect.v
theories/ProofReflectArg.v
theories/PropertiesReflect.v
theories/ModelInterp.v
theories/ProofInterp.v
theories/ModelResample.v
theories/SpecResample.v
theories/ProofResample.v
theories/ProofResample2.v
theories/ProofResample3.v
theories/ProofResample4.v
theories/ProofResampleEx.v
theories/PropertiesResample.v
theories/ModelUtils.v
theories/SpecUtils.v
theories/ProofUtils.v
theories/ProofUtils2.v
theories/ProofUtils3.v
theories/ProofUtils4.v
theories/SpecNested.v
theories/ProofNested.v
theories/ProofCov.v
theories/PropertiesUtils.v
theories/ModelNd.v
theories/SpecNd.v
theories/ProofNd.v
theories/ProofNd2.v
theories/ProofNd3.v
theories/ModelGrid.v
theories/SpecGrid.v
theories/ProofGrid.v
theories/ProofCdf.v
theories/ProofGrid2.v
theories/ProofGrid3.v
theories/ModelState.v
theories/ProofState.v
theories/PropertiesNd.v
theories/PropertiesGrid.v
theories/ModelSample.v
theories/SpecSample.v
theories/ProofSample.v
theories/ProofSample2.v
theories/ProofSample3.v
theories/ProofSample4.v
theories/ProofSample5.v
theories/ProofSample6.v
theories/ProofSample7.v
theories/ProofSample8.v
theories/PropertiesSample.v
theories/ModelApi.v
theories/SpecApi.v
theories/ProofApi.v
theories/PropertiesApi.v
theories/ModelPlot.v
theories/SpecPlot.v
theories/ProofPlot.v
theories/ProofPlot2.v
theories/ProofPlot3.v
theories/ProofPlot4.v
theories/PropertiesPlot.v
theories/ModelCorner.v
theories/ModelOptions.v
theories/SpecCorner.v
theories/ProofOptions.v
theories/ProofCorner.v
theories/ProofCorner2.v
theories/ProofCorner3.v
theories/ProofCorner4.v
theories/PropertiesCorner.v
theories/ModelDist.v
theories/SpecDist.v
theories/ProofDist.v
theories/ProofDist2.v
theories/ProofDist3.v
theories/PropertiesDist.v
theories/ModelInt.v
theories/SpecInt.v
theories/ProofInt.v
theories/ProofInt2.v
theories/PropertiesInt.v
theories/SpecApi2.v
theories/ProofApi2.v
theories/ModelAlias.v
theories/SpecAlias.v
theories/ProofAlias.v
theories/PropertiesAlias.v
theories/ProofOptions2.v
theories/PropertiesCorner2.v
theories/ModelColor.v
theories/SpecColor.v
theories/ProofColor.v
theories/PropertiesColor.v
theories/ModelRescale.v
theories/SpecRescale.v
theories/ProofRescale.v
theories/PropertiesRescale.v
theories/SpecMoments.v
theories/ProofMoments.v
theories/PropertiesMoments.v
theories/ModelConstruct.v
theories/SpecConstruct.v
theories/ProofConstruct.v
theories/SpecReflected.v
theories/ProofReflected.v
theories/PropertiesConstruct.v
theories/ProofMultiReflect.v
theories/PropertiesMultiReflect.v
theories/ModelCarpet.v
theories/SpecCarpet.v
theories/ProofCarpet.v
theories/PropertiesCarpet.v
theories/ModelQuantAxis.v
theories/SpecQuantAxis.v
theories/ProofQuantAxis.v
theories/PropertiesQuantAxis.v
theories/ModelKeep.v
theories/SpecKeep.v
theories/ProofKeep.v
theories/PropertiesKeep.v
theories/ModelClasses.v
theories/SpecClasses.v
theories/ProofClasses.v
theories/PropertiesClasses.v
theories/SpecNoise.v
theories/ProofNoise.v
theories/ProofNoise2.v
theories/ProofNoise3.v
theories/ProofNoise4.v
theories/PropertiesNoise.v
theories/ModelWarn.v
theories/ProofWarn.v
theories/PropertiesWarn.v
theories/ModelText.v
theories/SpecText.v
theories/ProofText.v
theories/PropertiesText.v
theories/ModelMisc.v
theories/SpecMisc.v
theories/ProofMisc.v
theories/PropertiesMisc.v
theories/SpecLaw.v
theories/ProofLaw.v
theories/ProofLaw2.v
theories/PropertiesLaw.v
theories/ModelContour.v
theories/SpecContour.v
theories/ProofContour.v
theories/PropertiesContour.v
theories/SpecLinear.v
theories/ProofLinear.v
theories/PropertiesLinear.v
theories/SpecContinuous.v
theories/ProofContinuous.v
theories/PropertiesContinuous.v
theories/SpecMixture.v
theories/ProofMixture.v
theories/PropertiesMixture.v
theories/SpecKeepLaw.v
theories/ProofKeepLaw.v
theories/PropertiesKeepLaw.v
theories/SpecCdfError.v
theories/ProofCdfError.v
theories/PropertiesCdfError.v
theories/SpecShape.v
theories/ProofShape.v
theories/PropertiesShape.v
theories/ModelCornerInit.v
theories/SpecCornerInit.v
theories/ProofCornerInit.v
theories/PropertiesCornerInit.v
theories/SpecSlope.v
theories/ProofSlope.v
theories/PropertiesSlope.v
theories/ModelDraw.v
theories/SpecDraw.v
theories/ProofDraw.v
theories/ProofDraw2.v
theories/PropertiesDraw.v
theories/SpecBandwidth.v
theories/ProofBandwidth.v
theories/PropertiesBandwidth.v
theories/SpecStable.v
theories/ProofStable.v
theories/PropertiesStable.v
theories/SpecUnits.v
theories/ProofUnits.v
theories/ProofUnits2.v
theories/PropertiesUnits.v
theories/ModelEdges.v
theories/SpecEdges.v
theories/ProofEdges.v
theories/PropertiesEdges.v
theories/SpecEdgeSlope.v
theories/ProofEdgeSlope.v
theories/PropertiesEdgeSlope.v
theories/SpecGridLaw.v
theories/ProofGridLaw.v
theories/PropertiesGridLaw.v
theories/ProofDist4.v
theories/SpecSymmetric.v
theories/ProofSymmetric.v
theories/PropertiesSymmetric.v
theories/SpecGridMany.v
theories/ProofGridMany.v
theories/PropertiesGridMany.v
theories/SpecQuantStable.v
theories/ProofQuantStable.v
theories/PropertiesQuantStable.v
theories/SpecWall.v
theories/ProofWall.v
theories/PropertiesWall.v
theories/SpecContourUnits.v
theories/ProofContourUnits.v
theories/PropertiesContourUnits.v
theories/SpecCdfUnits.v
theories/ProofCdfUnits.v
theories/PropertiesCdfUnits.v
theories/SpecCdfSymmetric.v
theories/ProofCdfSymmetric.v
theories/PropertiesCdfSymmetric.v
theories/SpecSampleUnits.v
theories/ProofSampleUnits.v
theories/PropertiesSampleUnits.v
theories/SpecGridUnits.v
theories/ProofGridUnits.v
theories/PropertiesGridUnits.v
theories/SpecSymmetricWall.v
theories/ProofSymmetricWall.v
theories/ProofFlipWalls.v
theories/PropertiesSymmetricWall.v
