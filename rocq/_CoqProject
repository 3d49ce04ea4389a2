-Q theories Verif
theories/RVec.v
theories/Trig.v
theories/SpecPlane.v
theories/MPca.v
theories/LSvd.v
theories/LPca.v
theories/LFit.v
theories/LAngles.v
theories/LFit2.v
theories/LExamples.v
theories/PPca.v
theories/MAxes.v
theories/LAxes.v
theories/PAxes.v
theories/MSphere.v
theories/MRecon.v
theories/LRecon.v
theories/PRecon.v
theories/MGroup.v
theories/LGroup.v
theories/LGroup2.v
theories/LGroup3.v
theories/PGroup.v
theories/PGroup2.v
theories/MMapping.v
theories/PMapping.v
theories/MStereo.v
theories/SpecStereo.v
theories/PStereo.v
theories/LNum.v
theories/SpecConics.v
theories/MConics.v
theories/LConics.v
theories/PConics.v
theories/LDet.v
theories/LSlice.v
theories/LPlane.v
theories/PConics2.v
theories/PConics3.v
theories/MHyper.v
theories/PHyper.v
theories/PHyper2.v
theories/MLinear.v
theories/LLinear.v
theories/SpecLinear.v
theories/PLinear.v
theories/MCoord.v
theories/PCoord.v
theories/MDem.v
theories/PDem.v
theories/MText.v
theories/SpecText.v
theories/PText.v
theories/MFront.v
theories/SpecFront.v
theories/PFront.v
theories/PFront2.v
theories/PFront3.v
theories/MUi.v
theories/SpecUi.v
theories/PUi.v
theories/PUi2.v
theories/MShape.v
theories/PShape.v
theories/PShape2.v
theories/PCompare.v
theories/MParam.v
theories/SpecParam.v
theories/PParam.v
theories/PParam2.v
theories/MFigures.v
theories/PFigures.v
theories/PFigures2.v
theories/PFigures3.v
theories/MBingham.v
theories/PBingham.v
theories/PBingham2.v
theories/MPlot.v
theories/PPlot.v
theories/PPlot2.v
theories/MNet.v
theories/SpecNet.v
theories/PNet.v
theories/PNet2.v
theories/PNet3.v
theories/MAgree.v
theories/PAgree.v
theories/PAgree2.v
theories/PNet4.v
theories/SpecSide.v
theories/MSide.v
theories/PSide.v
theories/PSide2.v
theories/SpecEquiv.v
theories/PEquiv.v
theories/SpecAxes2.v
theories/MAxes2.v
theories/PAxes2.v
theories/SpecEncode.v
theories/MEncode.v
theories/PEncode.v
theories/SpecSymbolic.v
theories/MSymbolic.v
theories/PSymbolic.v
theories/SpecStable.v
theories/LStable.v
theories/PStable.v
theories/MFloat.v
theories/PFloat.v
theories/Spec2d.v
theories/M2d.v
theories/P2d.v
theories/SpecBhat.v
theories/MBhat.v
theories/PBhat.v
theories/MScript.v
theories/PScript.v
theories/SpecRatio.v
theories/PRatio.v
theories/SpecStat.v
theories/PStat.v
theories/MDem2.v
theories/PDem2.v
theories/MBand.v
theories/SpecBand.v
theories/PBand.v
theories/MShadow.v
theories/SpecShadow.v
theories/PShadow.v
theories/SpecRepeat.v
theories/PRepeat.v
theories/MTests.v
theories/PTests.v
theories/SpecNoise.v
theories/PNoise.v
theories/MGrat.v
theories/SpecGrat.v
theories/PGrat.v
theories/MScatter.v
theories/SpecScatter.v
theories/PScatter.v
theories/MGram.v
theories/PGram.v
theories/PLength.v
theories/PDual.v
theories/MReport.v
theories/PReport.v
theories/MPage.v
theories/SpecPage.v
theories/PPage.v
theories/MChecks.v
theories/PChecks.v
theories/MProject.v
theories/PProject.v
theories/MMap.v
theories/PMap.v
theories/MJoin.v
theories/PJoin.v
theories/MShell.v
theories/PShell.v
theories/MErrcmp.v
theories/PErrcmp.v
theories/MHelpers.v
theories/PHelpers.v
theories/PMore.v
theories/POutlier.v
theories/PLever.v
theories/PPress.v
theories/PSteep.v
theories/PAffine.v
theories/PRepeat2.v
theories/MResid.v
theories/PResid.v
theories/PUid.v
