-Q theories Verif
theories/Scalar.v
theories/Float64.v
theories/LinAlg.v
theories/MUtils.v
theories/MModel.v
theories/MDynamics.v
theories/MPid.v
theories/MPid1.v
theories/MControl.v
theories/MCtlRun.v
theories/MImu.v
theories/MSim.v
theories/SpecDyn.v
theories/SpecRun.v
theories/SpecMix.v
theories/PBase.v
theories/PFloat.v
theories/PDyn.v
theories/PModel.v
theories/PDynR.v
theories/PPhys.v
theories/PNoise.v
theories/EBase.v
theories/PVeh.v
theories/PMix.v
theories/PWitDyn.v
theories/PDynMore.v
theories/EDyn.v
theories/TDyn.v
theories/EVeh.v
theories/TVeh.v
theories/SpecPid.v
theories/PPid.v
theories/PPid1.v
theories/PPidR.v
theories/PPidF.v
theories/EPid.v
theories/TPid.v
theories/SpecCtl.v
theories/PCtl.v
theories/PCtlR.v
theories/PCtlMix.v
theories/ECtl.v
theories/TCtl.v
theories/SpecImu.v
theories/PImu.v
theories/EImu.v
theories/TImu.v
theories/SpecSim.v
theories/PSim.v
theories/PSimR.v
theories/PHover.v
theories/SpecEuler.v
theories/PEuler.v
theories/PSimEnd.v
theories/PWell.v
theories/ESim.v
theories/TSim.v
theories/MText.v
theories/SpecText.v
theories/PText.v
theories/MExample.v
theories/SpecExample.v
theories/PExample.v
theories/EText.v
theories/TText.v
theories/MConfig.v
theories/SpecConfig.v
theories/PConfig.v
theories/EConfig.v
theories/TConfig.v
theories/SpecSet.v
theories/PSet.v
theories/ESet.v
theories/TSet.v
theories/SpecFile.v
theories/PFile.v
theories/EFile.v
theories/TFile.v
theories/SpecMotion.v
theories/PMotion.v
theories/PGlide.v
theories/EMotion.v
theories/TMotion.v
theories/SpecLayout.v
theories/PLayout.v
theories/TLayout.v
theories/SpecNoise.v
theories/PProc.v
theories/TNoise.v
theories/SpecRound.v
theories/PRound.v
theories/PQuat64.v
theories/PUnit64.v
theories/ERound.v
theories/TRound.v
theories/MScript.v
theories/SpecScript.v
theories/PScript.v
theories/PScriptMore.v
theories/PScript64.v
theories/EScript.v
theories/TScript.v
theories/SpecNumber.v
theories/PUp.v
theories/PNumber.v
theories/ENumber.v
theories/TNumber.v
theories/SpecReset.v
theories/PTwin.v
theories/PReset.v
theories/EReset.v
theories/TReset.v
theories/SpecTune.v
theories/PTune.v
theories/ETune.v
theories/TTune.v
theories/SpecSteer.v
theories/PSteer.v
theories/ESteer.v
theories/TSteer.v
theories/SpecVertical.v
theories/PVertical.v
theories/EVertical.v
theories/TVertical.v
theories/MReport.v
theories/SpecReport.v
theories/PReport.v
theories/EReport.v
theories/TReport.v
theories/SpecNav.v
theories/PNav.v
theories/ENav.v
theories/TNav.v
theories/SpecShift.v
theories/PShift.v
theories/EShift.v
theories/TShift.v
theories/SpecWatch.v
theories/PWatch.v
theories/EWatch.v
theories/TWatch.v
theories/SpecRenum.v
theories/PRenum.v
theories/ERenum.v
theories/TRenum.v
theories/MClamp.v
theories/SpecClamp.v
theories/PClamp.v
theories/EClamp.v
theories/TClamp.v
theories/SpecTour.v
theories/PTour.v
theories/ETour.v
theories/TTour.v
theories/SpecDefault.v
theories/PDefault.v
theories/EDefault.v
theories/TDefault.v
theories/SpecSym.v
theories/PSym.v
theories/PSymSim.v
theories/PSymMix.v
theories/ESym.v
theories/TSym.v
theories/SpecClimb.v
theories/PClimb.v
theories/PClimbSim.v
theories/EClimb.v
theories/TClimb.v
theories/SpecTotal.v
theories/PTotal.v
theories/PHold.v
theories/ETotal.v
theories/TTotal.v
theories/SpecDrift.v
theories/PDrift.v
theories/PDriftSim.v
theories/EDrift.v
theories/TDrift.v
theories/SpecEnergy.v
theories/PEnergy.v
theories/PSpinMom.v
theories/EEnergy.v
theories/TEnergy.v
theories/PRoot64.v
theories/ERoot64.v
theories/TRoot.v
theories/SpecSink.v
theories/PSink.v
theories/PSinkSim.v
theories/ESink.v
theories/TSink.v
theories/SpecHeight.v
theories/PHeight.v
theories/PHeightSim.v
theories/EHeight.v
theories/THeight.v
theories/SpecTrue.v
theories/SpecTrueSim.v
theories/PLip.v
theories/PTrue.v
theories/PTrueSim.v
theories/ETrue.v
theories/TTrue.v
theories/SpecExact.v
theories/PExact.v
theories/PExactRun.v
theories/EExact.v
theories/TExact.v
theories/SpecPidNum.v
theories/PPidNum.v
theories/EPidNum.v
theories/TPidNum.v
theories/SpecImuNum.v
theories/PImuNum.v
theories/EImuNum.v
theories/TImuNum.v
theories/PNorm64.v
theories/SpecCtlNum.v
theories/PCtlNum.v
theories/ECtlNum.v
theories/TCtlNum.v
theories/SpecSimNum.v
theories/PSimNum.v
theories/ESimNum.v
theories/TSimNum.v
theories/SpecSum.v
theories/PSum.v
theories/ESum.v
theories/TSum.v
theories/MPlot.v
theories/SpecPlot.v
theories/PPlot.v
theories/PPlotFig.v
theories/PPlotR.v
theories/EPlot.v
theories/TPlot.v
theories/SpecRate.v
theories/PRate.v
theories/PRateSim.v
theories/PRateAir.v
theories/ERate.v
theories/TRate.v
theories/SpecDoc.v
theories/PDoc.v
theories/EDoc.v
theories/TDoc.v
theories/MYaml.v
theories/SpecYaml.v
theories/SpecShipped.v
theories/PYaml.v
theories/PYamlMain.v
theories/EYaml.v
theories/TYaml.v
theories/PTick.v
theories/EYaml64.v
theories/PTickTour.v
theories/TClock.v
theories/PWind.v
theories/EWind.v
theories/TWind.v
theories/SpecLean.v
theories/PLean.v
theories/ELean.v
theories/TLean.v
theories/SpecLag.v
theories/PLag.v
theories/PLagRun.v
theories/PPlace.v
theories/PPid64.v
theories/ELag.v
theories/EPid64.v
theories/TLag.v
theories/SpecLower.v
theories/PLower.v
theories/PLowerSim.v
theories/ELower.v
theories/TLower.v
theories/SpecFollow.v
theories/PFollow.v
theories/EFollow.v
theories/TFollow.v
theories/PDrag64.v
theories/EDrag64.v
theories/TDrag64.v
theories/SpecMono.v
theories/PMono.v
theories/PMono64.v
theories/PMono1.v
theories/EMono.v
theories/TMono.v
theories/SpecHigher.v
theories/PHigher.v
theories/EHigher.v
theories/THigher.v
theories/SpecThrottle.v
theories/PThrottle.v
theories/PThrottle64.v
theories/EThrottle.v
theories/TThrottle.v
theories/PMono1d.v
theories/EMono1d.v
theories/TMono1d.v
theories/SpecHigher64.v
theories/PHigher64.v
theories/EHigher64.v
theories/THigher64.v
theories/SpecDamp.v
theories/PDamp.v
theories/EDamp.v
theories/TDamp.v
theories/SpecDampAny.v
theories/PDampAny.v
theories/EDampAny.v
theories/TDampAny.v
theories/SpecDamp64.v
theories/PDamp64.v
theories/EDamp64.v
theories/TDamp64.v
