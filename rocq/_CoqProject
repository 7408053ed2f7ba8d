-Q theories Verif

theories/Res.v
theories/F32.v
theories/Build.v
theories/TabEcc.v
theories/TabEccLut.v
theories/TabImbe.v
theories/TabAmbe2450.v
theories/TabAmbe2400.v
theories/TabSynth.v
theories/TabWola.v
theories/MEcc.v
theories/MFrame.v
theories/MDump.v
theories/SpecDump.v
theories/MParms.v
theories/MAdaptive.v
theories/MSse.v
theories/MUnvoiced.v
theories/MSynth.v
theories/MImbe.v
theories/MAmbe.v
theories/SpecEcc.v
theories/PBase.v
theories/PEcc.v
theories/PHam.v
theories/PropEcc.v
theories/SpecFrame.v
theories/PLoop.v
theories/PFrameAmbe.v
theories/PFrameImbe.v
theories/PFrame7200.v
theories/PConv.v
theories/PFrame7100.v
theories/PropFrame.v
theories/PRun.v
theories/SpecState.v
theories/PState.v
theories/PShort.v
theories/PropState.v
theories/PFloat.v
theories/SpecAdaptive.v
theories/SpecSum.v
theories/PSum.v
theories/PAdapt.v
theories/PropAdaptive.v
theories/SpecGen.v
theories/SpecGen2.v
theories/PGen.v
theories/PGen2.v
theories/PropGen.v
theories/SpecOut.v
theories/POut.v
theories/PropOut.v
theories/PArr.v
theories/PSse.v
theories/PFloat2.v
theories/SpecWola.v
theories/PWola.v
theories/PSpeech.v
theories/PropWola.v
theories/PDec.v
theories/SpecImbe.v
theories/PImbe.v
theories/PropImbe.v
theories/SpecAmbe.v
theories/PExp2.v
theories/PAmbeDec.v
theories/PAmbeDec2.v
theories/PNyq.v
theories/PSize.v
theories/PropAmbe.v
theories/SpecEnh.v
theories/PMoment.v
theories/PEnh.v
theories/PropEnh.v
theories/SpecMachine.v
theories/PMachine.v
theories/PStream.v
theories/PRange.v
theories/PropMachine.v
theories/SpecTone.v
theories/PTone.v
theories/PropTone.v
theories/SpecAmbeMachine.v
theories/SpecHeard.v
theories/PAmbeMachine.v
theories/PAmbeStream.v
theories/PropAmbeMachine.v
theories/PHeard.v
theories/PropHeard.v
theories/SpecEnd.v
theories/PEnd.v
theories/PropEnd.v
theories/MCache.v
theories/SpecCache.v
theories/PCache.v
theories/PropCache.v
theories/SpecAmp.v
theories/PAmp.v
theories/PAmp2.v
theories/PUnused.v
theories/PropAmp.v
theories/SpecSynth.v
theories/PPower.v
theories/PBuild.v
theories/PSynth.v
theories/PReal.v
theories/SpecTrig.v
theories/POsc.v
theories/POsc2.v
theories/PSynth2.v
theories/PropSynth.v
theories/PPredict.v
theories/SpecBound.v
theories/PResid.v
theories/PBound.v
theories/PropBound.v
theories/PResid2.v
theories/PBound2.v
theories/PropBound2.v
theories/MApi.v
theories/SpecSched.v
theories/PSched.v
theories/PropSched.v
theories/SpecTone2.v
theories/PSim.v
theories/PSim2.v
theories/PropTone2.v
theories/SpecTones.v
theories/PTones.v
theories/PropTones.v
theories/PDump.v
theories/PropDump.v
theories/SpecEnh2.v
theories/SpecBuild.v
theories/PEnh2.v
theories/PSumErr.v
theories/PEnh3.v
theories/PropEnh2.v
theories/MFft.v
theories/MAlloc.v
theories/SpecAlloc.v
theories/PAlloc.v
theories/PropAlloc.v
theories/PFftSym.v
theories/PFftRun.v
theories/PCpx.v
theories/SpecFft.v
theories/PFftReal.v
theories/PFftF32.v
theories/PropFft.v
theories/SpecFftErr.v
theories/PFftErr.v
theories/PropFftErr.v
theories/PIdeal.v
theories/PIv.v
theories/PCos.v
theories/SpecLoud.v
theories/PLoud.v
theories/PLoud2.v
theories/PLoud3.v
theories/PLoud4.v
theories/PLoud5.v
theories/PLoud6.v
theories/PropLoud.v
theories/SpecNum.v
theories/PNum.v
theories/PNum2.v
theories/PNum3.v
theories/PBuild2.v
theories/PNum4.v
theories/PNum5.v
theories/PNum6.v
theories/PNum7.v
theories/PNum8.v
theories/PropBuild.v
theories/PropNum.v
theories/SpecWave.v
theories/PWave.v
theories/PWave2.v
theories/PNum9.v
theories/PNum10.v
theories/PropWave.v
theories/SpecNum2.v
theories/PNum11.v
theories/PNum12.v
theories/PNum13.v
theories/PropNum2.v
theories/PCos2.v
theories/SpecLoud2.v
theories/PLoud7.v
theories/PLoud8.v
theories/PLoud9.v
theories/PLoud10.v
theories/PropLoud2.v
theories/MFftSimd.v
theories/SpecFftSimd.v
theories/PFftSimd.v
theories/PFftSimdReal.v
theories/PFftSimdErr.v
theories/PFftSimdNum.v
theories/PropFftSimd.v
theories/SpecSafe.v
theories/PSafe.v
theories/PSafe2.v
theories/PSafe3.v
theories/PSafe4.v
theories/PropSafe.v
theories/MProcess.v
theories/SpecProcess.v
theories/PProcess.v
theories/PProcess2.v
theories/PProcess3.v
theories/PProcess4.v
theories/PropProcess.v
theories/MNull.v
theories/SpecNull.v
theories/PNull.v
theories/PropNull.v
theories/MArm32.v
theories/SpecArm32.v
theories/PArm32.v
theories/PropArm32.v
theories/MFma.v
theories/SpecFma.v
theories/PFma.v
theories/PropFma.v
theories/SpecLocal.v
theories/PLocal.v
theories/PropLocal.v
theories/MRate.v
theories/SpecRate.v
theories/PRate.v
theories/PropRate.v
theories/MToneFma.v
theories/SpecToneFma.v
theories/PToneFma.v
theories/PropToneFma.v
theories/MOscFma.v
theories/SpecOscFma.v
theories/POscFma.v
theories/PropOscFma.v
theories/MGlideFma.v
theories/SpecGlideFma.v
theories/PGlideFma.v
theories/PropGlideFma.v
theories/MHarmFma.v
theories/SpecHarmFma.v
theories/PHarmFma.v
theories/PropHarmFma.v
