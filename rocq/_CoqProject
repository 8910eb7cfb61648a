-Q theories Verif
theories/Num.v
theories/Maths.v
theories/CrossFader.v
theories/Wavetable.v
theories/Filters.v
theories/Osc.v
theories/B32.v
theories/RNum.v
theories/Demo.v
theories/NumFacts.v
theories/Laws.v
theories/B32Facts.v
theories/B32Laws.v
theories/B32Pow.v
theories/RLaws.v
theories/CFFacts.v
theories/WTFacts.v
theories/SimdFacts.v
theories/Spec.v
theories/BuildFacts.v
theories/OscFacts.v
theories/OscStep.v
theories/OscRun.v
theories/OscHist.v
theories/SpecF.v
theories/CFHist.v
theories/PCross.v
theories/PBuild.v
theories/Prop_Build.v
theories/Prop_CrossFader.v
theories/SpecO.v
theories/PHist.v
theories/Prop_Safety.v
theories/SpecC.v
theories/PLoop.v
theories/PIso.v
theories/PStep.v
theories/Prop_Calls.v
theories/SpecT.v
theories/PTables.v
theories/PErr.v
theories/PRebuild.v
theories/Prop_Tables.v
theories/PMaths.v
theories/Prop_Maths.v
theories/SpecN.v
theories/PNaN.v
theories/Prop_NaN.v
theories/SpecE.v
theories/ExactMath.v
theories/ExactStep.v
theories/ExactRun.v
theories/ExactHist.v
theories/ExactCover.v
theories/ExactSig.v
theories/SpecX.v
theories/ExactLaws.v
theories/PExact.v
theories/Prop_Exact.v
theories/ExactLin.v
theories/Prop_Linear.v
theories/PSimd.v
theories/Prop_Simd.v
theories/SpecV.v
theories/ConvFacts.v
theories/Prop_Conv.v
theories/SpecY.v
theories/ExactWrong.v
theories/ExactClick.v
theories/PClick.v
theories/Prop_Click.v
theories/SpecM.v
theories/ExactMove.v
theories/Prop_Move.v
theories/Work.v
theories/SpecW.v
theories/PWork.v
theories/PHeld.v
theories/Prop_Work.v
theories/PolyZ.v
theories/SpecG.v
theories/PGain.v
theories/Prop_Gain.v
theories/SpecD.v
theories/PSeg.v
theories/Prop_Seg.v
theories/SpecH.v
theories/PHarm.v
theories/Prop_Harm.v
theories/PApx.v
theories/PSlope.v
theories/PFma.v
theories/PTerm.v
theories/PAlpha.v
theories/PVal.v
theories/PFwd.v
theories/PCoef.v
theories/PPole.v
theories/SpecR.v
theories/PSum.v
theories/PTrack.v
theories/PTrackS.v
theories/PTrackH.v
theories/PCover32.v
theories/Prop_Close.v
theories/Prop_CloseEx.v
theories/SpecP.v
theories/PWide.v
theories/Prop_Wide.v
theories/SpecA.v
theories/PAcc.v
theories/PTone.v
theories/Prop_Acc.v
theories/Prop_Tone.v
theories/PHarm32.v
theories/SpecJ.v
theories/Prop_Harm32.v
theories/Prop_Harm32Ex.v
theories/SpecL.v
theories/PFade.v
theories/PFade32.v
theories/Prop_Fade.v
theories/Prop_FadeEx.v
theories/Mem.v
theories/SpecI.v
theories/Prop_Mem.v
theories/SpecK.v
theories/PMisuse.v
theories/Prop_Misuse.v
theories/SpecB.v
theories/Prop_Alias.v
theories/SpecS.v
theories/Rel.v
theories/PInv.v
theories/Prop_Invert.v
theories/SpecQ.v
theories/PPort.v
theories/Prop_Port.v
theories/PRestart.v
theories/Prop_Restart.v
theories/SpecU.v
theories/PRobust.v
theories/PRobust32.v
theories/Prop_Robust.v
theories/Prop_Robust32.v
theories/SpecZ.v
theories/PHold.v
theories/Prop_Hold.v
theories/SpecZ32.v
theories/PStay.v
theories/PHold32.v
theories/Prop_Hold32.v
theories/PRate.v
theories/SpecRate.v
theories/PRate32.v
theories/Prop_Rate.v
theories/PEntry.v
theories/SpecEntry.v
theories/Prop_Entry.v
theories/SpecBank.v
theories/PBank.v
theories/Prop_Bank.v
theories/PUsed.v
theories/Prop_Used.v
