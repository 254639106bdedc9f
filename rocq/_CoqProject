-Q theories Verif
theories/PyBase.v
theories/Sums.v
theories/PyLib.v
theories/MZernike.v
theories/PZernike.v
theories/SZernike.v
theories/PRodrigues.v
theories/PBound.v
theories/PFinDiff.v
theories/PDisk.v
theories/PEnum.v
theories/Num.v
theories/MMath.v
theories/SMath.v
theories/MAperture.v
theories/PPolar.v
theories/PWave.v
theories/PPhase.v
theories/PPhase2.v
theories/PParseval.v
theories/PSym.v
theories/PZern2.v
theories/SFloat.v
theories/POrder64.v
theories/PNorm.v
theories/PRms.v
theories/PRms2.v
theories/PSnr.v
theories/SSnr.v
theories/PSnr2.v
theories/MTel.v
theories/STel.v
theories/PTel.v
theories/PIllum.v
theories/MRad.v
theories/PAper.v
theories/PFft.v
theories/PRad.v
theories/PRad2.v
theories/MCore.v
theories/PParams.v
theories/SCore.v
theories/PResid.v
theories/MFs.v
theories/MOut.v
theories/PFs.v
theories/PStr.v
theories/PFit.v
theories/SOut.v
theories/SOrder.v
theories/PFit2.v
theories/SFit.v
theories/PFit3.v
theories/PFit4.v
theories/PFit5.v
theories/PFit6.v
theories/PStore.v
theories/PFit7.v
theories/PFit8.v
theories/PFit9.v
theories/PConc.v
theories/PConc2.v
theories/PCrash.v
theories/PCrash2.v
theories/PDemo.v
theories/PGrid.v
theories/MAct.v
theories/SAct.v
theories/SAct2.v
theories/PAct.v
theories/PAct2.v
theories/PAct3.v
theories/PAct4.v
theories/PAct5.v
theories/PAct6.v
theories/PAct7.v
theories/PAct8.v
theories/MCoMat.v
theories/MAux.v
theories/MTab.v
theories/MPlot.v
theories/MScript.v
theories/SScript.v
theories/PScript.v
theories/PMpi.v
theories/PMpi2.v
theories/SChain.v
theories/SBest.v
theories/PBest.v
theories/PBest2.v
theories/SRepro.v
theories/PRepro.v
theories/PRepro2.v
theories/SRecover.v
theories/SCov.v
theories/PRecover.v
theories/PRecover2.v
theories/PCov.v
theories/PCov2.v
theories/PRecover3.v
theories/PCov3.v
theories/PChain.v
theories/PChain2.v
theories/PChain3.v
theories/PSimScript.v
theories/SLookup.v
theories/SLookFig.v
theories/PLookup.v
theories/PLookFig.v
theories/PLookup2.v
theories/PLookFig2.v
theories/PLookup3.v
theories/MActPlot.v
theories/PActPlot.v
theories/SPlot.v
theories/PPlot.v
theories/PPlot2.v
theories/PPlot3.v
theories/PPlot4.v
theories/PFar.v
theories/PGain.v
theories/PGain2.v
theories/PGain3.v
theories/SMirror.v
theories/PMirror.v
theories/SConv.v
theories/PConv.v
theories/PConv2.v
theories/SScale.v
theories/PScale.v
theories/PPlot5.v
theories/PPlot6.v
theories/PDemo2.v
theories/PDemo3.v
theories/STab.v
theories/PTab.v
theories/MSim.v
theories/SAux.v
theories/SSim.v
theories/PAux.v
theories/PSim.v
theories/SRad.v
theories/SGain.v
theories/PSim2.v
theories/PSim3.v
theories/PEnd.v
theories/PEndDemo.v
theories/SMat.v
theories/PMat.v
theories/PCoMat.v
theories/TZernike.v
theories/TWavefront.v
theories/TPhase.v
theories/TMath.v
theories/TSnr.v
theories/TTel.v
theories/TAper.v
theories/TRad.v
theories/PBox.v
theories/SLip.v
theories/PLip.v
theories/PLip2.v
theories/PLip3.v
theories/SPool.v
theories/PPool.v
theories/PPool2.v
theories/TPool.v
theories/TWatch.v
theories/MFloat.v
theories/SRound.v
theories/PRound.v
theories/PRound2.v
theories/PRound3.v
theories/TRound.v
theories/SWatch.v
theories/PWatch.v
theories/PWatch2.v
theories/MFloat2.v
theories/SRound2.v
theories/PRound4.v
theories/PRound5.v
theories/PRound6.v
theories/PRound7.v
theories/TRound2.v
theories/PRound8.v
theories/MFloat3.v
theories/PRound9.v
theories/TRound3.v
theories/SShuffle.v
theories/PShuffle.v
theories/PShuffle2.v
theories/TShuffle.v
theories/SField.v
theories/PField.v
theories/TField.v
theories/SRound3.v
theories/MFloat4.v
theories/PRound10.v
theories/PRound11.v
theories/PRound12.v
theories/PRound13.v
theories/PRound14.v
theories/TRound4.v
theories/MFloat5.v
theories/PRound15.v
theories/SRound4.v
theories/PRound16.v
theories/PRound17.v
theories/PRound18.v
theories/TRound5.v
theories/SSetup.v
theories/PSetup.v
theories/TSetup.v
theories/MFault.v
theories/SFault.v
theories/PFault.v
theories/PFault2.v
theories/PFault3.v
theories/TFault.v
theories/PLook.v
theories/PLook2.v
theories/SLook.v
theories/PLook3.v
theories/PLook4.v
theories/PLook5.v
theories/TLook.v
theories/MFloat6.v
theories/SRound5.v
theories/PRound19.v
theories/PRound20.v
theories/PRound21.v
theories/TRound6.v
theories/MFloat7.v
theories/SRound6.v
theories/PRound22.v
theories/PRound23.v
theories/PRound24.v
theories/TRound7.v
theories/MFloat8.v
theories/SRound7.v
theories/PRound25.v
theories/PRound26.v
theories/PRound27.v
theories/TRound8.v
theories/PRound28.v
theories/PRound29.v
theories/SRound8.v
theories/PRound30.v
theories/PRound31.v
theories/TRound9.v
theories/SRound9.v
theories/PRound32.v
theories/PRound33.v
theories/TRound10.v
theories/SRound10.v
theories/PRound34.v
theories/PRound35.v
theories/PRound36.v
theories/TRound11.v
theories/SText.v
theories/PText.v
theories/TText.v
theories/TCore.v
theories/TOut.v
theories/TAct.v
theories/TCoMat.v
theories/PAux3.v
theories/TAux.v
theories/TSim.v
theories/TTab.v
theories/TScript.v
theories/TPlot.v
theories/TLookup.v
theories/TActPlot.v
theories/TFar.v
theories/TOrder.v
theories/TChain.v
theories/TLookFig.v
theories/TBest.v
theories/TRepro.v
theories/TRecover.v
theories/TCov.v
theories/TGain.v
theories/TConv.v
theories/TScale.v
theories/TLip.v
