-Q theories Verif
theories/Base.v
theories/BaseFacts.v
theories/MUtil.v
theories/SUtil.v
theories/PUtil.v
theories/MReader.v
theories/MRect.v
theories/MSched.v
theories/PSched.v
theories/MCompress.v
theories/TUtil.v
theories/SUtf16.v
theories/PUtf16.v
theories/TUtf16.v
theories/MPicker.v
theories/MConfig.v
theories/MLayer.v
theories/MApi.v
theories/PReader.v
theories/SConfig.v
theories/PConfig.v
theories/PConfig2.v
theories/TConfig.v
theories/SCompress.v
theories/PCompress.v
theories/PCompress2.v
theories/PCompress3.v
theories/TCompress.v
theories/MCompressJs.v
theories/PCompressJs.v
theories/TCompressJs.v
theories/STree.v
theories/PTree.v
theories/TTree.v
theories/SLayer.v
theories/PLayer.v
theories/PDecode.v
theories/PFwd.v
theories/SSkip.v
theories/PSkip.v
theories/SRecord.v
theories/PRecord.v
theories/PRecord2.v
theories/PRecord3.v
theories/PRecord4.v
theories/XRecord.v
theories/TRecord.v
theories/TDecode.v
theories/TSkip.v
theories/SPicker.v
theories/PPicker.v
theories/TPicker.v
theories/MColor.v
theories/SColor.v
theories/PColor.v
theories/PColorF.v
theories/TColor.v
theories/MBlend.v
theories/PEnum.v
theories/PRound.v
theories/PSoft.v
theories/PSoft16.v
theories/PBlend.v
theories/PLum.v
theories/SBlend.v
theories/SHsl.v
theories/SWide.v
theories/PBlend2.v
theories/PFormula.v
theories/PFormula16.v
theories/PBlend3.v
theories/PWide.v
theories/PFloat.v
theories/PWide2.v
theories/PWide3.v
theories/PHsl.v
theories/TBlend.v
theories/MPorter.v
theories/SPorter.v
theories/PPorter.v
theories/TPorter.v
theories/MDraw.v
theories/SDraw.v
theories/PDraw.v
theories/PDraw2.v
theories/PDraw3.v
theories/PDraw4.v
theories/PDraw5.v
theories/TDraw.v
theories/MTile.v
theories/STile.v
theories/PTile.v
theories/TTile.v
theories/MWait.v
theories/PWait.v
theories/TWait.v
theories/MThumb.v
theories/SThumb.v
theories/PThumb.v
theories/PThumb2.v
theories/TThumb.v
theories/MLTree.v
theories/SLTree.v
theories/PLTree.v
theories/PLTree2.v
theories/PLTree3.v
theories/TLTree.v
theories/MRender.v
theories/SRender.v
theories/PRender.v
theories/PRender2.v
theories/PRender3.v
theories/PRender4.v
theories/PRender5.v
theories/SRenderLate.v
theories/MRenderLate.v
theories/PLate1.v
theories/PLate2.v
theories/PLate3.v
theories/PLate4.v
theories/PLate5.v
theories/TLate.v
theories/MRenderAll.v
theories/SRenderAll.v
theories/PRenderAll.v
theories/MRenderPx.v
theories/PRenderPx.v
theories/TRender.v
theories/MRenderStrict.v
theories/SRenderStrict.v
theories/PRenderStrict.v
theories/TRenderPx.v
theories/MLoad.v
theories/SLoad.v
theories/PLoad.v
theories/TLoad.v
theories/MTileRender.v
theories/STileRender.v
theories/PTileRender.v
theories/TTileRender.v
theories/SChunk.v
theories/PChunk.v
theories/TChunk.v
theories/MPipe.v
theories/SPipe.v
theories/SSharp.v
theories/SClip.v
theories/PClip.v
theories/TClip.v
theories/PPipe.v
theories/PPipe2.v
theories/PPipe3.v
theories/PPipe4.v
theories/PPipe5.v
theories/PSharp.v
theories/PSharp2.v
theories/PSharp3.v
theories/PSharp4.v
theories/XPipe.v
theories/TPipe.v
theories/TSharp.v
theories/SGlass.v
theories/PGlass.v
theories/PGlass1.v
theories/PGlass2.v
theories/PGlass3.v
theories/PGlass4.v
theories/TGlass.v
theories/SMerged.v
theories/PMerged.v
theories/TMerged.v
theories/SConvert.v
theories/PConvert.v
theories/TConvert.v
theories/SOver.v
theories/POver.v
theories/PLum16.v
theories/PFloatQ.v
theories/PHsl16.v
theories/PComp16.v
theories/TWide.v
theories/PTop.v
theories/TOver.v
theories/SLive.v
theories/PLive.v
theories/PLive2.v
theories/TLive.v
theories/MScale.v
theories/SScale.v
theories/PScale.v
theories/TScale.v
theories/MThumbs.v
theories/SThumbs.v
theories/PThumbs.v
theories/PThumbs2.v
theories/TThumbs.v
theories/MNames.v
theories/SNames.v
theories/PNames.v
theories/TNames.v
theories/SFrame.v
theories/PFrame.v
theories/TFrame.v
theories/MExport.v
theories/SExport.v
theories/PExport.v
theories/TExport.v
theories/MMove.v
theories/SMove.v
theories/PMove1.v
theories/PMove2.v
theories/PMove3.v
theories/PMove4.v
theories/TMove.v
theories/MLoadBy.v
theories/PLoadBy.v
theories/PMoveLoad.v
theories/XLoadBy.v
theories/TMoveLoad.v
theories/SShift.v
theories/PShift1.v
theories/PShift2.v
theories/PShift3.v
theories/PShift4.v
theories/PShift5.v
theories/TShift.v
theories/SGuard.v
theories/PGuard.v
theories/PGuard2.v
theories/PGuard3.v
theories/PGuard4.v
theories/PGuard5.v
theories/TGuard.v
theories/STail.v
theories/PTail1.v
theories/PTail2.v
theories/PTail3.v
theories/PTail4.v
theories/TTail.v
theories/SHsl8.v
theories/PHsl8.v
theories/THsl8.v
theories/SStack.v
theories/PStack1.v
theories/PStack2.v
theories/TStack.v
theories/SCover.v
theories/PCover.v
theories/TCover.v
theories/STidy.v
theories/PTidy.v
theories/TTidy.v
theories/SDissolve.v
theories/PDissolve.v
theories/TDissolve.v
theories/SLook.v
theories/PLook.v
theories/TLook.v
theories/SBelow.v
theories/PBelow.v
theories/TBelow.v
theories/SGrey.v
theories/PGrey.v
theories/TGrey.v
theories/SChannel.v
theories/PChannel.v
theories/TChannel.v
theories/STone.v
theories/PTone.v
theories/TTone.v
theories/SNeutral.v
theories/PNeutral.v
theories/TNeutral.v
theories/SBright.v
theories/PBright.v
theories/TBright.v
theories/PNewGamma.v
theories/TNewGamma.v
theories/STint.v
theories/PTint1.v
theories/PTint4.v
theories/PTint5.v
theories/TTint.v
theories/TTintShow.v
theories/SOne.v
theories/POne.v
theories/TOne.v
