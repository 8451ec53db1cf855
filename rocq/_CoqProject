-Q theories Verif
theories/Rust.v
theories/MHuffman.v
theories/MQuant.v
theories/MImage.v
theories/MWriter.v
theories/MFdct.v
theories/MEncoder.v
theories/T81.v
theories/PExec.v
theories/PBits.v
theories/PHuff.v
theories/PBlock.v
theories/PScan.v
theories/PScans.v
theories/PFdct.v
theories/PQuant.v
theories/SImage.v
theories/Spec.v
theories/PImage.v
theories/PGeom.v
theories/PInter.v
theories/PSegments.v
theories/PSos.v
theories/PFile.v
theories/PWhole.v
theories/PTop.v
theories/PEncode.v
theories/PPixel.v
theories/STables.v
theories/SDct.v
theories/MApi.v
theories/SApi.v
theories/PApi.v
theories/PRound.v
theories/PWr.v
theories/PCong.v
theories/ThmApi.v
theories/ThmRound.v
theories/ThmImage.v
theories/ThmColor.v
theories/ThmQuant.v
theories/SFile.v
theories/PParts.v
theories/SHuff.v
theories/PCode.v
theories/ThmScan.v
theories/PGreedy.v
theories/PTree.v
theories/PLimit.v
theories/POptimal.v
theories/POpt.v
theories/ThmHuff.v
theories/PRefine.v
theories/ThmPlat.v
theories/SEncode.v
theories/PBytes.v
theories/PBytesI.v
theories/PBytesF.v
theories/PPlat.v
theories/SSize.v
theories/SRestart.v
theories/PSmall.v
theories/PRest.v
theories/ThmBytes.v
theories/ThmSize.v
theories/ThmRestart.v
theories/SDecide.v
theories/PParse.v
theories/PDecide.v
theories/PCount.v
theories/MAvx2.v
theories/SAvx2.v
theories/PAvx2.v
theories/PAvxDct.v
theories/SRoom.v
theories/PRoom.v
theories/PYcc.v
theories/ThmAvx2.v
theories/SRows.v
theories/PTrace.v
theories/ThmBuffer.v
theories/SReal.v
theories/PReal.v
theories/PIdct.v
theories/ThmReal.v
theories/MFile.v
theories/ThmFile.v
theories/ThmDecide.v
theories/PAll.v
theories/ThmAll.v
theories/SOutcome.v
theories/PSafe.v
theories/PForest.v
theories/PSafeEnc.v
theories/ThmOutcome.v
theories/SPreview.v
theories/PPrefix.v
theories/ThmPreview.v
theories/MWrite.v
theories/ThmWrite.v
theories/SMax.v
theories/PMax.v
theories/ThmMax.v
theories/MError.v
theories/SError.v
theories/ThmError.v
theories/SUsed.v
theories/PUsed.v
theories/ThmUsed.v
theories/SLocal.v
theories/ThmLocal.v
theories/SPixels.v
theories/PPix.v
theories/ThmPixels.v
theories/ThmSimd.v
theories/SDamage.v
theories/PDamage.v
theories/ThmDamage.v
theories/PSame.v
theories/SGen.v
theories/ThmGen.v
theories/SGrey.v
theories/ThmGrey.v
theories/SDecoder.v
theories/ThmDecoder.v
theories/MSource.v
theories/SSource.v
theories/PSource.v
theories/ThmSource.v
theories/SStream.v
theories/ThmStream.v
theories/SMeta.v
theories/ThmMeta.v
theories/SBright.v
theories/ThmBright.v
theories/SCoef.v
theories/ThmCoef.v
theories/ThmSizeS.v
theories/SLuma.v
theories/ThmLuma.v
theories/SEffect.v
theories/ThmEffect.v
theories/SPad.v
theories/PPad.v
theories/ThmPad.v
theories/SFiner.v
theories/ThmFiner.v
theories/SStrip.v
theories/ThmStrip.v
theories/SAnnexK2.v
theories/PAnnexK2.v
theories/PAnnexK2F.v
theories/ThmAnnexK2.v
theories/SMin.v
theories/PMin.v
theories/ThmMin.v
theories/SMove.v
theories/PMove.v
theories/ThmMove.v
theories/SStable.v
theories/PStable.v
theories/ThmStable.v
theories/SUnbroken.v
theories/ThmUnbroken.v
theories/SChannel.v
theories/ThmChannel.v
theories/SNegative.v
theories/ThmNegative.v
theories/SStart.v
theories/ThmStart.v
theories/SHeight.v
theories/ThmHeight.v
theories/VTests.v
