-Q theories Verif
theories/Base.v
theories/LAddress.v
theories/LAddress2.v
theories/LAddress3.v
theories/LAlloc.v
theories/LAmount.v
theories/LAmountText.v
theories/LArb.v
theories/LArrayVec.v
theories/LAsm.v
theories/LBase58.v
theories/LBech32.v
theories/LBech32b.v
theories/LBech32c.v
theories/LBech32d.v
theories/LBip152.v
theories/LBip158.v
theories/LBip158b.v
theories/LBip158c.v
theories/LBip158d.v
theories/LBip32.v
theories/LBip32b.v
theories/LBip32c.v
theories/LBlock.v
theories/LBlockExt.v
theories/LBuilt.v
theories/LCalc.v
theories/LChaCha.v
theories/LChaCha2.v
theories/LCodec.v
theories/LCompact.v
theories/LDec.v
theories/LDec2.v
theories/LDiff.v
theories/LDrive.v
theories/LEnc.v
theories/LFee.v
theories/LFilterReader.v
theories/LFilterWriter.v
theories/LFloat.v
theories/LForms.v
theories/LHash.v
theories/LHash2.v
theories/LHash3.v
theories/LHashP.v
theories/LHex.v
theories/LHmac.v
theories/LHuffman.v
theories/LHuffman2.v
theories/LIo.v
theories/LIo2.v
theories/LIoDrive.v
theories/LKey.v
theories/LLock.v
theories/LMerkle.v
theories/LMessage.v
theories/LNetwork.v
theories/LOrd.v
theories/LP2p.v
theories/LP2p10.v
theories/LP2p2.v
theories/LP2p3.v
theories/LP2p4.v
theories/LP2p5.v
theories/LP2p6.v
theories/LP2p7.v
theories/LP2p8.v
theories/LP2p9.v
theories/LPmt.v
theories/LPmt2.v
theories/LPmt3.v
theories/LPoly.v
theories/LPoly2.v
theories/LPoly3.v
theories/LPoly4.v
theories/LPow.v
theories/LPredict.v
theories/LPredict2.v
theories/LPrefix.v
theories/LReady.v
theories/LScript.v
theories/LScript2.v
theories/LScript3.v
theories/LScript4.v
theories/LScript5.v
theories/LScriptNum.v
theories/LSerde.v
theories/LSerde2.v
theories/LSerde3.v
theories/LSha2.v
theories/LSha2b.v
theories/LSha2c.v
theories/LSha2d.v
theories/LSig.v
theories/LSigWriter.v
theories/LSighash.v
theories/LSighash2.v
theories/LSighash3.v
theories/LSign.v
theories/LSimd.v
theories/LSimd2.v
theories/LSimd3.v
theories/LSimd4.v
theories/LSimd5.v
theories/LSimd6.v
theories/LSimd7.v
theories/LSip.v
theories/LSpend.v
theories/LTaproot.v
theories/LTaproot2.v
theories/LText.v
theories/LTx.v
theories/LTx2.v
theories/LTxEx.v
theories/LTxId.v
theories/LTxSize.v
theories/LU256.v
theories/LU256F.v
theories/LU256P.v
theories/LU256T.v
theories/LWire.v
theories/LWitDec.v
theories/LWitness.v
theories/LWitness2.v
theories/MAddress.v
theories/MAgent.v
theories/MAlert.v
theories/MAlloc.v
theories/MAmount.v
theories/MAmountInt.v
theories/MAmountText.v
theories/MArb.v
theories/MArb2.v
theories/MArrayVec.v
theories/MAsm.v
theories/MBase58.v
theories/MBech32.v
theories/MBip152.v
theories/MBip158.v
theories/MBip32.v
theories/MBlockExt.v
theories/MBridge.v
theories/MCalc.v
theories/MChaCha.v
theories/MChain.v
theories/MDebug.v
theories/MDec.v
theories/MDiff.v
theories/MEnc.v
theories/MEncHash.v
theories/MFilterReader.v
theories/MFilterWriter.v
theories/MFloat.v
theories/MForms.v
theories/MHash.v
theories/MHash2.v
theories/MHex.v
theories/MHmac.v
theories/MIo.v
theories/MIoDrive.v
theories/MKey.v
theories/MLock.v
theories/MLockErr.v
theories/MMerkle.v
theories/MMessage.v
theories/MNetwork.v
theories/MOrd.v
theories/MP2p.v
theories/MP2pMsg.v
theories/MPmt.v
theories/MPow.v
theories/MPredict.v
theories/MPush.v
theories/MQuery.v
theories/MRadix.v
theories/MScript.v
theories/MSerde.v
theories/MSerde2.v
theories/MServices.v
theories/MSha2.v
theories/MSig.v
theories/MSigWriter.v
theories/MSighash.v
theories/MSign.v
theories/MSimd.v
theories/MSip.v
theories/MSocket.v
theories/MSpend.v
theories/MStream.v
theories/MTaproot.v
theories/MText.v
theories/MTx.v
theories/MTxSize.v
theories/MU256.v
theories/MVerify.v
theories/MView.v
theories/MWitVer.v
theories/MWitness.v
theories/MWitness2.v
theories/PAddress.v
theories/PAgent.v
theories/PAmount.v
theories/PAmountInt.v
theories/PAmountPos.v
theories/PAmountRound.v
theories/PAmountText.v
theories/PArb.v
theories/PArb2.v
theories/PArrayVec.v
theories/PAsm.v
theories/PBase58.v
theories/PBase58Size.v
theories/PBip152.v
theories/PBip158.v
theories/PBip32.v
theories/PBlockExt.v
theories/PBridge.v
theories/PCalc.v
theories/PChaCha.v
theories/PCodec.v
theories/PDebug.v
theories/PDiff.v
theories/PEnc.v
theories/PEncHash.v
theories/PExact.v
theories/PFilterReader.v
theories/PFilterWriter.v
theories/PFloat.v
theories/PFlow.v
theories/PForms.v
theories/PFuzz.v
theories/PHash.v
theories/PHex.v
theories/PHexCase.v
theories/PHmac.v
theories/PIo.v
theories/PIoDrive.v
theories/PKey.v
theories/PLock.v
theories/PLockErr.v
theories/PMerkle.v
theories/PMessage.v
theories/PNetwork.v
theories/POnePush.v
theories/POrd.v
theories/PP2p.v
theories/PPmt.v
theories/PPmt2.v
theories/PPmtSize.v
theories/PPow.v
theories/PPredict.v
theories/PPush.v
theories/PQuery.v
theories/PRadix.v
theories/PReadLimit.v
theories/PReady.v
theories/PRebuild.v
theories/PScript.v
theories/PSerde.v
theories/PSerde2.v
theories/PServices.v
theories/PSig.v
theories/PSigWriter.v
theories/PSighash.v
theories/PSighash2.v
theories/PSign.v
theories/PSimd.v
theories/PSip.v
theories/PSocket.v
theories/PSpend.v
theories/PStream.v
theories/PTaproot.v
theories/PText.v
theories/PTx.v
theories/PTypo.v
theories/PU256.v
theories/PVerify.v
theories/PView.v
theories/PWitVer.v
theories/PWitness.v
theories/SAddress.v
theories/SAgent.v
theories/SAlloc.v
theories/SAmount.v
theories/SAmountText.v
theories/SArb.v
theories/SArrayVec.v
theories/SAsm.v
theories/SBase58.v
theories/SBech32.v
theories/SBip152.v
theories/SBip158.v
theories/SBip32.v
theories/SBlock.v
theories/SBlockExt.v
theories/SCalc.v
theories/SChaCha.v
theories/SDec.v
theories/SDiff.v
theories/SEnc.v
theories/SFloat.v
theories/SForms.v
theories/SHash.v
theories/SHash2.v
theories/SHashApi.v
theories/SHex.v
theories/SHmac.v
theories/SIo.v
theories/SIoDrive.v
theories/SKey.v
theories/SLock.v
theories/SMerkle.v
theories/SMessage.v
theories/SNetwork.v
theories/SOrd.v
theories/SP2p.v
theories/SPmt.v
theories/SPow.v
theories/SPredict.v
theories/SPush.v
theories/SReady.v
theories/SScript.v
theories/SSerde.v
theories/SSerde2.v
theories/SSha2.v
theories/SSig.v
theories/SSighash.v
theories/SSign.v
theories/SSimd.v
theories/SSip.v
theories/SSocket.v
theories/SSpend.v
theories/STaproot.v
theories/SText.v
theories/STx.v
theories/SU256.v
theories/SVerify.v
theories/SView.v
theories/SWire.v
theories/SWitness.v
theories/SWitness2.v
