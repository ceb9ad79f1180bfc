-Q theories Verif
theories/Base.v
theories/Bits.v
theories/Spec8086.v
theories/Sim86.v
theories/Sim86Alu.v
theories/Sim86Base.v
theories/Sim86Variant.v
theories/Sim86Refine.v
theories/Sim86Refine2.v
theories/Sim86Step.v
theories/Sim86Inv.v
theories/Sim86Facts.v
theories/Props_Sim86.v
theories/SccState.v
theories/SccEmit.v
theories/SccLex.v
theories/SccDecl.v
theories/SccExpr.v
theories/SccStmt.v
theories/SccInput.v
theories/SccRel.v
theories/SccIntern.v
theories/SccTok.v
theories/SccTok2.v
theories/SccTok3.v
theories/Props_SccLex.v
theories/SccRun.v
theories/SccPut.v
theories/SccArith.v
theories/SccOps.v
theories/SccJump.v
theories/SccMem.v
theories/SccFix.v
theories/SccTruth.v
theories/SccWitness.v
theories/Props_SccEmit.v
theories/LibH.v
theories/LibCode.v
theories/LibFmt.v
theories/LibArgs.v
theories/Props_Lib.v
theories/Names.v
theories/Props_Names.v
theories/Swar.v
theories/SwarFacts.v
theories/Props_Swar.v
theories/Sas.v
theories/SasSym.v
theories/SasText.v
theories/SasExpr.v
theories/SasSpec.v
theories/SasAsm.v
theories/SasInst.v
theories/SasInst2.v
theories/SasInst3.v
theories/SasInst4.v
theories/SasInst5.v
theories/SasProg.v
theories/Props_Sas.v
theories/Spp.v
theories/SppIn.v
theories/SppOut.v
theories/SppSpec.v
theories/SppLex.v
theories/SppId.v
theories/SppWorld.v
theories/SppGet.v
theories/SppEval.v
theories/SppDefine.v
theories/SppMain.v
theories/Props_Spp.v
theories/ScopeSpec.v
theories/ScopeFacts.v
theories/SccScope.v
theories/TypeSpec.v
theories/SccType.v
theories/SccArray.v
theories/SccStruct.v
theories/SccBase.v
theories/SccAddr.v
theories/Props_SccDecl.v
theories/SpecWf.v
theories/ExprSpec.v
theories/GroupSpec.v
theories/SccHold.v
theories/SccFlush.v
theories/SccSem.v
theories/SccBin.v
theories/SccVal.v
theories/SccComp.v
theories/SccBody.v
theories/SccParse.v
theories/SccScan.v
theories/SccWhole.v
theories/Props_SccExpr.v
theories/SccGlob.v
theories/SccTrace.v
theories/SccBss.v
theories/Props_SccGlob.v
theories/SccImg.v
theories/StmtSpec.v
theories/SccStep.v
theories/SccAsn.v
theories/SccMach.v
theories/SccPiece.v
theories/SccStm.v
theories/SccProg.v
theories/Props_SccStmt.v
theories/SccArgs.v
theories/SccHead.v
theories/SccFun.v
theories/Props_SccFun.v
theories/SccLoc.v
theories/SccLoc2.v
theories/SccLoc3.v
theories/SccLoc4.v
theories/Props_SccLoc.v
theories/SccCall.v
theories/SccCall2.v
theories/SccCall3.v
theories/Props_SccCall.v
theories/Props_SccBoth.v
theories/Props_SccSign.v
theories/SccDead.v
theories/Props_SccCond.v
theories/SccLeft.v
theories/SccTern.v
theories/Props_SccTern.v
theories/SccLogic.v
theories/Props_SccLogic.v
theories/Props_SccJoin.v
theories/SccArms.v
theories/Props_SccArms.v
