-Q theories Verif
theories/SpecInt.v
theories/SpecLin.v
theories/Prog.v
theories/RG.v
theories/Conv.v
theories/WordFacts.v
theories/Order.v
theories/Word.v
theories/CoreModel.v
theories/CoreProof.v
theories/SpecObj.v
theories/ExtraModel.v
theories/ExtraProof.v
theories/FrontProof.v
theories/IntModel.v
theories/IntProof.v
theories/SpecHist.v
theories/HistProof.v
theories/SpecCount.v
theories/IntConseq.v
theories/WideCex.v
theories/IntExamples.v
theories/PropInt.v
theories/SpecAlone.v
theories/Progress.v
theories/ProgressInt.v
theories/PropProgress.v
theories/SpecPair.v
theories/PairModel.v
theories/PairProof.v
theories/SpecUntorn.v
theories/UntornProof.v
theories/ProgressPair.v
theories/PropPair.v
theories/SpecTyped.v
theories/TypedModel.v
theories/TypedProof.v
theories/SpecFlag.v
theories/TypedConseq.v
theories/TypedCex.v
theories/PropTyped.v
theories/SpecBytes.v
theories/BytesModel.v
theories/BytesProof.v
theories/PropStorage.v
theories/SpecFind.v
theories/FindModel.v
theories/FindProof.v
theories/PropFind.v
theories/SpecRecords.v
theories/RecordsModel.v
theories/RecordsProof.v
theories/PropRecords.v
theories/SpecPool.v
theories/PoolModel.v
theories/PoolProof.v
theories/PoolFront.v
theories/PoolTyped.v
theories/SpecInstant.v
theories/InstantProof.v
theories/PoolConseq.v
theories/PoolExamples.v
theories/PropPool.v
theories/SleepLogic.v
theories/SleepInv.v
theories/SleepSteps.v
theories/SleepProg.v
theories/SpecSleep.v
theories/SleepProof.v
theories/SleepTyped.v
theories/SleepExamples.v
theories/WrapProof.v
theories/PropSleep.v
theories/PollProof.v
theories/PropPoll.v
theories/SpecTime.v
theories/TimeModel.v
theories/TimeProof.v
theories/PropTime.v
theories/Reorder.v
theories/SpecOrder.v
theories/FenceModel.v
theories/SpecFence.v
theories/FenceProof.v
theories/PropOrder.v
theories/SpecTso.v
theories/TsoModel.v
theories/TsoProof.v
theories/TsoCoherence.v
theories/TsoExamples.v
theories/PropTso.v
theories/SpecCaps.v
theories/CapsModel.v
theories/CapsProof.v
theories/CapsFront.v
theories/PropCaps.v
theories/SpecLayout.v
theories/LayoutModel.v
theories/LayoutProof.v
theories/PropLayout.v
theories/PropFlag.v
theories/SpecLock.v
theories/LockProof.v
theories/PropLock.v
theories/HandFlat.v
theories/SpecHand.v
theories/HandProof.v
theories/HandThread.v
theories/HandExample.v
theories/PropHand.v
theories/SpecFree.v
theories/FreeProof.v
theories/FreeInt.v
theories/FreeWait.v
theories/FreeTyped.v
theories/PropFree.v
theories/SpecOnce.v
theories/DispatchModel.v
theories/DispatchProof.v
theories/PropDispatch.v
theories/AsmExpr.v
theories/AsmText.v
theories/AsmModel.v
theories/SpecAsm.v
theories/AsmNorm.v
theories/AsmSym.v
theories/AsmTrees.v
theories/AsmCheck.v
theories/AsmCheckProof.v
theories/AsmBlocks.v
theories/AsmRefute.v
theories/AsmResults.v
theories/AsmOrder.v
theories/AsmOrderProof.v
theories/PropAsmOrder.v
theories/AsmLink.v
theories/PropAsm.v
theories/OrderFlow.v
theories/OrderTable.v
theories/OrderFlowProof.v
theories/PropOrderFlow.v
theories/TextModel.v
theories/SpecText.v
theories/TextTable.v
theories/TextProg.v
theories/SimProof.v
theories/TextProof.v
theories/TextFront.v
theories/TextRun.v
theories/TextMain.v
theories/TextFree.v
theories/PropText.v
theories/PoolText.v
theories/PoolTable.v
theories/PoolLayers.v
theories/PoolFpTable.v
theories/PoolFpLayers.v
theories/PoolTextFront.v
theories/PoolTextProof.v
theories/PoolTextCond.v
theories/PoolTextPool.v
theories/PoolTextOps.v
theories/PoolTextWait.v
theories/PoolTextGen.v
theories/PoolTextPoll.v
theories/PoolTextMain.v
theories/PoolTextFp.v
theories/PoolTextRun.v
theories/PropPoolText.v
theories/PoolTimedTable.v
theories/PoolTimedLayers.v
theories/PoolTimedFront.v
theories/PoolTimedTac.v
theories/PoolTextTimedFor.v
theories/PoolTextTimedSys.v
theories/PoolTextTimed.v
theories/PoolTextTimedMain.v
theories/PoolTimedRun.v
theories/PropTimedText.v
