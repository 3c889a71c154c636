-Q theories Verif
theories/Word.v
theories/Res.v
theories/Mem.v
theories/SizeClassModel.v
theories/SizeClassProofs.v
theories/PropSizeClass.v
theories/ChainModel.v
theories/Wp.v
theories/ChainInv.v
theories/ChainZip.v
theories/ChainList.v
theories/ChainFl.v
theories/ChainPrim.v
theories/ChainFind.v
theories/ChainSplit.v
theories/ChainMerge.v
theories/ChainOps.v
theories/ChainAlloc.v
theories/ChainFree.v
theories/ChainSpec.v
theories/ChainCore.v
theories/ChainCoreFree.v
theories/ChainStep.v
theories/ChainRealloc.v
theories/ChainQueue.v
theories/ChainRefill.v
theories/ChainFuel.v
theories/ChainTrace.v
theories/ChainEv.v
theories/ChainProps.v
theories/ChainWalk.v
theories/ChainCap.v
theories/ChainSrc.v
theories/ChainPut.v
theories/ChainMore.v
theories/ChainLists.v
theories/ChainRun.v
theories/ChainExtra.v
theories/ChainFit.v
theories/PropBlocks.v
theories/PropCapacity.v
theories/PropCalls.v
theories/PropFit.v
theories/PropLists.v
theories/HeaderModel.v
theories/HeaderSpec.v
theories/HeaderProofs.v
theories/PropHeader.v
theories/MpscfModel.v
theories/MpscfSpec.v
theories/MpscfProofs.v
theories/MpscfProps.v
theories/MpscfGiven.v
theories/PropQueue.v
theories/LockModel.v
theories/LockSpec.v
theories/LockProofs.v
theories/PropLock.v
theories/AtomicModel.v
theories/AtomicSpec.v
theories/AtomicProofs.v
theories/ThreadSpec.v
theories/ThreadProofs.v
theories/PropThreads.v
theories/RegionModel.v
theories/RegionSpec.v
theories/RegionProofs.v
theories/PropRegion.v
theories/LightModel.v
theories/LightSpec.v
theories/LightProofs.v
theories/PropLight.v
theories/PmemModel.v
theories/PmemSpec.v
theories/PmemProofs.v
theories/PropPmem.v
theories/NumaModel.v
theories/NumaSpec.v
theories/NumaProofs.v
theories/PropNuma.v
theories/DefSrcModel.v
theories/DefSrcProofs.v
theories/PropDefSrc.v
theories/ConfigModel.v
theories/ConfigSpec.v
theories/ConfigProofs.v
theories/ConfigAny.v
theories/PropConfig.v
theories/PosixModel.v
theories/PosixSpec.v
theories/PosixChain.v
theories/PosixLocal.v
theories/PosixSrc.v
theories/PosixInv.v
theories/PosixMid.v
theories/PosixCall.v
theories/PosixRun.v
theories/PosixEff.v
theories/PosixFun.v
theories/PosixPub.v
theories/PosixNew.v
theories/PosixApi.v
theories/PosixCopy.v
theories/PosixRealloc.v
theories/PosixStart.v
theories/PosixStep.v
theories/PosixMore.v
theories/PosixEx.v
theories/PropPosix.v
theories/ConcModel.v
theories/ConcSpec.v
theories/ConcInv.v
theories/ConcStep.v
theories/ConcReach.v
theories/ConcMore.v
theories/ConcEx.v
theories/CounterModel.v
theories/CounterProofs.v
theories/PropConc.v
theories/ReclaimSpec.v
theories/PosixQueue.v
theories/PropReclaim.v
theories/InitModel.v
theories/InitSpec.v
theories/InitProofs.v
theories/InitMore.v
theories/RobinModel.v
theories/RobinSpec.v
theories/RobinProofs.v
theories/PropInit.v
theories/LightConcModel.v
theories/LightConcSpec.v
theories/LightConcProofs.v
theories/LightConcOwn.v
theories/LightConcCount.v
theories/LightConcMore.v
theories/LightConcEx.v
theories/PropLightConc.v
theories/NodeModel.v
theories/NodeSpec.v
theories/NodeProofs.v
theories/PropNode.v
theories/NumaStatModel.v
theories/NumaStatSpec.v
theories/NumaStatProofs.v
theories/PropNumaStat.v
theories/TsoModel.v
theories/TsoSpec.v
theories/TsoProofs.v
theories/TsoProps.v
theories/PropTso.v
theories/LockTsoModel.v
theories/LockTsoSpec.v
theories/LockTsoProofs.v
theories/PropLockTso.v
theories/FootSpec.v
theories/ChainFoot.v
theories/PosixFoot.v
theories/PropFoot.v
theories/RemapModel.v
theories/RemapProofs.v
theories/PropRemap.v
theories/RegConcModel.v
theories/RegConcSpec.v
theories/RegConcProofs.v
theories/RegConcEx.v
theories/PropRegConc.v
theories/RegDelModel.v
theories/RegDelSpec.v
theories/RegDelProofs.v
theories/PropRegDel.v
theories/RegSoloSpec.v
theories/RegSoloProofs.v
theories/PropRegSolo.v
theories/LightSoloSpec.v
theories/LightSoloProofs.v
theories/PropLightSolo.v
theories/PlainModel.v
theories/PlainProofs.v
theories/PropPlain.v
theories/ChainHalf.v
theories/PropHalf.v
theories/HookModel.v
theories/HookSpec.v
theories/HookErase.v
theories/HookAlloc.v
theories/HookLog.v
theories/HookRun.v
theories/PropHook.v
theories/DumpModel.v
theories/DumpSpec.v
theories/DumpProofs.v
theories/PropDump.v
theories/OrderSpec.v
theories/OrderModel.v
theories/OrderProofs.v
theories/PropOrder.v
theories/EggModel.v
theories/EggSpec.v
theories/EggEx.v
theories/EggProofs.v
theories/PropEgg.v
theories/BankModel.v
theories/BankSpec.v
theories/BankProofs.v
theories/PropBank.v
theories/InitTsoModel.v
theories/InitTsoSpec.v
theories/InitTsoProofs.v
theories/PropInitTso.v
theories/PageModel.v
theories/PageSpec.v
theories/PageProofs.v
theories/PropPage.v
theories/PoolModel.v
theories/PoolSpec.v
theories/PoolProofs.v
theories/PoolEx.v
theories/PropPool.v
theories/MoveModel.v
theories/MoveSpec.v
theories/MoveProofs.v
theories/PropMove.v
theories/MsgModel.v
theories/MsgTable.v
theories/MsgSpec.v
theories/MsgProofs.v
theories/PropMsg.v
theories/RegTsoModel.v
theories/RegTsoSpec.v
theories/RegTsoProofs.v
theories/RegTsoEnds.v
theories/RegTsoEx.v
theories/PropRegTso.v
theories/ComeSpec.v
theories/ComeProofs.v
theories/PropCome.v
theories/HeapTsoModel.v
theories/HeapTsoSpec.v
theories/HeapTsoProofs.v
theories/HeapTsoEx.v
theories/PropHeapTso.v
theories/MixSpec.v
theories/MixProofs.v
theories/MixPut.v
theories/MixEx.v
theories/PropMix.v
theories/ForkSpec.v
theories/ForkLock.v
theories/ForkQueue.v
theories/PropFork.v
theories/PropForkQueue.v
theories/SignalSpec.v
theories/SignalLock.v
theories/SignalQueue.v
theories/PropSignal.v
theories/PropSignalQueue.v
theories/SignalBatch.v
theories/PropSignalBatch.v
theories/SignalChain.v
theories/PropSignalChain.v
theories/SignalFree.v
theories/PropSignalFree.v
