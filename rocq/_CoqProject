-Q theories Verif
theories/Model.v
theories/Mem.v
theories/Inv.v
theories/Safe.v
theories/SafeStep.v
theories/SafeOps.v
theories/SafeSys.v
theories/Look.v
theories/Spec.v
theories/Concrete.v
theories/SafeProps.v
theories/PropSafety.v
theories/LinSpec.v
theories/Sem.v
theories/SemOps.v
theories/SysSem.v
theories/Lin.v
theories/LinProps.v
theories/Shape.v
theories/LinMore.v
theories/PropLin.v
theories/Seq.v
theories/SeqSpec.v
theories/Prune.v
theories/PruneStep.v
theories/Iter.v
theories/IterSpec.v
theories/IterSys.v
theories/ProgSpec.v
theories/Prog.v
theories/LiveStep.v
theories/Count.v
theories/IterProg.v
theories/PropIter.v
theories/Lock.v
theories/LockStep.v
theories/LockHash.v
theories/LockSys.v
theories/LockSolo.v
theories/PropLock.v
theories/Weak.v
theories/WeakInv.v
theories/WeakStep.v
theories/WeakSys.v
theories/WeakRun.v
theories/WeakCoh.v
theories/WeakWalk.v
theories/WeakFun.v
theories/WeakWrite.v
theories/WeakTime.v
theories/WeakIter.v
theories/WeakBase.v
theories/WeakLin.v
theories/PropWeak.v
theories/WeakRS.v
theories/PropRS.v
theories/PropCoh.v
theories/WeakFree.v
theories/FreeSim.v
theories/FreeStep.v
theories/FreeWalk.v
theories/FreeInv.v
theories/FreeRun.v
theories/PropFree.v
theories/Debug.v
theories/SeqSys.v
theories/SeqShape.v
theories/SeqHist.v
theories/Refuted.v
theories/PropSeq.v
theories/Api.v
theories/ApiSpec.v
theories/PropApi.v
theories/Traits.v
theories/Threads.v
theories/Borrow.v
theories/Collectors.v
theories/BorrowFacts.v
theories/TraitFacts.v
theories/PropShare.v
theories/HoldSpec.v
theories/PropHold.v
theories/Print.v
theories/PrintSpec.v
theories/PrintSim.v
theories/PropPrint.v
theories/Wild.v
theories/WildSafe.v
theories/PropWild.v
theories/SpaceSpec.v
theories/PropSpace.v
theories/Arcs.v
theories/ArcSpec.v
theories/ArcInv.v
theories/PropArcs.v
theories/WeakProg.v
theories/WeakLag.v
theories/WeakLock.v
theories/WeakLockSys.v
theories/WeakLockRun.v
theories/WeakLockEnd.v
theories/PropWLock.v
theories/WeakCount.v
theories/PropWCount.v
theories/Rc11.v
theories/Rc11Sim.v
theories/Rc11Conv.v
theories/PropRc11.v
theories/WeakShape.v
theories/PropWRace.v
theories/WApiSpec.v
theories/PropWApi.v
theories/Plain.v
theories/PlainRel.v
theories/PlainLook.v
theories/PlainInv.v
theories/PlainSim.v
theories/PropPlain.v
theories/PropPlainNeed.v
theories/Reenter.v
theories/ReenterSim.v
theories/PropReenter.v
theories/Fmt.v
theories/PropFmt.v
theories/WPrint.v
theories/WPrintSim.v
theories/PropWPrint.v
theories/PrintFmt.v
theories/PrintFmtSpec.v
theories/PropPrintFmt.v
theories/InterSpec.v
theories/InterSim.v
theories/InterExact.v
theories/PropInter.v
theories/InterSeq.v
theories/PropHand.v
theories/JoinSpec.v
theories/PropJoin.v
