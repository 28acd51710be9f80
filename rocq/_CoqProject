-Q theories Verif
theories/GoBase.v
theories/Varint.v
theories/Offsets.v
theories/Runtime.v
theories/Spec.v
theories/VarintFacts.v
theories/OffsetsFacts.v
theories/RecFacts.v
theories/DecodeFacts.v
theories/DecodeClass.v
theories/SetFacts.v
theories/GenApi.v
theories/GetFacts.v
theories/Fuel.v
theories/IterFacts.v
theories/Api.v
theories/ApiFacts.v
theories/ApiInv.v
theories/Core.v
theories/Core2.v
theories/Core3.v
theories/Core4.v
theories/Core5.v
theories/Core6.v
theories/Demo.v
theories/P_Value.v
theories/P_State.v
theories/P_Decode.v
theories/Tree.v
theories/TreeFacts.v
theories/P_Tree.v
theories/Heap.v
theories/HeapFacts.v
theories/HeapSet.v
theories/HeapApi.v
theories/HeapExec.v
theories/HeapRead.v
theories/HeapView.v
theories/HeapAlias.v
theories/HeapThms.v
theories/P_Heap.v
theories/HeapAlloc.v
theories/HeapStable.v
theories/HeapBefore.v
theories/P_Mem2.v
theories/SpecCost.v
theories/Cost.v
theories/Cut.v
theories/P_Cost.v
theories/P_More.v
theories/Gen.v
theories/Golden.v
theories/GoLang.v
theories/GoSem.v
theories/GoCheck.v
theories/GenLex.v
theories/GenSpec.v
theories/GenText.v
theories/GenNames.v
theories/GenAst.v
theories/GenFile.v
theories/GoCheckFacts.v
theories/GenCheck.v
theories/GenPkg.v
theories/GenNec.v
theories/GenIff.v
theories/GenBehave.v
theories/GenClient.v
theories/GenRun.v
theories/GenE2E.v
theories/GenMisc.v
theories/GenReplace.v
theories/P_Gen.v
theories/Text.v
theories/TextFacts.v
theories/Main.v
theories/P_Main.v
theories/P_Text.v
theories/HeapSafe.v
theories/P_Safe.v
theories/Canon.v
theories/P_Canon.v
theories/Evolve.v
theories/P_Evolve.v
theories/SpecHist.v
theories/GenHist.v
theories/P_Hist.v
theories/PanicState.v
theories/PanicFacts.v
theories/PanicDecode.v
theories/P_Panic.v
theories/Validate.v
theories/SpecTree.v
theories/Interop.v
theories/P_Interop.v
theories/SpecScan.v
theories/ScanFacts.v
theories/P_Scan.v
theories/P_Place.v
theories/Runtime32.v
theories/Width.v
theories/P_Width.v
theories/P_Default.v
theories/SpecFind.v
theories/FindFacts.v
theories/P_Find.v
theories/SpecPos.v
theories/PosFacts.v
theories/P_Pos.v
theories/GoCheckTests.v
theories/SpecMem.v
theories/HeapEffect.v
theories/P_Effect.v
theories/StretchFacts.v
theories/P_Beyond.v
theories/SpecShare.v
theories/Share.v
theories/ShareFacts.v
theories/ShareArg.v
theories/ShareCore.v
theories/ShareRel.v
theories/ShareStep.v
theories/ShareSane.v
theories/ShareDet.v
theories/P_Share.v
theories/SpecRecover.v
theories/Recover.v
theories/RecoverFacts.v
theories/RecoverSet.v
theories/RecoverStep.v
theories/P_Recover.v
theories/Access.v
theories/AccessFacts.v
theories/AccessApi.v
theories/AccessMem.v
theories/AccessObj.v
theories/AccessSet.v
theories/AccessRun.v
theories/SpecGo.v
theories/AccessFork.v
theories/AccessRule.v
theories/AccessGo.v
theories/AccessCase.v
theories/P_Go.v
theories/SpecOrder.v
theories/P_Order.v
theories/WidthScan.v
theories/SpecSpend.v
theories/SpendFacts.v
theories/SpendGet.v
theories/SpendSet.v
theories/SpendMore.v
theories/SpendScan.v
theories/P_Spend.v
theories/SpecLock.v
theories/LockFacts.v
theories/P_Lock.v
theories/SpendHostile.v
theories/SpendWorst.v
theories/SpendTotal.v
theories/SpendWorstRun.v
theories/P_Hostile.v
theories/RuntimeGo.v
theories/Release.v
theories/ReleaseCalm.v
theories/P_Release.v
theories/SpendGo.v
theories/P_Modern.v
theories/SpendSetAny.v
theories/P_HostileSet.v
theories/SpecFork.v
theories/ForkJoin.v
theories/P_Fork.v
theories/SpecHand.v
theories/HandFacts.v
theories/P_Hand.v
theories/SpecChan.v
theories/P_Chan.v
