-Q theories Verif
theories/Word.v
theories/Layout.v
theories/LayoutFacts.v
theories/Alloc.v
theories/AllocFacts.v
theories/Traits.v
theories/ListUtil.v
theories/Pool.v
theories/PoolFacts.v
theories/P_Memory.v
theories/P_MapStack.v
theories/Fiber.v
theories/FiberInv.v
theories/FiberInv2.v
theories/FiberInv3.v
theories/Micro.v
theories/MicroInv.v
theories/FiberSpec.v
theories/TraceInv.v
theories/CallInv.v
theories/CallInv2.v
theories/StackInv.v
theories/ObjInv.v
theories/ExnInv.v
theories/HistInv.v
theories/HeapInv.v
theories/StepFacts.v
theories/Wind.v
theories/Settle.v
theories/P_Fiber.v
theories/P_Fiber2.v
theories/P_Fiber3.v
theories/P_Fiber4.v
theories/AsmMachine.v
theories/AsmSym.v
theories/AsmAbi.v
theories/AsmCheck.v
theories/AsmCode.v
theories/AsmCode2.v
theories/AsmFacts.v
theories/AsmHist.v
theories/P_Asm.v
theories/AsmWit.v
theories/P_AsmRef.v
theories/P_AsmPpc.v
theories/P_AsmX32.v
theories/P_AsmWin.v
theories/AsmLex.v
theories/AsmRead.v
theories/AsmIsaX86.v
theories/AsmIsaArm.v
theories/AsmIsaRisc.v
theories/AsmIsaPpc.v
theories/AsmTextX64.v
theories/AsmTextI386.v
theories/AsmTextArm.v
theories/AsmTextPpc32.v
theories/AsmTextPpc64.v
theories/AsmTextRisc.v
theories/AsmTextStub.v
theories/AsmDir.v
theories/P_AsmText.v
theories/AsmShadow.v
theories/P_AsmShadow.v
theories/Uctx.v
theories/UctxSpec.v
theories/P_UctxRef.v
theories/UctxInv.v
theories/UctxInv2.v
theories/UctxInv3.v
theories/UctxInv4.v
theories/UctxInv5.v
theories/UctxInv6.v
theories/UctxInv7.v
theories/UctxInj.v
theories/UctxObj.v
theories/UctxObj2.v
theories/UctxObj3.v
theories/P_Uctx.v
theories/P_Uctx2.v
theories/UctxWind.v
theories/P_Uctx3.v
theories/UctxFail.v
theories/Hooks.v
theories/P_Hooks.v
theories/Winfib.v
theories/P_Winfib.v
theories/Link.v
theories/LinkHist.v
theories/P_Link.v
theories/LinkMem.v
theories/P_LinkMem.v
theories/LinkMemWit.v
theories/LinkOs.v
theories/P_LinkOs.v
theories/LinkOsWit.v
theories/TestSuite.v
theories/Util.v
theories/P_Util.v
theories/Cet.v
theories/P_Cet.v
theories/AsmIl.v
theories/LinkShuffle.v
theories/LinkStep.v
theories/LinkStepInv.v
theories/LinkStepInv2.v
theories/LinkStepInv3.v
theories/P_LinkStep.v
theories/LinkStepConv.v
theories/LinkStepWit.v
theories/LinkWeak.v
theories/LinkWeakInv.v
theories/P_LinkWeak.v
theories/LinkWeakConv.v
theories/LinkWeakHand.v
theories/LinkWeakWit.v
theories/AsmSig.v
theories/AsmSig2.v
theories/P_AsmSig.v
theories/LinkSig.v
theories/LinkSigInv.v
theories/P_LinkSig.v
theories/LinkSigWit.v
theories/BuildText.v
theories/Pp.v
theories/Jam.v
theories/Build.v
theories/P_Build.v
theories/P_Headers.v
theories/P_Build2.v
theories/P_Headers2.v
theories/Cm.v
theories/P_Cmake0.v
theories/P_Cmake1.v
theories/P_Cmake2.v
theories/P_Cmake.v
