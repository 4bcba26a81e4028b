-Q theories Verif
theories/Codew.v
theories/Peephole.v
theories/Vm.v
theories/SimGen.v
theories/SimWin.v
theories/SimInv.v
theories/PeepTac.v
theories/PeepRules.v
theories/PeepRules2.v
theories/PeepCtl.v
theories/PeepLoop.v
theories/PeepPass.v
theories/PeepPass2.v
theories/PeepAll.v
theories/PeepStat.v
theories/PeepSize.v
theories/PeepEnd.v
theories/PeepCond.v
theories/VmRun.v
theories/PeepBytes.v
theories/PeepFix.v
theories/PeepCyc.v
theories/SpecArith.v
theories/SpecVm.v
theories/PeepSpec.v
theories/PeepConst.v
theories/PeepShort.v
theories/PeepNorm.v
theories/OptCases.v
theories/ThmOpt1.v
theories/OptMore.v
theories/ThmOpt2.v
theories/Cpu.v
theories/Rt.v
theories/CpuWp.v
theories/RtArith.v
theories/RtCmp.v
theories/RtMul.v
theories/RtDiv.v
theories/RtFor.v
theories/RtMem.v
theories/RtCases.v
theories/ThmRt1.v
theories/RtStr.v
theories/RtCopy.v
theories/RtFill.v
theories/RtStr2.v
theories/RtStr3.v
theories/ThmRt2.v
theories/RtRand.v
theories/RtVal.v
theories/ThmRt3.v
theories/Rt5.v
theories/Rt5Str.v
theories/Rt5Val.v
theories/ThmRt4.v
theories/Text.v
theories/SpecText.v
theories/TextPf.v
theories/TextAsm.v
theories/TextList.v
theories/ThmText.v
theories/Front.v
theories/Tables.v
theories/FrontPf.v
theories/FrontInv.v
theories/FrontFrame.v
theories/FrontVars.v
theories/FrontTyped.v
theories/FrontOps.v
theories/FrontFuel.v
theories/SpecFront.v
theories/ThmFront1.v
theories/FrontTrace.v
theories/FrontCalls.v
theories/FrontShape.v
theories/ThmFront2.v
theories/FrontHeight.v
theories/ThmFront3.v
theories/FrontLabels.v
theories/FrontJumps.v
theories/FrontPlaces.v
theories/FrontTargets.v
theories/ThmFront4.v
theories/SpecStruct.v
theories/FrontBlocks.v
theories/FrontTrees.v
theories/FrontStruct.v
theories/ThmFront6.v
theories/Tools.v
theories/ThmTools.v
theories/Peg.v
theories/SpecExpr.v
theories/ExprCode.v
theories/ExprLex.v
theories/ExprAll.v
theories/ExprPf.v
theories/ThmFront5.v
theories/StructSim.v
theories/StructRun.v
theories/StructBack.v
theories/ThmStruct.v
theories/Fp.v
theories/SpecFp.v
theories/FpRound.v
theories/FpPf.v
theories/FpText.v
theories/ThmFp.v
theories/Synt.v
theories/SpecSynt.v
theories/SyntPf.v
theories/SyntMerge.v
theories/SyntDel.v
theories/SyntAll.v
theories/ThmSynt.v
theories/RtLoop.v
theories/SpecLoop.v
theories/LoopPf.v
theories/LoopArith.v
theories/LoopMem.v
theories/LoopVar.v
theories/LoopInc.v
theories/LoopPoke.v
theories/LoopPoke2.v
theories/LoopStore.v
theories/LoopJump.v
theories/LoopIo.v
theories/LoopRun.v
theories/ThmLoop.v
theories/SpecCall.v
theories/FrontParams.v
theories/FrontParams2.v
theories/FrontOrigin.v
theories/ThmFront7.v
theories/CpuSub.v
theories/Native.v
theories/NativeAlloc.v
theories/NativeNum.v
theories/SpecNative.v
theories/NativeName.v
theories/NativeVar.v
theories/SpecLit.v
theories/NativeLit.v
theories/ThmNative.v
theories/ThmNative2.v
theories/SpecBlock.v
theories/NativeBlock.v
theories/NativeBlock2.v
theories/ThmNative3.v
theories/SpecLabel.v
theories/NativeLabel.v
theories/NativeLabel2.v
theories/ThmNative4.v
theories/SpecString.v
theories/NativeString.v
theories/ThmNative5.v
theories/SpecLine.v
theories/NativeParse.v
theories/NativeLine.v
theories/ThmNative6.v
theories/NativeTable.v
theories/SpecTable.v
theories/NativeTablePf.v
theories/ThmNative7.v
theories/ThmNative8.v
theories/ThmNative9.v
