-Q theories Verif
theories/Base.v
theories/Alu.v
theories/Isa.v
theories/State.v
theories/AluSpec.v
theories/AluProofs.v
theories/PropAlu.v
theories/Ram.v
theories/Writes.v
theories/Rat.v
theories/Exec.v
theories/Cpu.v
theories/InOrder.v
theories/LiveSpec.v
theories/PipeInv.v
theories/PipeBasics.v
theories/PipeActs.v
theories/PipeMem.v
theories/PipeExec.v
theories/PipePoll.v
theories/PipeRetire.v
theories/PipeAdd.v
theories/PipeTick.v
theories/PipeBoot.v
theories/IsaSpec.v
theories/IsaRefine.v
theories/PipeDom.v
theories/PipeRun.v
theories/Os.v
theories/DbgSpec.v
theories/PipePoke.v
theories/Session.v
theories/PropPipe.v
theories/Stops.v
theories/PropDbg.v
theories/IsaStep.v
theories/PropIsa.v
theories/PipeFault.v
theories/PropSpec.v
theories/Text.v
theories/PropText.v
theories/Tcp.v
theories/Queue.v
theories/Config.v
theories/PropNet.v
theories/Lexer.v
theories/Asm.v
theories/Show.v
theories/LexProofs.v
theories/AsmSpec.v
theories/AsmSweep.v
theories/AsmRead.v
theories/AsmPrint.v
theories/AsmProg.v
theories/PropAsm.v
theories/StdMap.v
theories/DbgText.v
theories/Client.v
theories/Spaces.v
theories/Proto.v
theories/PropProto.v
theories/Native.v
theories/PropBreak.v
theories/PropWatch.v
theories/IsaSame.v
theories/LibSpec.v
theories/NatRun.v
theories/NatStop.v
theories/PropStep.v
theories/PropOver.v
theories/Builder.v
theories/PropBuilder.v
theories/Src.v
theories/Expr.v
theories/Eval.v
theories/Info.v
theories/PropLines.v
theories/PropVars.v
theories/SrcFacts.v
theories/PropLoc.v
theories/ExprSpec.v
theories/ExprParse.v
theories/PropExpr.v
theories/PipeLive.v
theories/PipeSoon.v
theories/PropLive.v
theories/PropExit.v
theories/ValSpec.v
theories/EvalFacts.v
theories/EvalSound.v
theories/EvalOps.v
theories/SetReg.v
theories/PropEval.v
theories/PropAssign.v
theories/InfoSpec.v
theories/InfoRead.v
theories/InfoStop.v
theories/PropInfo.v
theories/PropLineStep.v
theories/Cli.v
theories/CliFacts.v
theories/PropCli.v
theories/Orderly.v
theories/PropRun.v
theories/PropStore.v
theories/PropShow.v
theories/PropAll.v
theories/PropList.v
theories/Change.v
theories/PropChange.v
theories/PropAttach.v
theories/PropPrint.v
theories/AsmTyped.v
theories/PipeOut.v
theories/T86Main.v
theories/PropMain.v
theories/SafeSpec.v
theories/PipeSafe.v
theories/PipeSafeExec.v
theories/PipeSafeStep.v
theories/PipeSafeRetire.v
theories/PipeSafeTick.v
theories/SafeWindow.v
theories/IsaDet.v
theories/PropSafe.v
theories/Stats.v
theories/StatsSpec.v
theories/StatsProof.v
theories/StatsLife.v
theories/StatsRun.v
theories/PropStats.v
theories/SafeDbgSpec.v
theories/SafeDbg.v
theories/PropSafeDbg.v
theories/StepTotal.v
theories/PropStepTotal.v
theories/PipeFits.v
theories/PropFits.v
theories/StepFault.v
theories/Machine.v
theories/PropMachine.v
theories/PropBounds.v
theories/PropSpell.v
theories/PropSpellUse.v
theories/PropHelp.v
