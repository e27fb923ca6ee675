-Q theories Verif
theories/Base.v
theories/Model.v
theories/Trace.v
theories/Rules.v
theories/Contract.v
theories/Spec.v
theories/InvSpec.v
theories/Refine.v
theories/Sim.v
theories/Mono.v
theories/Blind.v
theories/Code.v
theories/Main.v
theories/Micro.v
theories/Life.v
theories/Pend.v
theories/Den.v
theories/Tgt.v
theories/Stack.v
theories/Own.v
theories/Slot.v
theories/Turn.v
theories/Events.v
theories/Phase.v
theories/ContractInv.v
theories/ContractProof.v
theories/Progress.v
theories/Hist.v
theories/FactsVal.v
theories/Next.v
theories/RulesProof.v
theories/FactsLife.v
theories/FactsSeq.v
theories/FactsBack.v
theories/FactsObj.v
theories/FactsCall.v
theories/FactsEnd.v
theories/FactsView.v
theories/Ctl.v
theories/FactsCtl.v
theories/Replay.v
theories/FactsReplay.v
theories/FactsOther.v
theories/Cpp.v
theories/FactsCpp.v
theories/Examples.v
theories/PropsVal.v
theories/PropsLife.v
theories/PropsObj.v
theories/StateBits.v
theories/Layout.v
theories/Misuse.v
theories/PropsUB.v
theories/PropsCtl.v
theories/PropsRaii.v
theories/Progs.v
theories/Steps.v
theories/FactsProg.v
theories/FactsLayout.v
theories/FactsLazy.v
theories/PropsProg.v
theories/PropsMore.v
theories/PropsCore.v
theories/Tests.v
theories/Discipline.v
theories/DiscInv.v
theories/DiscStep.v
theories/DiscProof.v
theories/Tidy.v
theories/TidyProg.v
theories/FactsFin.v
theories/PropsDisc.v
theories/Gens.v
theories/FactsGen.v
theories/FactsLaws.v
theories/TidyGen.v
theories/PropsGen.v
theories/Pipes.v
theories/FactsPipe.v
theories/PropsPipe.v
theories/Uses.v
theories/Exact.v
theories/PropsExact.v
theories/Many.v
theories/FactsMany.v
theories/TidyMany.v
theories/LawsMany.v
theories/PropsMany.v
theories/Chain.v
theories/FactsChain.v
theories/SafeCpp.v
theories/LawsChain.v
theories/Blocks.v
theories/FactsBlock.v
theories/PropsChain.v
theories/PropsBlock.v
theories/Sym.v
theories/FactsSym.v
theories/FactsMix.v
theories/PropsSym.v
