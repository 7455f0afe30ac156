-Q theories Verif
theories/Base.v
theories/Gate.v
theories/Circuit.v
theories/Spec.v
theories/Fanout.v
theories/GateFacts.v
theories/GateSim.v
theories/Phase1.v
theories/Phase2.v
theories/Phase2E.v
theories/Prefix.v
theories/CycleModel.v
theories/Cycle.v
theories/Run.v
theories/Plain.v
theories/Safe.v
theories/Comm.v
theories/Demo.v
theories/Results.v
theories/PropertiesGarble.v
theories/Proc.v
theories/Tcp.v
theories/Codec.v
theories/BN.v
theories/OT.v
theories/OTExt.v
theories/Rsa.v
theories/Net.v
theories/PropertiesNet.v
theories/Rand.v
theories/Bounded.v
theories/Tables.v
theories/Protocol.v
theories/Transfer.v
theories/OutTransfer.v
theories/ProtocolOk.v
theories/ProtocolRun.v
theories/EndToEnd.v
theories/Modes.v
theories/Leaks.v
theories/ProtocolDemo.v
theories/ProtocolResults.v
theories/PropertiesProtocol.v
theories/Sort.v
theories/SortOk.v
theories/Text.v
theories/Netlist.v
theories/NetlistOk.v
theories/Scd.v
theories/Front.v
theories/Privacy.v
theories/View.v
theories/ViewCycle.v
theories/ViewRun.v
theories/ViewCoins.v
theories/ViewEval.v
theories/ViewDemo.v
theories/Parse.v
theories/ParseOk.v
theories/Verilog.v
theories/VerilogOk.v
theories/VerilogNet.v
theories/VerilogFront.v
theories/FrontDemo.v
theories/FrontResults.v
theories/ScdResults.v
theories/PropertiesScd.v
theories/PropertiesPrivacy.v
theories/PropertiesView.v
theories/Hex.v
theories/Format.v
theories/FormatOk.v
theories/PropertiesFormat.v
theories/Programs.v
theories/ProgramsOk.v
theories/ProgramsDemo.v
theories/PropertiesPrograms.v
theories/Bristol.v
theories/BristolOk.v
theories/BristolText.v
theories/BristolRun.v
theories/PropertiesBristol.v
theories/MapFile.v
theories/Trace.v
theories/TraceRun.v
theories/TraceDemo.v
theories/PropertiesTrace.v
theories/CmdText.v
theories/Mains.v
theories/MainsDemo.v
theories/PropertiesMains.v
theories/AesSpec.v
theories/Aes.v
theories/AesOk.v
theories/AesKey.v
theories/AesCipher.v
theories/AesInv.v
theories/AesBlock.v
theories/AesDemo.v
theories/BlockOps.v
theories/PropertiesAes.v
theories/Sched.v
theories/SchedSort.v
theories/SchedOk.v
theories/SchedEnd.v
theories/SchedDemo.v
theories/PropertiesSched.v
theories/Disk.v
theories/DiskDemo.v
theories/PropertiesDisk.v
theories/A23Int.v
theories/A23Sort.v
theories/A23Dijkstra.v
theories/A23Arith.v
theories/A23Hamming.v
theories/A23Sbox.v
theories/A23Aes.v
theories/Sha3Spec.v
theories/A23Sha3.v
theories/A23Demo.v
theories/PropertiesA23.v
theories/A23Cordic.v
theories/PropertiesCordic.v
theories/A23Main.v
theories/PropertiesA23Main.v
theories/TestRun.v
theories/TestRunDemo.v
theories/PropertiesTestRun.v
theories/ElfSplit.v
theories/ElfSplitDemo.v
theories/PropertiesElf.v
theories/RtlBase.v
theories/RtlLib.v
theories/RtlArith.v
theories/PropertiesRtl.v
theories/RtlSeq.v
theories/RtlMatrix.v
theories/RtlSelect.v
theories/RtlKnns.v
theories/RtlStack.v
theories/RtlDemo.v
theories/PropertiesRtl2.v
theories/RtlAes.v
theories/RtlAesRun.v
theories/PropertiesRtl3.v
theories/RtlSha3.v
theories/RtlSha3Run.v
theories/PropertiesRtl4.v
theories/RtlRsa.v
theories/RtlRsaSeq.v
theories/RtlRsaRun.v
theories/PropertiesRtl5.v
theories/MipsSpec.v
theories/RtlMips.v
theories/RtlMipsOk.v
theories/RtlMipsStep.v
theories/RtlMipsRun.v
theories/RtlMipsHamming.v
theories/PropertiesRtl6.v
theories/RtlMatch.v
theories/RtlMatchOk.v
theories/RtlMatchRun.v
theories/RtlMatchCore.v
theories/PropertiesRtl7.v
theories/RtlCordic.v
theories/PropertiesRtl8.v
theories/RtlA23.v
theories/RtlA23Units.v
theories/RtlA23Step.v
theories/RtlA23Jump.v
theories/RtlA23Mem.v
theories/RtlA23Mul.v
theories/RtlA23Refuted.v
theories/PropertiesRtl9.v
theories/RtlA23Multi.v
theories/RtlA23Run.v
theories/RtlA23Sum.v
theories/RtlA23Product.v
theories/RtlA23Compare.v
theories/RtlA23Cases.v
theories/PropertiesRtl10.v
theories/RtlA23Fill.v
theories/RtlA23Matrix.v
theories/RtlA23LoadPc.v
theories/RtlA23Bubble.v
theories/PropertiesRtl11.v
theories/RtlA23Hamming.v
theories/RtlA23Cordic.v
theories/RtlA23Temp.v
theories/PropertiesRtl12.v
theories/Sockets.v
theories/PropertiesSockets.v
theories/EvalRuns.v
theories/PropertiesEval.v
theories/LogFiles.v
theories/PropertiesLog.v
theories/Predecessors.v
theories/PropertiesPred.v
theories/StdCells.v
theories/PropertiesStd.v
theories/StdMux.v
theories/PropertiesMux.v
theories/LibCells.v
theories/PropertiesLib.v
