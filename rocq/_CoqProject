-Q theories Verif
theories/Base.v
theories/BaseFacts.v
theories/Data.v
theories/PFHw.v
theories/PFRef.v
theories/TestUtils.v
theories/SortFacts.v
theories/SpecLink.v
theories/LinkFacts.v
theories/SpecPF.v
theories/SpecPFWrap.v
theories/PFMatch.v
theories/MapiFacts.v
theories/PFHwSpec.v
theories/PFWrap.v
theories/PFRefSpec.v
theories/SpecSort.v
theories/RankFacts.v
theories/SpecOut.v
theories/PFProofs.v
theories/PFTotal.v
theories/InsertFacts.v
theories/SpecInert.v
theories/PFInert.v
theories/LinkProofs.v
theories/SortProofs.v
theories/Witness.v
theories/WitnessProofs.v
theories/Props_Dist.v
theories/Props_Link.v
theories/LinkRef.v
theories/Props_LinkRef.v
theories/Props_Sort.v
theories/Props_PF.v
theories/Props_Util.v
theories/Encoding.v
theories/SpecEnc.v
theories/EncFacts.v
theories/EncProofs.v
theories/Props_Enc.v
theories/Puppi.v
theories/SpecPuppi.v
theories/PuppiProofs.v
theories/PuppiExact.v
theories/Props_Puppi.v
theories/Bhv.v
theories/SpecBhv.v
theories/BhvProofs.v
theories/Props_Bhv.v
theories/Vtx.v
theories/SpecVtx.v
theories/VtxProofs.v
theories/Props_Vtx.v
theories/Regionizer.v
theories/SpecRegion.v
theories/TabFacts.v
theories/RegionFacts.v
theories/RegionMerge.v
theories/RegionLoops.v
theories/RegionProofs.v
theories/RegionMuon.v
theories/RegionMuonProps.v
theories/RegionFinal.v
theories/Props_Region.v
theories/Serializer.v
theories/SpecSer.v
theories/SerFacts.v
theories/SerText.v
theories/SpecSerFile.v
theories/SerTextFacts.v
theories/SerProofs.v
theories/SerRecover.v
theories/SerFinal.v
theories/Props_Ser.v
theories/Discrete.v
theories/Convert.v
theories/DiscreteIO.v
theories/SpecIO.v
theories/IOFacts.v
theories/ConvertFacts.v
theories/IOProofs.v
theories/ZpvFacts.v
theories/Props_IO.v
theories/SpecConvert.v
theories/ConvertProofs.v
theories/Props_Convert.v
theories/Printf.v
theories/HumanRead.v
theories/SpecHR.v
theories/HRFacts.v
theories/HRProofs.v
theories/Props_HR.v
theories/RegionLoop.v
theories/PFTest.v
theories/SpecTest.v
theories/PFTestProofs.v
theories/PFFileProofs.v
theories/PFTestFinal.v
theories/Props_PFTest.v
theories/EventLoop.v
theories/EventLoopFacts.v
theories/RegTest.v
theories/RegFiles.v
theories/SpecRegTest.v
theories/RegTestProofs.v
theories/RegTestRun.v
theories/SpecRegFiles.v
theories/RegFilesProofs.v
theories/RegFilesInj.v
theories/RegTestOk.v
theories/RegPackProofs.v
theories/RegTestFinal.v
theories/Props_RegTest.v
theories/BhvTest.v
theories/SpecBhvTest.v
theories/BhvTestProofs.v
theories/BhvFileProofs.v
theories/Props_BhvTest.v
theories/SpecTrunc.v
theories/TruncFacts.v
theories/TruncProofs.v
theories/TruncRuns.v
theories/Props_Trunc.v
theories/Fill.v
theories/FloatFacts.v
theories/SpecFill.v
theories/FillProofs.v
theories/FillObjects.v
theories/Props_Fill.v
theories/PuppiTable.v
theories/SpecTable.v
theories/TableProofs.v
theories/TableAccuracy.v
theories/Props_Table.v
theories/PuppiTest.v
theories/SpecPuppiTest.v
theories/PuppiTestProofs.v
theories/Props_PuppiTest.v
theories/VtxTest.v
theories/SpecVtxTest.v
theories/VtxTestProofs.v
theories/Props_VtxTest.v
theories/MixedIO.v
theories/SpecMixed.v
theories/MixedProofs.v
theories/Props_Mixed.v
theories/RandomInputs.v
theories/SpecRandom.v
theories/RandomProofs.v
theories/Props_Random.v
theories/PFWrapFacts.v
theories/Props_PFWrap.v
theories/SpecPFRef.v
theories/PFRefWrap.v
theories/PFRefAgree.v
theories/PFRefEvents.v
theories/Props_PFRef.v
theories/Console.v
theories/SpecConsole.v
theories/ConsoleFacts.v
theories/ConsoleIO.v
theories/ConsoleProofs.v
theories/ConsoleMain.v
theories/Props_Console.v
theories/SpecSym.v
theories/SymFacts.v
theories/SymProofs.v
theories/SymOrder.v
theories/Props_Sym.v
theories/SpecLocal.v
theories/LocalProofs.v
theories/Props_Local.v
theories/SpecPuppiSym.v
theories/PuppiSym.v
theories/Props_PuppiSym.v
theories/RegConsole.v
theories/SpecRegConsole.v
theories/RegConsoleProofs.v
theories/RegConsoleMain.v
theories/Props_RegConsole.v
theories/BhvConsole.v
theories/SpecBhvConsole.v
theories/BhvConsoleProofs.v
theories/Props_BhvConsole.v
theories/SpecSerColumns.v
theories/SerColumns.v
theories/PFDebug.v
theories/PFDebugFacts.v
theories/SpecPFDebug.v
theories/SpecPFSession.v
theories/PFDebugLines.v
theories/PFDebugProofs.v
theories/Props_PFDebug.v
theories/SpecMemory.v
theories/MemProofs.v
theories/Props_Memory.v
theories/SpecReplay.v
theories/ReplayProofs.v
theories/Props_Replay.v
theories/SpecShare.v
theories/ShareProofs.v
theories/Props_Share.v
theories/PuppiConsole.v
theories/SpecPuppiConsole.v
theories/PuppiConsoleProofs.v
theories/Props_PuppiConsole.v
theories/VtxConsole.v
theories/SpecVtxConsole.v
theories/VtxConsoleProofs.v
theories/Props_VtxConsole.v
theories/BhvSummary.v
theories/SpecBhvSummary.v
theories/BhvSummaryProofs.v
theories/Props_BhvSummary.v
theories/Particle.v
theories/SpecParticle.v
theories/ParticleProofs.v
theories/Props_Particle.v
theories/SpecBhvMove.v
theories/BhvMoveProofs.v
theories/Props_BhvMove.v
theories/SpecRegMove.v
theories/RegMoveProofs.v
theories/Props_RegMove.v
theories/SpecVtxMove.v
theories/VtxMoveProofs.v
theories/Props_VtxMove.v
theories/SpecReplay2.v
theories/Replay2Proofs.v
theories/Props_Replay2.v
theories/SpecDeterm.v
theories/DetermProofs.v
theories/Props_Determ.v
theories/SpecCrash.v
theories/CrashProofs.v
theories/Props_Crash.v
theories/SpecCopies.v
theories/CopiesProofs.v
theories/Props_Copies.v
theories/SpecSoft.v
theories/SoftProofs.v
theories/HardestProofs.v
theories/Props_Soft.v
theories/SpecChain.v
theories/ChainProofs.v
theories/ChainNeutral.v
theories/Props_Chain.v
theories/ChainKept.v
theories/Props_Kept.v
theories/SpecChainSym.v
theories/ChainSym.v
theories/ChainOrder.v
theories/Props_ChainSym.v
theories/SpecChainEnergy.v
theories/ChainEnergy.v
theories/ChainCalm.v
theories/Props_ChainEnergy.v
theories/Props_ChainCalm.v
theories/SpecChainMuon.v
theories/ChainMuon.v
theories/Props_ChainMuon.v
