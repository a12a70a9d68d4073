-Q theories Verif
theories/Py.v
theories/Geometry.v
theories/Circ.v
theories/TCirc.v
theories/F2.v
theories/SpecCode.v
theories/PauliFacts.v
theories/GeometryFacts.v
theories/CodeFacts.v
theories/DistanceFacts.v
theories/LatFacts.v
theories/LatOps.v
theories/SyndromeFacts.v
theories/ConstructFacts.v
theories/P_Code.v
theories/QSem.v
theories/QFacts.v
theories/QCirc.v
theories/QWave.v
theories/ReadOps.v
theories/QRound.v
theories/Hist.v
theories/QOps.v
theories/QTotal.v
theories/QComm.v
theories/P_Quantum.v
theories/Noise.v
theories/P_Logical.v
theories/Names.v
theories/P_Hist.v
theories/QCx.v
theories/Cx.v
theories/CxHist.v
theories/P_Cx.v
theories/Parse.v
theories/ParseFacts.v
theories/P_Parse.v
theories/Decoder.v
theories/GraphFacts.v
theories/SpecGraph.v
theories/SyndromeGraph.v
theories/P_Graph.v
theories/SpecRx.v
theories/TJoin.v
theories/ErrGraph.v
theories/Mwpm.v
theories/MwpmGraph.v
theories/DecodeFacts.v
theories/SpecFault.v
theories/FaultFacts.v
theories/RxRef.v
theories/P_Decode.v
theories/P_EndRound.v
theories/SpecRun.v
theories/RunFacts.v
theories/P_EndToEnd.v
theories/Degen.v
theories/SpecDegen.v
theories/DegenFacts.v
theories/FirstNode.v
theories/P_Degen.v
theories/MwpmGen.v
theories/DegenWeights.v
theories/DegenDecode.v
theories/P_DegenDecode.v
theories/Lookup.v
theories/P_Lookup.v
theories/Bench.v
theories/BenchFacts.v
theories/P_Bench.v
theories/P_BenchCode.v
theories/P_Conc.v
theories/SpecInject.v
theories/Frame.v
theories/FrameCirc.v
theories/FrameCode.v
theories/FrameRound.v
theories/FrameFault.v
theories/FrameRun.v
theories/FrameRead.v
theories/FrameAcct.v
theories/FrameDecode.v
theories/P_CircuitFaults.v
theories/P_CircuitHalf.v
theories/P_EndToEndProb.v
theories/P_Sharp.v
theories/P_Share.v
theories/P_Multi.v
theories/DecObj.v
theories/P_DecObj.v
theories/Expect.v
theories/Noisy.v
theories/P_Threshold.v
theories/SpecIdeal.v
theories/Ideal.v
theories/IdealRound.v
theories/IdealRun.v
theories/P_Ideal.v
theories/SpecProgram.v
theories/P_Program.v
theories/DecoderApi.v
theories/P_DecoderApi.v
theories/SpecFair.v
theories/Fair.v
theories/FairRun.v
theories/FairNorm.v
theories/P_Fair.v
theories/P_Rate.v
theories/SpecInt.v
theories/P_ParseAny.v
theories/Par.v
theories/P_CxFault.v
theories/SpecLegal.v
theories/P_Legal.v
theories/P_Second.v
theories/P_Prep.v
theories/P_Rounds.v
theories/P_RoundsW.v
theories/P_PrepW.v
theories/SpecSpread.v
theories/RegsGrow.v
theories/P_Spread.v
theories/TReg.v
theories/SpecTReg.v
theories/P_TReg.v
theories/SpecAddReg.v
theories/P_AddReg.v
theories/TestSuite.v
theories/SpecTests.v
theories/P_Tests.v
theories/P_OtherType.v
theories/P_LookupRun.v
theories/FirstRound.v
theories/P_FirstRound.v
theories/LineGraph.v
theories/LineDecode.v
theories/P_RepWeighted.v
theories/SpecSize.v
theories/SizeFacts.v
theories/DepthFacts.v
theories/P_Size.v
theories/Draw.v
theories/P_Draw.v
theories/Plot.v
theories/P_Plot.v
theories/P_Shape.v
theories/Wrap.v
theories/P_Wrap.v
theories/P_Linear.v
theories/P_Gauge.v
theories/P_Turn.v
theories/P_BenchInit.v
