-Q theories Verif
theories/Base.v
theories/Reader.v
theories/Sched.v
theories/SchedLemmas.v
theories/Spec.v
theories/ReaderLemmas.v
theories/Coo.v
theories/Safe.v
theories/Arb.v
theories/CooLemmas.v
theories/CooExec.v
theories/SpecFp.v
theories/WeightLemmas.v
theories/CooSplit.v
theories/CooMain.v
theories/ElSpec.v
theories/ElFinal.v
theories/ElThms.v
theories/ElBad.v
theories/ElLarge.v
theories/ElExamples.v
theories/P_EdgeList.v
theories/P_EdgeBad.v
theories/SpecDec.v
theories/SpecText.v
theories/Ascii.v
theories/AsciiLemmas.v
theories/StbLemmas.v
theories/WriteLemmas.v
theories/TextRound.v
theories/P_Text.v
theories/Csr.v
theories/SchedMore.v
theories/SpecCsr.v
theories/CsrLemmas.v
theories/CsrScatter.v
theories/CsrMain.v
theories/CsrBack.v
theories/CsrSort.v
theories/CsrQuery.v
theories/P_Csr.v
theories/Codec.v
theories/Bin.v
theories/SpecBin.v
theories/BinLemmas.v
theories/BinSave.v
theories/BinLoad.v
theories/Graph.v
theories/Load.v
theories/BinOpen.v
theories/Tensor.v
theories/P_Bin.v
theories/BinBad.v
theories/P_BinBad.v
theories/P_BinEx.v
theories/SpecCut.v
theories/Cut.v
theories/P_Cut.v
theories/SpecCrash.v
theories/Crash.v
theories/CrashLemmas.v
theories/CrashRead.v
theories/P_Crash.v
theories/SpecGraph.v
theories/GraphLemmas.v
theories/GraphMain.v
theories/GraphFinal.v
theories/P_Graph.v
theories/P_GraphEx.v
theories/P_GraphIso.v
theories/P_GraphCmt.v
theories/SpecTensor.v
theories/Blocks.v
theories/TensorLemmas.v
theories/TensorMain.v
theories/P_Tensor.v
theories/P_TensorEx.v
theories/Fp64.v
theories/SpecFp64.v
theories/Fp64Lemmas.v
theories/Fp64Near.v
theories/Fp64Err.v
theories/P_Float.v
theories/P_Double.v
theories/P_DoubleNear.v
theories/SpecMm.v
theories/MmLemmas.v
theories/P_Mm.v
theories/TensorOut.v
theories/WriteGen.v
theories/SpecTensorOut.v
theories/TensorOutLemmas.v
theories/TensorRound.v
theories/P_TensorOut.v
theories/Frag.v
theories/FragEl.v
theories/SpecFrag.v
theories/FragMain.v
theories/FragFinal.v
theories/P_Frag.v
theories/FindOff.v
theories/RaceIO.v
theories/SpecFind.v
theories/FindLemmas.v
theories/P_Find.v
theories/SpecOrder.v
theories/TensorOrder.v
theories/TensorFrag.v
theories/TensorFragMain.v
theories/Term.v
theories/TensorSafe.v
theories/SpecTensorCut.v
theories/TensorCut.v
theories/TensorShort.v
theories/P_TensorLimits.v
theories/GraphTerm.v
theories/LoadTerm.v
theories/P_Term.v
theories/Own.v
theories/SpecOwn.v
theories/OwnLemmas.v
theories/OwnMain.v
theories/OwnConv.v
theories/P_Own.v
theories/FileLife.v
theories/SpecFile.v
theories/P_File.v
theories/SpecRace.v
theories/Race.v
theories/RaceLemmas.v
theories/CsrFine.v
theories/CsrFinePhases.v
theories/CsrFineScatter.v
theories/CsrFineMain.v
theories/DupFine.v
theories/DupFineLemmas.v
theories/GraphFine.v
theories/GraphFineLemmas.v
theories/P_Race.v
theories/Stb.v
theories/StbArith.v
theories/StbExact.v
theories/StbBits.v
theories/StbInt.v
theories/StbCoarse.v
theories/StbRaise.v
theories/StbTables.v
theories/StbFar.v
theories/StbFinal.v
theories/StbConv.v
theories/P_Stb.v
theories/SpecPipe.v
theories/P_Pipe.v
theories/SpecBare.v
theories/Bare.v
theories/P_Bare.v
theories/SpecReweigh.v
theories/Reweigh.v
theories/P_Reweigh.v
theories/PageMul.v
theories/P_Page.v
theories/Racy.v
theories/RacyAny.v
theories/P_Racy.v
theories/GraphSafe.v
theories/P_GraphSafe.v
theories/SpecTouch.v
theories/GraphTouch.v
theories/P_GraphTouch.v
theories/GraphSplit.v
theories/SpecLife.v
theories/Life.v
theories/LifeLemmas.v
theories/LifeMain.v
theories/P_Life.v
theories/SpecCursor.v
theories/Cursor.v
theories/P_Cursor.v
theories/SpecLog.v
theories/Log.v
theories/LogDup.v
theories/P_Log.v
theories/ArbFull.v
theories/P_Arb.v
theories/Retype.v
theories/RetypeLemmas.v
theories/P_Types.v
theories/Matrix.v
theories/P_Matrix.v
theories/P_RaceIO.v
theories/SpecCrashText.v
theories/CrashText.v
theories/CrashTextLemmas.v
theories/CrashTextRead.v
theories/P_CrashText.v
theories/P_ArbMatrix.v
theories/P_Chain.v
theories/P_TensorChain.v
theories/P_Large.v
theories/GraphPart.v
theories/P_GraphPart.v
theories/P_StbTensor.v
theories/P_ChainMm.v
theories/P_ChainGraph.v
theories/P_CutHead.v
theories/P_CutHeadCsr.v
theories/P_CutHeadTensor.v
theories/P_CutGap.v
theories/P_CutSecond.v
theories/P_CutFirst.v
