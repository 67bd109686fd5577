-Q theories Verif
theories/Base.v
theories/PyList.v
theories/Dict.v
theories/Num.v
theories/Dense.v
theories/Sparse.v
theories/PSparse.v
theories/Matrix.v
theories/PMatrix.v
theories/PMatOps.v
theories/Scaling.v
theories/Linalg.v
theories/Operation.v
theories/Similarity.v
theories/Space.v
theories/Peripheral.v
theories/SpecSpace.v
theories/PDictList.v
theories/PShape.v
theories/PSpace.v
theories/Prop_Space.v
theories/SpecReal.v
theories/PReal.v
theories/Prop_Sim.v
theories/PSort.v
theories/Prop_Neigh.v
theories/PVals.v
theories/PPos.v
theories/Prop_Scaling.v
theories/PReshape.v
theories/Prop_Alike.v
theories/Prop_Svd.v
theories/Prop_Nmf.v
theories/PCols.v
theories/PProj.v
theories/Prop_Periph.v
theories/Heap.v
theories/Prop_Heap.v
theories/Learner.v
theories/Composition.v
theories/SpecComp.v
theories/PComp.v
theories/Prop_Comp.v
theories/PLsq.v
theories/Prop_Ridge.v
theories/Prop_Train.v
theories/Prop_Fadd.v
theories/Utils.v
theories/Prop_Utils.v
theories/Prop_Score.v
theories/LexFun.v
theories/PLexFun.v
theories/Prop_LexFun.v
theories/Str.v
theories/PStr.v
theories/IO.v
theories/SpecIO.v
theories/PIO.v
theories/Qio.v
theories/Prop_IO.v
theories/PExport.v
theories/Prop_Export.v
theories/Pipe.v
theories/SpecPipe.v
theories/PPipe.v
theories/Prop_Pipe.v
theories/Prop_Pipe2.v
theories/SpecPipe2.v
theories/PFiles.v
theories/PPipe2.v
theories/Prop_TrainPipe.v
theories/Pio.v
theories/Prop_Lambda.v
theories/PSave.v
theories/SpecCore.v
theories/PCore.v
theories/Prop_Core.v
theories/SpecPipe3.v
theories/PPipe3.v
theories/Prop_Sims.v
theories/Prop_Batch.v
theories/Prop_SimsR.v
theories/Prop_PipeEx.v
theories/Prop_Models.v
theories/Imp.v
theories/PImp.v
theories/Prop_Imp.v
theories/PAlias.v
theories/Prop_Alias.v
theories/Crash.v
theories/SpecCrash.v
theories/PCrash.v
theories/PCrash2.v
theories/PCrash3.v
theories/PCrash4.v
theories/PCrash5.v
theories/Prop_Crash.v
theories/Prop_CrashMain.v
theories/Prop_Crash2.v
theories/Prop_CrashEx.v
theories/Prop_Rerun.v
theories/Prop_RerunEx.v
theories/Prop_Text.v
theories/PMoved.v
theories/Prop_Order.v
theories/Prop_Counts.v
theories/Prop_Lines.v
theories/Prop_TrainOrder.v
theories/NmfInit.v
theories/Prop_NmfInit.v
theories/Prop_Ridge2.v
theories/Round.v
theories/PRound.v
theories/Prop_Round.v
theories/Prop_RoundSim.v
theories/Prop_RoundNeigh.v
theories/RoundEx.v
theories/Prop_RoundEx.v
theories/Prop_Recover.v
theories/PEckart.v
theories/Prop_SvdBest.v
theories/Prop_Algebra.v
theories/PMorph.v
theories/PMorph2.v
theories/PMorph3.v
theories/Prop_Defined.v
theories/Prop_Symm.v
theories/Prop_Unit.v
theories/Prop_Batches.v
theories/Prop_Rowwise.v
theories/Prop_Chain.v
theories/Prop_Shard.v
theories/Prop_Stack.v
theories/Prop_TwoStep.v
theories/Prop_Options.v
theories/Prop_Metric.v
theories/Prop_Transpose.v
theories/Conc.v
theories/SpecConc.v
theories/PConc.v
theories/PConc2.v
theories/Prop_Conc.v
theories/Prop_ConcEx.v
theories/PRace.v
theories/PRace2.v
theories/Prop_Race.v
theories/Prop_Race2.v
theories/Prop_Methods.v
theories/Prop_MatAlg.v
theories/Prop_Tensor.v
theories/PLexAny.v
theories/Prop_RoundComp.v
theories/Prop_RoundCompEx.v
theories/Prop_Axes.v
theories/Prop_AxesSvd.v
theories/Prop_AxesEx.v
theories/Prop_ColOrder.v
theories/Prop_ColOrder2.v
theories/Prop_RoundSel.v
theories/Prop_RoundPipe.v
theories/Prop_RoundPipeEx.v
theories/Prop_RoundPeriph.v
theories/Prop_RoundPeriphEx.v
theories/Prop_ColPeriph.v
theories/Prop_Zeros.v
theories/Prop_Zeros2.v
theories/Prop_ZeroPeriph.v
theories/Prop_ZeroComp.v
theories/SpecDir.v
theories/Prop_RerunDir.v
theories/Prop_RerunDirEx.v
theories/Prop_ConcDirEx.v
theories/Prop_ZeroTrain.v
theories/Prop_ConcRerun.v
theories/Prop_ConcRerunEx.v
theories/Prop_RoundCompPipe.v
theories/Prop_RoundCompPipeEx.v
theories/SpecGetopt.v
theories/PGetopt.v
theories/Prop_Getopt.v
theories/Prop_Superpose.v
theories/Prop_LexHist.v
