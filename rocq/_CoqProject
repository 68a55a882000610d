-Q theories Verif
theories/Base.v
theories/Num.v
theories/NumF64.v
theories/NumXR.v
theories/Grid.v
theories/Eikonal.v
theories/FMMModel.v
theories/SweepModel.v
theories/QueueModel.v
theories/UntidyModel.v
theories/HeapRef.v
theories/Spec.v
theories/BaseFacts.v
theories/GridFacts.v
theories/NumLaws.v
theories/GridMore.v
theories/Obs.v
theories/Prop_Grid.v
theories/EikR.v
theories/EikX.v
theories/Solution.v
theories/GridUpd.v
theories/XGrid.v
theories/EikProps.v
theories/Examples.v
theories/Prop_Eikonal.v
theories/Frame.v
theories/Prop_Frame.v
theories/HeapLaws.v
theories/FMMStruct.v
theories/FMMReach.v
theories/FMMPrefix.v
theories/FMMAbs.v
theories/FMMX.v
theories/Prop_FMM.v
theories/SweepOrder.v
theories/Relax.v
theories/NumWf.v
theories/Term.v
theories/SweepX.v
theories/Prop_Sweep.v
theories/Exact.v
theories/Evolve.v
theories/Bound.v
theories/Prop_Bound.v
theories/FIMX.v
theories/Prop_FIM.v
theories/GMMX.v
theories/Prop_GMM.v
theories/UntidySpec.v
theories/Untidy.v
theories/Prop_Untidy.v
theories/Prop_Heap.v
theories/SolverModel.v
theories/Lifecycle.v
theories/NoGoal.v
theories/Prop_Solver.v
theories/Prop_Star.v
theories/Prop_Life.v
theories/TextModel.v
theories/TextSpec.v
theories/TextFacts.v
theories/Prop_Text.v
theories/IOModel.v
theories/IOFacts.v
theories/Prop_IO.v
theories/BenchModel.v
theories/Prop_Bench.v
theories/FM2Model.v
theories/GDModel.v
theories/FM2Facts.v
theories/Prop_FM2.v
theories/DescentSpec.v
theories/GDFacts.v
theories/Prop_GD.v
theories/Prop_FM2Obj.v
theories/Prop_FM2Again.v
theories/Prop_PathIO.v
theories/Prop_Clear.v
theories/UFMMStruct.v
theories/UntidyX.v
theories/UFMMX.v
theories/Prop_UFMM.v
theories/BagHeap.v
theories/SFMMStruct.v
theories/Prop_SFMM.v
theories/DaryModel.v
theories/DaryHeap.v
theories/Prop_Dary.v
theories/Level.v
theories/FIMTerm.v
theories/Prop_FIMTerm.v
theories/PlotModel.v
theories/Prop_Plot.v
theories/FibModel.v
theories/FibHeap.v
theories/Prop_Fib.v
theories/FloatOps.v
theories/FloatEik.v
theories/FloatErr.v
theories/FloatUpd.v
theories/FloatAbs.v
theories/FloatGrid.v
theories/FloatSweep.v
theories/FloatFMM.v
theories/Prop_Float.v
theories/StarX.v
theories/Prop_FM2Star.v
theories/FloatEv.v
theories/Prop_FloatAll.v
theories/Safe.v
theories/Prop_History.v
theories/Prop_Threshold.v
theories/Prop_FM2Float.v
theories/HandleModel.v
theories/Prop_Handles.v
theories/Prop_Calls.v
theories/Prop_Repeat.v
theories/Prop_Continue.v
theories/Prop_Sign.v
theories/Prop_CallsFMM.v
theories/Prop_FIMLoop.v
theories/UntidyL.v
theories/UFMML.v
theories/Prop_UFMMSlow.v
theories/ScriptModel.v
theories/ScriptFacts.v
theories/Prop_Scripts.v
theories/Prop_ScriptPath.v
theories/Prop_ScriptLog.v
theories/CfgModel.v
theories/Prop_Cfg.v
theories/Prop_CfgRun.v
theories/Prop_Cases.v
theories/ExampleModel.v
theories/Prop_Example.v
theories/ExactMore.v
theories/Prop_Travel.v
theories/ExactLocal.v
theories/Prop_Local.v
theories/ExactPlace.v
theories/Prop_Place.v
theories/Prop_Points.v
theories/Prop_Adjacent.v
theories/Prop_RepeatUFMM.v
theories/Prop_TestFM2.v
theories/Prop_BenchLSM.v
