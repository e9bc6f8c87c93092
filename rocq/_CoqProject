-Q theories Verif
theories/Base.v
theories/Num.v
theories/Particles.v
theories/Jacobian.v
theories/Ftle.v
theories/Integrate.v
theories/SpecFtle.v
theories/FtleFacts2.v
theories/FtleFacts3.v
theories/FtleFloat.v
theories/FtleInexact.v
theories/PropInexact.v
theories/PropFtle.v
theories/SpecSeeds.v
theories/ParticleFacts.v
theories/JacobianFacts.v
theories/SpecIntegrate.v
theories/IntegrateFacts.v
theories/IntegratePoint.v
theories/IntegrateGeom.v
theories/IntegrateReal.v
theories/IntegrateMisc.v
theories/PropParticles.v
theories/PropIntegrate.v
theories/SpecOrder.v
theories/OrderFacts.v
theories/OrderAB2.v
theories/OrderRK4.v
theories/OrderTaylor.v
theories/OrderSmooth.v
theories/OrderLinear.v
theories/OrderMain.v
theories/PropOrder.v
theories/NdArray.v
theories/GridInterp.v
theories/Interpolate.v
theories/NdFacts.v
theories/SpecGrid.v
theories/SpecKernel.v
theories/GridInterpFacts.v
theories/HighPerfFacts.v
theories/HighPerfReal.v
theories/GridPlace.v
theories/SpecInterp.v
theories/HighPerfHist.v
theories/ScipyFacts.v
theories/Faithful.v
theories/StructFacts.v
theories/StructMain.v
theories/InterpMain.v
theories/PropInterpolate.v
theories/Text.v
theories/SpecFiles.v
theories/Readers.v
theories/DataSource.v
theories/Solver.v
theories/Batches.v
theories/ReaderFacts.v
theories/PropReaders.v
theories/SpecSolver.v
theories/SolverFacts.v
theories/SolverField.v
theories/SolverLinear.v
theories/SolverRerun.v
theories/SolverMain.v
theories/SolverCases.v
theories/FileRun.v
theories/FileRunFacts.v
theories/SolverWitness.v
theories/FileRunCases.v
theories/PropSolver.v
theories/SpecConverge.v
theories/ConvergeFacts.v
theories/ConvergeMain.v
theories/ConvergeCases.v
theories/PropConverge.v
theories/PropFileRun.v
theories/SpecPaths.v
theories/SpecFloat64.v
theories/BatchFacts.v
theories/TextFacts.v
theories/SolverSim.v
theories/AnalyticalRun.v
theories/SpecAnalytical.v
theories/AnalyticalFacts.v
theories/Writers.v
theories/PathFacts.v
theories/BatchFloat.v
theories/FloatArith.v
theories/SpecAccuracy.v
theories/FtleAccuracy.v
theories/FtleAccuracyMain.v
theories/PropAccuracy.v
theories/BatchCases.v
theories/PropBatches.v
theories/SpecWriters.v
theories/WriterFacts.v
theories/VtkFacts.v
theories/WriterMain.v
theories/WriterCases.v
theories/PropWriters.v
theories/Monitor.v
theories/Executor.v
theories/SpecExecutor.v
theories/ManagerRun.v
theories/ExecutorFacts.v
theories/ExecutorMain.v
theories/MonitorFacts.v
theories/ExecutorWatch.v
theories/ExecutorExit.v
theories/Schedule.v
theories/ExecutorCases.v
theories/ExecutorProps.v
theories/ExecutorRuns.v
theories/PropExecutor.v
theories/FileUtils.v
theories/SpecText.v
theories/FileUtilsFacts.v
theories/SearchFacts.v
theories/PropFileUtils.v
theories/Hyper.v
theories/SpecConfig.v
theories/HyperFacts.v
theories/Decorators.v
theories/Manager.v
theories/ManagerFacts.v
theories/PropConfig.v
theories/Jobs.v
theories/JobFacts.v
theories/FieldLength.v
theories/SpecProgram.v
theories/ApiFacts.v
theories/Program.v
theories/ProgramFacts.v
theories/ProgramCases.v
theories/AnalyticalDisk.v
theories/ApiCases.v
theories/PropApi.v
theories/PropProgram.v
theories/SpecNumbered.v
theories/NumberedFacts.v
theories/PropNumbered.v
theories/SpecLimit.v
theories/LimitMain.v
theories/PropLimit.v
theories/FloatGrid.v
theories/SpecFloatGrid.v
theories/FloatKernel.v
theories/FloatAxis.v
theories/FloatPlace.v
theories/FloatPlaceCases.v
theories/FloatGridMain.v
theories/PropFloatGrid.v
theories/SpecFloatJac.v
theories/FloatJac.v
theories/PropFloatJac.v
theories/SpecRounding.v
theories/FloatVec.v
theories/FloatSteps.v
theories/FloatPath.v
theories/FloatRuns.v
theories/PropRounding.v
theories/SpecFloatRun.v
theories/FloatFtleRun.v
theories/FloatFtleCases.v
theories/PropFloatRun.v
theories/SpecEigen.v
theories/FloatEigen.v
theories/SpecFloatRun3.v
theories/FloatFtleRun3.v
theories/FloatEigenCases.v
theories/PropFloatRun3.v
theories/SpecGridRun.v
theories/IntegrateWithin.v
theories/FloatRegion.v
theories/GridRunField.v
theories/GridRunFiles.v
theories/GridRunMain.v
theories/GridRunCases.v
theories/PropGridRun.v
theories/SpecGridProgram.v
theories/GridProgramMain.v
theories/GridProgramCases.v
theories/PropGridProgram.v
theories/SpecAnalyticalProgram.v
theories/AnalyticalProgramMain.v
theories/AnalyticalProgramCases.v
theories/PropAnalyticalProgram.v
theories/SpecGridRun3.v
theories/GridRunField3.v
theories/GridRunFiles3.v
theories/GridRunMain3.v
theories/GridRunCases3.v
theories/PropGridRun3.v
theories/SpecGridProgram3.v
theories/GridProgramMain3.v
theories/GridProgramCases3.v
theories/PropGridProgram3.v
theories/SpecScatter.v
theories/RegionRun.v
theories/ScatterMain.v
theories/ScatterData.v
theories/ScatterCases.v
theories/PropScatter.v
theories/SpecScatterProgram.v
theories/WindowRun.v
theories/ScatterProgramMain.v
theories/ScatterProgramCases.v
theories/PropScatterProgram.v
theories/MemRun.v
theories/MemInterp.v
theories/SpecMem.v
theories/MemMain.v
theories/MemApi.v
theories/MemCases.v
theories/PropMem.v
theories/SpecCommand.v
theories/CommandFacts.v
theories/CommandCases.v
theories/PropCommand.v
theories/SpecBox.v
theories/BoxFacts.v
theories/BoxMain.v
theories/PropBox.v
theories/FtleSign.v
theories/SpecReverse.v
theories/FloatReverse.v
theories/PropReverse.v
theories/RerunAny.v
theories/HistoryCases.v
theories/PropHistory.v
theories/SpecPlace.v
theories/PlaceFacts.v
theories/ReaderFacts2.v
theories/SpecUnits.v
theories/UnitsFacts.v
theories/PropUnits.v
theories/SpecGrow.v
theories/GrowFacts.v
theories/GrowCases.v
theories/PropGrow.v
theories/Notebook.v
theories/SpecNotebook.v
theories/NotebookFacts.v
theories/NotebookMain.v
theories/NotebookCases.v
theories/PropNotebook.v
theories/SpecRepeat.v
theories/RepeatFacts.v
theories/RepeatCases.v
theories/PropRepeat.v
theories/SpecAxes.v
theories/AxesFacts.v
theories/AxesCases.v
theories/PropAxes.v
theories/SpecFrame.v
theories/FrameFacts.v
theories/FrameMain.v
theories/PropFrame.v
theories/NotebookFiles.v
theories/NotebookFilesFacts.v
theories/PropNotebookFiles.v
theories/SpecCount.v
theories/CountFacts.v
theories/CountCases.v
theories/PropCount.v
theories/SpecTimescale.v
theories/TimescaleFacts.v
theories/ReverseFacts.v
theories/ReverseCases.v
theories/PropReverseRun.v
theories/ExecutorMap.v
theories/UnitsProgram.v
theories/UnitsCases.v
theories/PropUnitsProgram.v
theories/SpecParts.v
theories/PartsFacts.v
theories/PartsCases.v
theories/PropParts.v
theories/ConfigFile.v
theories/SpecConfigFile.v
theories/ConfigFileFacts.v
theories/ConfigFileCases.v
theories/PropConfigFile.v
theories/SpecStrain.v
theories/StrainFacts.v
theories/StrainLower.v
theories/StrainCases.v
theories/PropStrain.v
theories/SpecRotation.v
theories/RotationFacts.v
theories/RotationCases.v
theories/Args.v
theories/SpecArgs.v
theories/ArgsFacts.v
theories/ArgsMain.v
theories/ArgsConfig.v
theories/PropArgs.v
theories/ShearFacts.v
theories/PropShear.v
theories/StretchFacts.v
theories/StretchAB2.v
theories/StretchFacts3.v
theories/StretchAB23.v
theories/PropStretch.v
theories/SpecNotebookRun.v
theories/NotebookRun.v
theories/PropNotebookRun.v
theories/SaddleFacts.v
theories/SpiralFacts.v
theories/SpiralBound.v
theories/VolumeFacts.v
theories/SpinFacts3.v
theories/SpinEuler3.v
theories/SpinAB2.v
theories/PropRotation.v
