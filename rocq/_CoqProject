-Q theories Verif
theories/Expr.v
theories/Segment.v
theories/SpecSegment.v
theories/ExprProofs.v
theories/SegmentProofs.v
theories/PropsSegment.v
theories/Builder.v
theories/SpecBuilder.v
theories/BuilderProofs.v
theories/PropsBuilder.v
theories/Residual.v
theories/SpecResidual.v
theories/ResidualProofs.v
theories/PropsResidual.v
theories/Pickler.v
theories/PicklerProofs.v
theories/PropsPickler.v
theories/Stamper.v
theories/SpecStamper.v
theories/StamperProofs.v
theories/Collect.v
theories/SpecSystem.v
theories/CollectProofs.v
theories/SystemProofs.v
theories/PropsStamper.v
theories/VLimit.v
theories/Solver.v
theories/SpecSolver.v
theories/SolverProofs.v
theories/NetSolverProofs.v
theories/SolverWitness.v
theories/PropsSolver.v
theories/SpecVLimit.v
theories/VLimitProofs.v
theories/PropsVLimit.v
theories/Homotopy.v
theories/SpecHomotopy.v
theories/HomotopyProofs.v
theories/PropsHomotopy.v
theories/Devices.v
theories/SpecDevices.v
theories/DevicesProofs.v
theories/DevicesWitness.v
theories/PropsDevices.v
theories/Components.v
theories/SpecComponents.v
theories/ComponentsProofs.v
theories/ElementProofs.v
theories/ComponentsWitness.v
theories/PropsComponents.v
theories/UnbalancedLine.v
theories/SpecUnbalanced.v
theories/UnbalancedBranch.v
theories/UnbalancedProofs.v
theories/UnbalancedWitness.v
theories/PropsUnbalanced.v
theories/SpecInfeasibility.v
theories/BilinearProofs.v
theories/InfeasibilityProofs.v
theories/InfeasibilityWitness.v
theories/PropsInfeasibility.v
theories/Network.v
theories/SpecNetwork.v
theories/NetworkProofs.v
theories/NetworkKinds.v
theories/NetworkAssign.v
theories/NetworkInit.v
theories/NetworkWitness.v
theories/PropsNetwork.v
theories/Graph.v
theories/SpecGraph.v
theories/GraphProofs.v
theories/GraphWitness.v
theories/PropsGraph.v
theories/Results.v
theories/SpecResults.v
theories/ResultsProofs.v
theories/RatingProofs.v
theories/ResultsWitness.v
theories/PropsResults.v
theories/Island.v
theories/SpecIsland.v
theories/IslandProofs.v
theories/IslandWitness.v
theories/PropsIsland.v
theories/TimeSeries.v
theories/SpecTimeSeries.v
theories/TimeSeriesProofs.v
theories/TimeSeriesRun.v
theories/TimeSeriesWitness.v
theories/PropsTimeSeries.v
theories/PyExc.v
theories/RawTransformers.v
theories/RawParser.v
theories/SpecRaw.v
theories/SpecRawXfmr.v
theories/RawBaseProofs.v
theories/RawTableProofs.v
theories/RawGenProofs.v
theories/RawProofs.v
theories/RawXfmrProofs.v
theories/RawConsProofs.v
theories/RawWitness.v
theories/PropsRaw.v
theories/ThreePhase.v
theories/SpecThreePhase.v
theories/SpecThreeElems.v
theories/ThreePhaseBase.v
theories/ThreePhaseBusProofs.v
theories/ThreePhaseElemProofs.v
theories/ThreePhaseXfmrProofs.v
theories/ThreePhaseInitProofs.v
theories/ThreePhaseFinal.v
theories/ThreeWitness.v
theories/PropsThreePhase.v
theories/GlmText.v
theories/SpecGlm.v
theories/GlmBase.v
theories/GlmRowProofs.v
theories/GlmProofs.v
theories/GlmFinal.v
theories/GlmWitness.v
theories/PropsGlm.v
theories/LineImpedance.v
theories/GlmReader.v
theories/SpecReader.v
theories/ReaderBase.v
theories/ReaderLoadProofs.v
theories/ReaderFrame.v
theories/ReaderStore.v
theories/ReaderFile.v
theories/ReaderWitness.v
theories/PropsReader.v
theories/SpecLineZ.v
theories/KronProofs.v
theories/CarsonProofs.v
theories/SpacingProofs.v
theories/LineZFinal.v
theories/TriplexProofs.v
theories/LineZWitness.v
theories/PropsLineZ.v
theories/ReaderFrame2.v
theories/ReaderVisit.v
theories/SpecReader2.v
theories/LineFile.v
theories/ReaderKeep.v
theories/ReaderWires.v
theories/ReaderTurns.v
theories/LineProofs.v
theories/OverheadFile.v
theories/ReaderBare.v
theories/LineFinal.v
theories/ReaderWitness2.v
theories/PropsReader2.v
theories/SpecReader3.v
theories/XfmrFile.v
theories/RegFile.v
theories/VnomFile.v
theories/UnitFinal.v
theories/ReaderWitness3.v
theories/PropsReader3.v
theories/SpecFile.v
theories/FileNet.v
theories/FileElems.v
theories/FileUnits.v
theories/FileBuses.v
theories/FileTap.v
theories/FileWitness.v
theories/FileWitness2.v
theories/PropsFile.v
theories/RawText.v
theories/SpecRawText.v
theories/RawKeyProofs.v
theories/RawFieldProofs.v
theories/RawCsvProofs.v
theories/RawRecordProofs.v
theories/RawRecordProofs2.v
theories/RawRecordProofs3.v
theories/RawRecordProofs4.v
theories/RawRecordProofs5.v
theories/RawLoopProofs.v
theories/RawBodyProofs.v
theories/RawCaseProofs.v
theories/RawFileProofs.v
theories/RawTextWitness.v
theories/RawTextWitness2.v
theories/PropsRawText.v
theories/Cables.v
theories/SpecCables.v
theories/ShuntProofs.v
theories/ChargeProofs.v
theories/RingProofs.v
theories/CableZProofs.v
theories/CableFinal.v
theories/CableWitness.v
theories/PropsCables.v
theories/CableKeep.v
theories/CableWires.v
theories/SpecCableFile.v
theories/CableTurns.v
theories/CableFile.v
theories/CableFileWitness.v
theories/PropsCableFile.v
theories/SpecChargeFile.v
theories/ChargeFile.v
theories/ChargeFileWitness.v
theories/PropsChargeFile.v
theories/Loader.v
theories/SpecLoader.v
theories/LoaderProofs.v
theories/LoaderNet.v
theories/LoaderWitness.v
theories/PropsLoader.v
theories/SpecKirchhoff.v
theories/KirchhoffProofs.v
theories/KirchhoffNet.v
theories/KirchhoffWitness.v
theories/PropsKirchhoff.v
theories/NetStamper.v
theories/SpecNetStamper.v
theories/NetStamperProofs.v
theories/NetStamperNet.v
theories/NetDefined.v
theories/NetRun.v
theories/NetStart.v
theories/NetStamperWitness.v
theories/PropsNetStamper.v
theories/PowerFlow.v
theories/SpecPowerFlow.v
theories/PowerFlowProofs.v
theories/PowerFlowGraph.v
theories/PowerFlowDevices.v
theories/PowerFlowRun.v
theories/PowerFlowWitness.v
theories/PropsPowerFlow.v
theories/SolverNet.v
theories/SpecSolverNet.v
theories/SolverNetProofs.v
theories/SolverRawProofs.v
theories/SolverNetFinal.v
theories/SolverNetWitness.v
theories/PropsSolverNet.v
theories/NetTwin.v
theories/SpecNetInfeas.v
theories/NetInfeasProofs.v
theories/NetInfeasFinal.v
theories/NetInfeasRun.v
theories/NetInfeasWitness.v
theories/NetInfeasRunWitness.v
theories/PropsNetInfeas.v
theories/SpecNetLeast.v
theories/NetLeastProofs.v
theories/NetLeastFinal.v
theories/NetLeastWitness.v
theories/NetLeastStuck.v
theories/PropsNetLeast.v
theories/SpecSchedule.v
theories/ScheduleProofs.v
theories/ScheduleFinal.v
theories/ScheduleWitness.v
theories/PropsSchedule.v
theories/SpecNewton.v
theories/NewtonGauss.v
theories/NewtonProofs.v
theories/NewtonFinal.v
theories/NewtonWitness.v
theories/PropsNewton.v
theories/Command.v
theories/SpecCommand.v
theories/CommandProofs.v
theories/CommandFinal.v
theories/CommandWitness.v
theories/PropsCommand.v
theories/SpecBalance.v
theories/BalanceProofs.v
theories/BalanceFinal.v
theories/BalanceWitness.v
theories/PropsBalance.v
theories/SpecRefused.v
theories/RefusedProofs.v
theories/PropsRefused.v
theories/Output.v
theories/SpecOutput.v
theories/OutputProofs.v
theories/OutputWitness.v
theories/PropsOutput.v
theories/Report.v
theories/SpecReport.v
theories/ReportProofs.v
theories/ReportFinal.v
theories/ReportWitness.v
theories/PropsReport.v
theories/SpecColumn.v
theories/ColumnProofs.v
theories/ColumnFinal.v
theories/ColumnFile.v
theories/ColumnWitness.v
theories/PropsColumn.v
theories/SpecParts.v
theories/PartsProofs.v
theories/PartsFinal.v
theories/PartsFile.v
theories/PartsWitness.v
theories/PropsParts.v
theories/SpecRun.v
theories/RunFinal.v
theories/RunWitness.v
theories/RunLinear.v
theories/PropsRun.v
theories/SpecTwo.v
theories/TwoProofs.v
theories/TwoFile.v
theories/PropsTwo.v
theories/SpecLevel.v
theories/LevelProofs.v
theories/LevelWitness.v
theories/PropsLevel.v
theories/SpecOptions.v
theories/OptionsProofs.v
theories/OptionsWitness.v
theories/PropsOptions.v
theories/IslandNet.v
theories/SpecIslandNet.v
theories/IslandNetProofs.v
theories/IslandNetWitness.v
theories/PropsIslandNet.v
theories/SpecRows.v
theories/RowsProofs.v
theories/RowsWitness.v
theories/PropsRows.v
