-Q theories Verif

theories/Model/Py.v
theories/Model/Space.v
theories/Proof/Num.v
theories/Spec/SpaceSpec.v
theories/Spec/QuerySpec.v
theories/Proof/SpaceP.v
theories/Proof/RoundP.v
theories/Proof/ConstructP.v
theories/Proof/Dec.v
theories/Spec/Examples.v
theories/Proof/SpaceMain.v
theories/Props/PSpace.v
theories/Model/Design.v
theories/Spec/DesignSpec.v
theories/Proof/IrootP.v
theories/Proof/DesignP.v
theories/Proof/QueryP.v
theories/Props/PQuery.v
theories/Proof/DesignMain.v
theories/Props/PDesign.v
theories/Model/Optim.v
theories/Spec/ContextSpec.v
theories/Proof/ContextP.v
theories/Proof/ContextMain.v
theories/Spec/SuggestSpec.v
theories/Proof/AnchorP.v
theories/Proof/SuggestP.v
theories/Proof/SuggestMain.v
theories/Proof/ScoreP.v
theories/Proof/ConstraintMain.v
theories/Proof/SuggestEx.v
theories/Props/PContext.v
theories/Props/PSuggest.v
theories/Model/Objective.v
theories/Model/BO.v
theories/Spec/BOSpec.v
theories/Spec/BOExamples.v
theories/Proof/BOP.v
theories/Proof/BOLoop.v
theories/Proof/BOMain.v
theories/Proof/BOMain2.v
theories/Proof/BOExtra.v
theories/Model/Parallel.v
theories/Proof/ParP.v
theories/Props/PLoop.v
theories/Proof/ParMain.v
theories/Props/PParallel.v
theories/Spec/RSpec.v
theories/Model/AcqR.v
theories/Spec/AcqSpec.v
theories/Proof/Gauss.v
theories/Proof/GaussP.v
theories/Proof/AcqP.v
theories/Proof/AcqG.v
theories/Proof/AcqM.v
theories/Proof/LPP.v
theories/Proof/LPRank.v
theories/Proof/TightP.v
theories/Model/Util.v
theories/Spec/UtilSpec.v
theories/Proof/UtilP.v
theories/Props/PUtil.v
theories/Proof/AcqEx.v
theories/Props/PAcq.v
theories/Model/ES.v
theories/Proof/ESP.v
theories/Spec/ESSpec.v
theories/Proof/ESP2.v
theories/Spec/ESExamples.v
theories/Proof/ESEx.v
theories/Proof/ESMarg.v
theories/Proof/ESCov.v
theories/Proof/ESTwo.v
theories/Proof/ESTwoEx.v
theories/Props/PES.v
theories/Model/Call.v
theories/Model/Models.v
theories/Spec/ModelSpec.v
theories/Proof/ModelP.v
theories/Spec/CovSpec.v
theories/Proof/ModelLoop.v
theories/Proof/CovP.v
theories/Props/PModels.v
theories/Model/Config.v
theories/Model/Output.v
theories/Model/Options.v
theories/Spec/ConfigSpec.v
theories/Spec/DriverSpec.v
theories/Spec/OutputsSpec.v
theories/Proof/ConfigP.v
theories/Proof/DriverP.v
theories/Proof/OutputsP.v
theories/Spec/OutputSpec.v
theories/Proof/OutputP.v
theories/Spec/OptionsSpec.v
theories/Proof/OptionsP.v
theories/Props/PInterface.v
theories/Model/Bench.v
theories/Spec/BenchSpec.v
theories/Proof/BenchP.v
theories/Proof/BenchP2.v
theories/Proof/EggP.v
theories/Proof/BenchP3.v
theories/Props/PBench.v
theories/Model/Report.v
theories/Spec/ReportSpec.v
theories/Proof/ReportP.v
theories/Model/Masked.v
theories/Spec/MaskSpec.v
theories/Proof/MaskP.v
theories/Props/PMask.v
theories/Props/PReport.v
theories/Model/Pipeline.v
theories/Spec/PipelineSpec.v
theories/Proof/PipelineP.v
theories/Proof/PipelineP2.v
theories/Props/PPipeline.v
theories/Model/Ieee.v
theories/Model/Constraints.v
theories/Spec/IeeeSpec.v
theories/Proof/IeeeP.v
theories/Proof/IeeeNorm.v
theories/Props/PIeee.v
theories/Model/Solver.v
theories/Spec/SolverSpec.v
theories/Proof/SolverP.v
theories/Model/ESearch.v
theories/Model/Session.v
theories/Model/Helpers.v
theories/Model/Float.v
theories/Spec/ESearchSpec.v
theories/Spec/SessionSpec.v
theories/Spec/HelperSpec.v
theories/Spec/FloatSpec.v
theories/Proof/ESearchP.v
theories/Proof/SessionP.v
theories/Proof/HelperP.v
theories/Proof/FloatP.v
theories/Props/PSolver.v
theories/Props/PSession.v
theories/Props/PHelpers.v
theories/Props/PFloat.v
theories/Model/Alias.v
theories/Spec/AliasSpec.v
theories/Proof/AliasP.v
theories/Props/PAlias.v
theories/Model/Plot.v
theories/Spec/PlotSpec.v
theories/Proof/PlotP.v
theories/Props/PPlot.v
theories/Model/FromConfig.v
theories/Model/Driver.v
theories/Model/Outputs.v
theories/Spec/FromConfigSpec.v
theories/Proof/FromConfigP.v
theories/Props/PFromConfig.v
theories/Model/Toolbox.v
theories/Proof/ToolboxP.v
theories/Props/PToolbox.v
theories/Model/Files.v
theories/Proof/FilesP.v
theories/Props/PFiles.v
theories/Proof/ExhaustP.v
theories/Props/PExhaust.v
theories/Props/PDriver.v
theories/Props/POutputs.v
theories/Props/PSampler.v
theories/Props/PAnswers.v
theories/Props/PConstraints.v
theories/Props/PFloatStop.v
theories/Props/PNoise.v
theories/Props/PSurrogates.v
theories/Props/PArrays.v
theories/Props/PValues.v
theories/Props/PBenchPlot.v
theories/Props/PFloatDup.v
theories/Props/PFloatRow.v
theories/Props/PFloatCons.v
theories/Props/PRecord.v
theories/Props/PHeader.v
theories/Props/PFloatCost.v
theories/Props/PFloatAcq.v
theories/Props/PFloatAnchor.v
theories/Props/PFloatAcc.v
theories/Props/PFloatLP.v
theories/Props/PFullBatch.v
theories/Props/PFloatNorm.v
theories/Props/PFloatBandit.v
theories/Props/PEps.v
theories/Props/PFloatPipe.v
theories/Props/PMaximize.v
theories/Props/PFloatReport.v
theories/Props/PFloatRun.v
theories/Props/PFloatMcmc.v
theories/Props/PShared.v
theories/Props/PFloatReject.v
theories/Props/PFloatMask.v
theories/Props/PReentrant.v
theories/Props/PClose.v
theories/Model/Sampler.v
theories/Model/Answers.v
theories/Model/FloatStop.v
theories/Model/Noise.v
theories/Model/Surrogates.v
theories/Model/Arrays.v
theories/Model/Values.v
theories/Model/BenchPlot.v
theories/Model/FloatDup.v
theories/Model/FloatRow.v
theories/Model/FloatCons.v
theories/Model/Record.v
theories/Model/Header.v
theories/Model/FloatCost.v
theories/Model/FloatAcq.v
theories/Model/FloatAnchor.v
theories/Model/FloatLP.v
theories/Model/FloatNorm.v
theories/Model/FloatBandit.v
theories/Model/FloatPipe.v
theories/Model/FloatReport.v
theories/Model/FloatRun.v
theories/Model/FloatMcmc.v
theories/Model/Shared.v
theories/Model/FloatReject.v
theories/Model/FloatMask.v
theories/Model/Reentrant.v
theories/Model/Close.v
theories/Spec/SamplerSpec.v
theories/Spec/AnswersSpec.v
theories/Spec/ConstraintsSpec.v
theories/Spec/FloatStopSpec.v
theories/Spec/FilesSpec.v
theories/Spec/NoiseSpec.v
theories/Spec/SurrogatesSpec.v
theories/Spec/ArraysSpec.v
theories/Spec/ValuesSpec.v
theories/Spec/BenchPlotSpec.v
theories/Spec/FloatDupSpec.v
theories/Spec/FloatRowSpec.v
theories/Spec/FloatConsSpec.v
theories/Spec/RecordSpec.v
theories/Spec/HeaderSpec.v
theories/Spec/FloatCostSpec.v
theories/Spec/FloatAcqSpec.v
theories/Spec/FloatAnchorSpec.v
theories/Spec/FloatAccSpec.v
theories/Spec/FloatLPSpec.v
theories/Spec/FloatNormSpec.v
theories/Spec/FloatBanditSpec.v
theories/Spec/EpsSpec.v
theories/Spec/FloatPipeSpec.v
theories/Spec/MaximizeSpec.v
theories/Spec/FloatReportSpec.v
theories/Spec/FloatRunSpec.v
theories/Spec/FloatMcmcSpec.v
theories/Spec/SharedSpec.v
theories/Spec/FloatRejectSpec.v
theories/Spec/FloatMaskSpec.v
theories/Spec/ReentrantSpec.v
theories/Spec/CloseSpec.v
theories/Proof/SamplerP.v
theories/Proof/AnswersP.v
theories/Proof/ConstraintsP.v
theories/Proof/FloatStopP.v
theories/Proof/NoiseP.v
theories/Proof/SurrogatesP.v
theories/Proof/ArraysP.v
theories/Proof/ValuesP.v
theories/Proof/BenchPlotP.v
theories/Proof/FloatDupP.v
theories/Proof/FloatRowP.v
theories/Proof/FloatConsP.v
theories/Proof/RecordP.v
theories/Proof/HeaderP.v
theories/Proof/FloatCostP.v
theories/Proof/FloatAcqP.v
theories/Proof/FloatAnchorP.v
theories/Proof/FloatAccA.v
theories/Proof/FloatAccP.v
theories/Proof/FloatLPP.v
theories/Proof/FullBatchP.v
theories/Proof/FloatNormP.v
theories/Proof/FloatBanditP.v
theories/Proof/EpsP.v
theories/Proof/FloatPipeP.v
theories/Proof/FloatReportP.v
theories/Proof/FloatMcmcP.v
theories/Proof/SharedP.v
theories/Proof/FloatRejectP.v
theories/Proof/FloatMaskP.v
theories/Proof/ReentrantP.v
theories/Proof/ReentrantQ.v
theories/Proof/ReentrantR.v
theories/Proof/CloseP.v
theories/Proof/CloseQ.v
theories/Proof/CloseR.v
theories/Proof/CloseS.v
