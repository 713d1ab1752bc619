-Q theories Verif
theories/Base.v
theories/Num.v
theories/Spec.v
theories/Kernels.v
theories/KernelFacts.v
theories/MultiKernels.v
theories/MultiFacts.v
theories/Prob.v
theories/Ensemble.v
theories/EnsembleFacts.v
theories/EnsembleProps.v
theories/EnsembleState.v
theories/Models.v
theories/ModelFacts.v
theories/StateFacts.v
theories/StateProps.v
theories/Solver.v
theories/SolverFacts.v
theories/SolverConcave.v
theories/SolverFinite.v
theories/SolverFlat.v
theories/Fit.v
theories/FitFacts.v
theories/FitModels.v
theories/FitLib.v
theories/Aggregate.v
theories/Lib.v
theories/LibFacts.v
theories/Random.v
theories/RandomFacts.v
theories/Ids.v
theories/IdFacts.v
theories/Graphs.v
theories/GraphFacts.v
theories/DenseGraphs.v
theories/DenseFacts.v
theories/GraphState.v
theories/GraphStateFacts.v
theories/Networkx.v
theories/Layers.v
theories/LayerFacts.v
theories/LayerProps.v
theories/LayerLib.v
theories/LayerFit.v
theories/PropKernels.v
theories/PropEnsemble.v
theories/PropSolver.v
theories/PropFit.v
theories/PropAggregate.v
theories/PropLib.v
theories/PropRandom.v
theories/PropTables.v
theories/PropGraph.v
theories/PropDense.v
theories/PropCache.v
theories/PropNetworkx.v
theories/PropLayers.v
theories/Conditional.v
theories/CondDist.v
theories/CondFacts.v
theories/CondModel.v
theories/CondMeasures.v
theories/CondPairs.v
theories/CondLik.v
theories/CondKernel.v
theories/CondProps.v
theories/CondFit.v
theories/PropConditional.v
theories/PropCondFit.v
theories/CondState.v
theories/PropCondState.v
theories/Spark.v
theories/SparkFacts.v
theories/SparkMeasures.v
theories/SparkConfusion.v
theories/SparkLib.v
theories/PropSpark.v
theories/SparkState.v
theories/SparkStateFacts.v
theories/PropSparkState.v
theories/Construct.v
theories/ConstructFacts.v
theories/PropConstruct.v
theories/MultiState.v
theories/MultiStateFacts.v
theories/MultiStateProps.v
theories/MultiLik.v
theories/PropMultiState.v
theories/MultiSample.v
theories/PropMultiSample.v
theories/Warnings.v
theories/PropWarnings.v
theories/Sampled.v
theories/PropSampled.v
theories/FitStart.v
theories/PropFitStart.v
theories/Frames.v
theories/PropFrames.v
theories/NnTable.v
theories/NnTableFacts.v
theories/PropNnTable.v
theories/PropLabelValues.v
theories/RndState.v
theories/PropRndState.v
theories/SparkMulti.v
theories/SparkMultiFacts.v
theories/PropSparkMulti.v
theories/FitState.v
theories/PropFitState.v
theories/SparkConstruct.v
theories/PropSparkConstruct.v
theories/Pipeline.v
theories/PropPipeline.v
theories/RandomPipeline.v
theories/MultiPipeline.v
theories/PropMultiPipeline.v
theories/PropLikelihood.v
theories/PropRandomPipeline.v
theories/PropMultiLikelihood.v
theories/GraphArgs.v
theories/PropGraphArgs.v
theories/Repeat.v
theories/PropSampleLik.v
theories/PropAverage.v
theories/CondObject.v
theories/PropCondObject.v
theories/CondPipeline.v
theories/PropCondPipeline.v
theories/RankFacts.v
theories/LibGraph.v
theories/PropRank.v
theories/FloatLib.v
theories/FloatRankFacts.v
theories/PropFloatRank.v
theories/Float.v
theories/FloatFacts.v
theories/PropFloat.v
theories/FloatSample.v
theories/PropFloatSample.v
theories/FloatSolver.v
theories/FloatSolverFacts.v
theories/PropFloatSolver.v
theories/FloatAccuracy.v
theories/PropFloatAccuracy.v
theories/PropFloatLik.v
theories/PropFloatDraws.v
theories/PropFloatLayerAccuracy.v
theories/FloatLayerFit.v
theories/PropFloatLayerFit.v
theories/PropFloatProjection.v
theories/FloatSharedFit.v
theories/PropFloatSharedFit.v
theories/FloatGraphs.v
theories/PropFloatGraphs.v
theories/PropFloatPipeline.v
theories/FloatGroups.v
theories/PropFloatGroups.v
theories/FloatMultiGraphs.v
theories/PropFloatMultiGraphs.v
theories/FloatRandom.v
theories/PropFloatRandom.v
theories/FloatMulti.v
theories/FloatMultiFacts.v
theories/PropFloatMulti.v
theories/FloatLayers.v
theories/PropFloatLayers.v
theories/FloatCond.v
theories/PropFloatCond.v
