-Q theories Verif
theories/Base.v
theories/ListLib.v
theories/BaseLib.v
theories/Strings.v
theories/TextModel.v
theories/TextSpec.v
theories/TextProofs.v
theories/TextProps.v
theories/IterModel.v
theories/IterSpec.v
theories/IterProofs.v
theories/ShuffleProofs.v
theories/BatchProofs.v
theories/IterWitness.v
theories/IterProps.v
theories/Dict.v
theories/QcLib.v
theories/VocabModel.v
theories/VocabSpec.v
theories/VocabProofs.v
theories/VocabBuild.v
theories/VocabStats.v
theories/CorpusProofs.v
theories/VocabProps.v
theories/ScoreModel.v
theories/ScoreSpec.v
theories/SubwordProofs.v
theories/MatrixProofs.v
theories/ScoreProofs.v
theories/ScoreText.v
theories/ScoreProps.v
theories/LatticeModel.v
theories/SlfModel.v
theories/KaldiModel.v
theories/LatticeSpec.v
theories/SortProofs.v
theories/JobProofs.v
theories/GraphProofs.v
theories/SlfProofs.v
theories/KaldiProofs.v
theories/LatticeExamples.v
theories/LatticeProps.v
theories/DecoderModel.v
theories/DecoderSpec.v
theories/DecoderProofs.v
theories/PruneProofs.v
theories/DecodeProofs.v
theories/DecodeTotal.v
theories/DecoderExamples.v
theories/DecoderProps.v
theories/RescoredModel.v
theories/RescoredSpec.v
theories/FollowProofs.v
theories/RescoredProofs.v
theories/RescoredProps.v
theories/TrainerModel.v
theories/TrainerSpec.v
theories/TrainerProofs.v
theories/TrainerRuns.v
theories/TrainerStops.v
theories/TrainerSegments.v
theories/TrainerResume.v
theories/TrainerProps.v
theories/TrainerSim.v
theories/TrainDataModel.v
theories/TrainDataSpec.v
theories/TrainDataProofs.v
theories/TrainDataRuns.v
theories/TrainDataUse.v
theories/TrainDataProps.v
theories/ParamModel.v
theories/ParamSpec.v
theories/ParamProofs.v
theories/ParamProps.v
theories/OptimizerModel.v
theories/OptimizerSpec.v
theories/OptimizerProofs.v
theories/OptimizerRules.v
theories/OptimizerRuns.v
theories/OptimizerProps.v
theories/CostModel.v
theories/CostSpec.v
theories/CostProofs.v
theories/CostProps.v
theories/NoiseProps.v
theories/BigramModel.v
theories/BigramSpec.v
theories/BigramProofs.v
theories/BigramGain.v
theories/BigramRuns.v
theories/BigramStats.v
theories/BigramProps.v
theories/SlfSpec.v
theories/SlfContents.v
theories/KaldiSpec.v
theories/KaldiContents.v
theories/FormatProps.v
theories/NumStr.v
theories/NetModel.v
theories/NetSpec.v
theories/NetColumns.v
theories/NetTime.v
theories/NetSteps.v
theories/NetVisible.v
theories/NetShape.v
theories/NetReal.v
theories/NetExamples.v
theories/NetProps.v
theories/DeviceModel.v
theories/DeviceSpec.v
theories/DeviceProofs.v
theories/DeviceNet.v
theories/DeviceProps.v
theories/OutputModel.v
theories/OutputSpec.v
theories/OutputProofs.v
theories/OutputProps.v
theories/NetStepCols.v
theories/StateModel.v
theories/StateSpec.v
theories/StateProofs.v
theories/StateProps.v
theories/ArchModel.v
theories/ArchSpec.v
theories/ArchProofs.v
theories/ArchRead.v
theories/ArchProps.v
theories/SamplerModel.v
theories/SamplerSpec.v
theories/SamplerProofs.v
theories/SamplerProps.v
theories/AgreeSpec.v
theories/AgreeProofs.v
theories/AgreeProps.v
theories/BuildModel.v
theories/BuildSpec.v
theories/BuildShape.v
theories/BuildLayers.v
theories/BuildNet.v
theories/BuildProofs.v
theories/BuildParams.v
theories/BuildProps.v
theories/LinkModel.v
theories/LinkSpec.v
theories/LinkProofs.v
theories/LinkProps.v
theories/EquationSpec.v
theories/EquationTab.v
theories/EquationLayers.v
theories/EquationNet.v
theories/DescribedSpec.v
theories/EquationProps.v
theories/SavedModel.v
theories/SavedSpec.v
theories/SavedArrays.v
theories/SavedBuild.v
theories/SavedNetwork.v
theories/SavedProofs.v
theories/SavedProps.v
theories/SamplingModel.v
theories/SamplingSpec.v
theories/SamplingNet.v
theories/SamplingProofs.v
theories/SamplingProps.v
theories/SamplingExamples.v
theories/AcceptSpec.v
theories/AcceptParams.v
theories/AcceptProofs.v
theories/AcceptProps.v
theories/RescoredGraph.v
theories/CommandModel.v
theories/CommandSpec.v
theories/CommandProofs.v
theories/CommandProps.v
theories/TrainCommandModel.v
theories/TrainCommandSpec.v
theories/TrainCommandProofs.v
theories/TrainCommandVocab.v
theories/TrainCommandRuns.v
theories/TrainCommandProps.v
theories/TrainCommandCasesProps.v
theories/RealiseProofs.v
theories/ValidationModel.v
theories/ValidationSpec.v
theories/ValidationProofs.v
theories/ValidationProps.v
theories/ValidationCommandProps.v
theories/ValidationCasesProps.v
theories/CrashModel.v
theories/CrashSpec.v
theories/CrashArrays.v
theories/CrashTrainer.v
theories/CrashProofs.v
theories/CrashRuns.v
theories/CrashProps.v
theories/CrashCasesProps.v
theories/WctoolModel.v
theories/WctoolSpec.v
theories/WctoolProofs.v
theories/WctoolSetup.v
theories/WctoolRead.v
theories/WctoolProps.v
theories/SampleScoreSpec.v
theories/SampleScoreProofs.v
theories/SampleScoreProps.v
theories/ModelFileProofs.v
theories/ModelFileProps.v
theories/ModelFileCasesProps.v
theories/InterpModel.v
theories/InterpSpec.v
theories/InterpProofs.v
theories/InterpProps.v
theories/ReverseProps.v
theories/ReportModel.v
theories/ReportSpec.v
theories/ReportProofs.v
theories/ReportProps.v
theories/TrainOptimizerModel.v
theories/TrainOptimizerSpec.v
theories/TrainOptimizerProofs.v
theories/TrainOptimizerRuns.v
theories/TrainOptimizerProps.v
theories/RecipeModel.v
theories/RecipeSpec.v
theories/RecipeProofs.v
theories/RecipeProps.v
