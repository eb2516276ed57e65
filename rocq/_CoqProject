-Q theories Verif
theories/Base.v
theories/UtilsModel.v
theories/BaseLemmas.v
theories/UtilsSpec.v
theories/UtilsProofs.v
theories/CsvProofs.v
theories/UtilsProps.v
theories/KsgModel.v
theories/KsgSpec.v
theories/KsgProofs.v
theories/KsgFitProofs.v
theories/KsgThms.v
theories/KsgFormula.v
theories/KsgHistory.v
theories/KsgProps.v
theories/HistogramModel.v
theories/HistogramSpec.v
theories/PluginProofs.v
theories/HistogramProofs.v
theories/HistogramThms.v
theories/HistogramProps.v
theories/ObjectivesModel.v
theories/ObjectivesSpec.v
theories/ObjectivesProofs.v
theories/ObjectivesProps.v
theories/SimpleEstimatorsModel.v
theories/SimpleEstimatorsSpec.v
theories/SimpleEstimatorsProofs.v
theories/SimpleEstimatorsProps.v
theories/TrainingLogModel.v
theories/JaxModel.v
theories/TrainingModel.v
theories/TrainingSpec.v
theories/TrainingLogProofs.v
theories/TrainingProofs.v
theories/TrainingThms.v
theories/MineThms.v
theories/TrainingExamples.v
theories/TrainingProps.v
theories/AnalysisLemmas.v
theories/SamplersModel.v
theories/SamplersSpec.v
theories/AdditiveUniformProofs.v
theories/MixtureProofs.v
theories/LogBounds.v
theories/ZipProofs.v
theories/ZipRefutation.v
theories/SamplersProofs.v
theories/SamplersThms.v
theories/SamplersExamples.v
theories/SamplersProps.v
theories/RStruct.v
theories/PosDef.v
theories/GaussianModel.v
theories/MatrixBridge.v
theories/GaussianSpec.v
theories/GaussianProofs.v
theories/ExpectationProofs.v
theories/GaussianThms.v
theories/GaussianExamples.v
theories/GaussianProps.v
theories/MatrixUtilsModel.v
theories/MatrixUtilsSpec.v
theories/MatrixUtilsProofs.v
theories/LvmProofs.v
theories/LvmLabels.v
theories/MatrixUtilsThms.v
theories/MatrixUtilsExamples.v
theories/MatrixUtilsProps.v
theories/BmmModel.v
theories/BmmSpec.v
theories/BmmProofs.v
theories/BmmExamples.v
theories/BmmProps.v
theories/TransformsModel.v
theories/TransformsSpec.v
theories/InvertProofs.v
theories/SimpleTransformProofs.v
theories/ExpmProofs.v
theories/RotateProofs.v
theories/TransformsProps.v
theories/BenchmarkModel.v
theories/BenchmarkSpec.v
theories/BenchmarkProofs.v
theories/BenchmarkThms.v
theories/BenchmarkExamples.v
theories/BenchmarkProps.v
theories/TasksModel.v
theories/TasksSpec.v
theories/TasksProofs.v
theories/TasksThms.v
theories/TasksGaussian.v
theories/TasksBuild.v
theories/TasksExamples.v
theories/TasksProps.v
theories/ExternalModel.v
theories/ExternalSpec.v
theories/ExternalProofs.v
theories/ExternalThms.v
theories/ExternalExamples.v
theories/ExternalProps.v
theories/SubplotsModel.v
theories/SubplotsSpec.v
theories/SubplotsProofs.v
theories/SubplotsThms.v
theories/SubplotsProps.v
theories/HighMiModel.v
theories/HighMiSpec.v
theories/HighMiProofs.v
theories/HighMiThms.v
theories/HighMiProps.v
theories/HighMiGaussian.v
theories/HighMiExamples.v
theories/TablesModel.v
theories/TablesSpec.v
theories/TablesProofs.v
theories/TablesThms.v
theories/TablesExamples.v
theories/TablesProps.v
theories/FiguresModel.v
theories/FiguresSpec.v
theories/FiguresProofs.v
theories/FiguresThms.v
theories/FiguresScale.v
theories/FiguresExamples.v
theories/FiguresProps.v
theories/MultivariateModel.v
theories/MultivariateSpec.v
theories/MultivariateProofs.v
theories/MultivariateThms.v
theories/MultivariateExamples.v
theories/MultivariateProps.v
theories/GmmModel.v
theories/GmmSpec.v
theories/GmmProofs.v
theories/GmmMixSpec.v
theories/GmmThms.v
theories/GmmExamples.v
theories/GmmProps.v
theories/GmmMixProps.v
theories/GaussianEntropy.v
theories/MixturesModel.v
theories/EigvalsExist.v
theories/MixturesSpec.v
theories/MixturesProofs.v
theories/MixturesLvm.v
theories/MixturesThms.v
theories/MixturesMore.v
theories/MixturesExamples.v
theories/MixturesProps.v
theories/BasicSpec.v
theories/BasicGaussian.v
theories/BasicThms.v
theories/BasicExamples.v
theories/BasicProps.v
theories/ParametersModel.v
theories/ParametersThms.v
theories/ParametersProps.v
theories/RulesModel.v
theories/RulesSpec.v
theories/RulesProofs.v
theories/RulesThms.v
theories/RulesExamples.v
theories/RulesProps.v
theories/SparsityModel.v
theories/SparsitySpec.v
theories/SparsityGaussian.v
theories/SparsityThms.v
theories/SparsityExamples.v
theories/SparsityProps.v
theories/PaperModel.v
theories/PaperSpec.v
theories/PaperThms.v
theories/PaperExamples.v
theories/PaperProps.v
theories/CriticsModel.v
theories/CriticsSpec.v
theories/CriticsThms.v
theories/CriticsExamples.v
theories/CriticsProps.v
theories/ConfigModel.v
theories/ConfigSpec.v
theories/ConfigThms.v
theories/ConfigMixtures.v
theories/ConfigBuild.v
theories/ConfigLoad.v
theories/ConfigExamples.v
theories/ConfigProps.v
theories/GmmBenchModel.v
theories/BmmFigureModel.v
theories/GmmBenchSpec.v
theories/GmmBenchQuantiles.v
theories/GmmBenchRuns.v
theories/GmmBenchTable.v
theories/BmmFigureThms.v
theories/GmmBenchExamples.v
theories/GmmBenchProps.v
theories/BmmFigureExamples.v
theories/BmmFigureProps.v
theories/V2TableModel.v
theories/V2TableSpec.v
theories/V2TableThms.v
theories/V2TableExamples.v
theories/V2TableProps.v
theories/DiscreteModel.v
theories/DiscreteSpec.v
theories/DiscreteThms.v
theories/DiscreteFactor.v
theories/DiscreteExamples.v
theories/DiscreteProps.v
theories/OutliersModel.v
theories/OutliersSpec.v
theories/OutliersThms.v
theories/OutliersSignal.v
theories/OutliersFactor.v
theories/OutliersMade.v
theories/OutliersExamples.v
theories/OutliersProps.v
theories/OutliersTasksSpec.v
theories/OutliersTasks.v
theories/OutliersLoad.v
theories/OutliersTasksExamples.v
theories/OutliersTasksProps.v
theories/OutliersPlotModel.v
theories/OutliersPlotSpec.v
theories/OutliersPlotThms.v
theories/OutliersPlotTruth.v
theories/OutliersPlotExamples.v
theories/OutliersPlotProps.v
theories/IntegrationModel.v
theories/IntegrationSpec.v
theories/IntegrationPaths.v
theories/IntegrationRuns.v
theories/IntegrationFigure.v
theories/IntegrationTables.v
theories/IntegrationTruth.v
theories/IntegrationSetups.v
theories/IntegrationExamples.v
theories/IntegrationProps.v
theories/ChiModel.v
theories/ChiSpec.v
theories/ChiProofs.v
theories/ChiThms.v
theories/ChiPlot.v
theories/ChiExamples.v
theories/ChiProps.v
theories/VanishingModel.v
theories/VanishingSpec.v
theories/VanishingThms.v
theories/VanishingProps.v
theories/GammaSpec.v
theories/GammaProofs.v
theories/GammaExists.v
theories/CorrectionModel.v
theories/CorrectionThms.v
theories/CorrectionTasks.v
theories/CorrectionExamples.v
theories/CorrectionProps.v
theories/PlotMiModel.v
theories/PlotMiSpec.v
theories/PlotMiThms.v
theories/PlotMiTails.v
theories/PlotMiFigure.v
theories/PlotMiExamples.v
theories/PlotMiProps.v
theories/SparsityPath.v
theories/SparsityFigureModel.v
theories/SparsityFigureSpec.v
theories/SparsityFigureThms.v
theories/SparsityFigureExamples.v
theories/SparsityFigureProps.v
theories/HighMiFigureModel.v
theories/HighMiFigureSpec.v
theories/HighMiFigureThms.v
theories/HighMiFigureExamples.v
theories/HighMiFigureProps.v
theories/SpiralFigureModel.v
theories/SpiralFigureSpec.v
theories/SpiralGaussian.v
theories/SpiralFigureThms.v
theories/SpiralFigureExamples.v
theories/SpiralFigureProps.v
theories/ConceptModel.v
theories/ConceptSpec.v
theories/ConceptGaussian.v
theories/ConceptSpiral.v
theories/ConceptThms.v
theories/ConceptExamples.v
theories/ConceptProps.v
theories/PointwiseModel.v
theories/PointwiseSpec.v
theories/PointwiseThms.v
theories/PointwiseExamples.v
theories/PointwiseProps.v
theories/VisualTasksModel.v
theories/VisualTasksSpec.v
theories/VisualTasksThms.v
theories/VisualTasksExamples.v
theories/VisualTasksProps.v
theories/CoolTasksModel.v
theories/CoolTasksSpec.v
theories/CoolTasksThms.v
theories/CoolTasksExamples.v
theories/CoolTasksProps.v
theories/TimingModel.v
theories/TimingSpec.v
theories/TimingThms.v
theories/TimingExamples.v
theories/TimingProps.v
