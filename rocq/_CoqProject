-Q theories Verif
theories/Prelude.v
theories/ListFacts.v
theories/FloatModel.v
theories/FloatProofs.v
theories/SamplingSpec.v
theories/SamplingModel.v
theories/SamplingProofs.v
theories/SamplingWitness.v
theories/KFoldProofs.v
theories/LabelingSpec.v
theories/LabelingProofs.v
theories/SamplingProps.v
theories/SampleServiceModel.v
theories/SampleServiceSpec.v
theories/SampleServiceProofs.v
theories/SampleServiceProps.v
theories/PyValue.v
theories/PlanModel.v
theories/PlanSpec.v
theories/PlanProofs.v
theories/SeedModel.v
theories/SeedProofs.v
theories/PlanProps.v
theories/FsModel.v
theories/FsFacts.v
theories/SplitStoreModel.v
theories/SplitStoreProofs.v
theories/SplitStoreProps.v
theories/DatasetCacheModel.v
theories/DatasetCacheSpec.v
theories/DatasetCacheProofs.v
theories/LockModel.v
theories/LockProofs.v
theories/IndexModel.v
theories/IndexProofs.v
theories/DataLoaderProps.v
theories/GraphOpsModel.v
theories/GraphOpsSpec.v
theories/GraphOpsProofs.v
theories/GraphOpsProps.v
theories/DecString.v
theories/KnnModel.v
theories/KnnSpec.v
theories/KnnProofs.v
theories/KnnProps.v
theories/GraphCacheModel.v
theories/GraphCacheSpec.v
theories/GraphCacheProofs.v
theories/GraphCacheProps.v
theories/HpoModel.v
theories/HpoSpec.v
theories/HpoProofs.v
theories/HpoProps.v
theories/QFacts.v
theories/MetricsModel.v
theories/MetricsSpec.v
theories/MetricsProofs.v
theories/MetricsProps.v
theories/ViewsModel.v
theories/ViewsSpec.v
theories/ViewsProofs.v
theories/ViewsProps.v
theories/JsonModel.v
theories/JsonSpec.v
theories/JsonProofs.v
theories/JsonProps.v
theories/PreprocModel.v
theories/PreprocSpec.v
theories/PreprocProofs.v
theories/PreprocCacheProofs.v
theories/PreprocProps.v
theories/TransModel.v
theories/TransSpec.v
theories/TransProofs.v
theories/TransSolveProofs.v
theories/CgProofs.v
theories/TransProps.v
theories/MincutModel.v
theories/MincutSpec.v
theories/MincutProofs.v
theories/MincutProps.v
theories/InductModel.v
theories/InductSpec.v
theories/InductProofs.v
theories/InductLoopProofs.v
theories/InductSelfProofs.v
theories/InductCoProofs.v
theories/InductFitProofs.v
theories/InductProps.v
theories/EnsembleModel.v
theories/EnsembleSpec.v
theories/TriProofs.v
theories/ProbaProofs.v
theories/SetredProofs.v
theories/SetredGraphProofs.v
theories/DemoModel.v
theories/DemoSpec.v
theories/DemoProofs.v
theories/S4vmProofs.v
theories/EnsembleProps.v
theories/SupervisedModel.v
theories/SupervisedSpec.v
theories/SupervisedProofs.v
theories/SupervisedProps.v
theories/AugModel.v
theories/AugSpec.v
theories/AugTextProofs.v
theories/AugArrayProofs.v
theories/AugProps.v
theories/LimitsModel.v
theories/LimitsSpec.v
theories/LimitsProofs.v
theories/LimitsProps.v
theories/BenchEvalModel.v
theories/BenchEvalSpec.v
theories/BenchEvalProofs.v
theories/BenchEvalProps.v
theories/BenchIoModel.v
theories/BenchIoSpec.v
theories/BenchIoProofs.v
theories/RunDirProofs.v
theories/BenchIoProps.v
theories/BenchRunModel.v
theories/BenchRunSpec.v
theories/BenchRunProofs.v
theories/BenchRunProps.v
theories/DeepBatchModel.v
theories/DeepBatchSpec.v
theories/DeepBatchProofs.v
theories/DeepBatchProps.v
theories/DeepLossModel.v
theories/DeepLossSpec.v
theories/DeepLossProofs.v
theories/DeepLossProps.v
theories/DeepThreshModel.v
theories/DeepThreshSpec.v
theories/DeepThreshProofs.v
theories/DeepThreshProps.v
theories/DeepEmaModel.v
theories/DeepEmaSpec.v
theories/DeepEmaProofs.v
theories/DeepEmaProps.v
theories/CoMatchModel.v
theories/CoMatchSpec.v
theories/CoMatchProofs.v
theories/CoMatchProps.v
theories/TriNetModel.v
theories/TriNetSpec.v
theories/TriNetProofs.v
theories/TriNetProps.v
theories/DeepPairModel.v
theories/DeepPairSpec.v
theories/DeepPairProofs.v
theories/DeepPairProps.v
theories/WalkModel.v
theories/WalkSpec.v
theories/WalkProofs.v
theories/WalkDynProofs.v
theories/WalkProps.v
theories/PoissonModel.v
theories/PoissonSpec.v
theories/PoissonProofs.v
theories/MboProofs.v
theories/PoissonProps.v
theories/GnnModel.v
theories/GnnSpec.v
theories/GnnProofs.v
theories/SolveProofs.v
theories/GnnNetProofs.v
theories/GnnTrainProofs.v
theories/GnnProps.v
theories/TokModel.v
theories/TokSpec.v
theories/TokProofs.v
theories/TokProps.v
theories/StepModel.v
theories/StepSpec.v
theories/StepProofs.v
theories/StepProps.v
theories/VisModel.v
theories/VisSpec.v
theories/VisProofs.v
theories/VisProps.v
theories/PcaModel.v
theories/PcaSpec.v
theories/PcaProofs.v
theories/PcaProps.v
theories/HgModel.v
theories/HgSpec.v
theories/HgProofs.v
theories/HgProps.v
theories/PlapModel.v
theories/PlapSpec.v
theories/PlapProofs.v
theories/PlapProps.v
theories/GvModel.v
theories/GvSpec.v
theories/GvProofs.v
theories/GvProps.v
theories/GsModel.v
theories/GsSpec.v
theories/GsProofs.v
theories/GsProps.v
theories/TsvmModel.v
theories/TsvmSpec.v
theories/TsvmProofs.v
theories/TsvmProps.v
theories/RegModel.v
theories/RegSpec.v
theories/RegProofs.v
theories/RegProps.v
theories/N2vModel.v
theories/N2vSpec.v
theories/N2vProofs.v
theories/N2vTrainProofs.v
theories/N2vProps.v
theories/BaugModel.v
theories/BaugSpec.v
theories/BaugProofs.v
theories/BaugProps.v
theories/HopModel.v
theories/HopSpec.v
theories/HopProofs.v
theories/HopFitProofs.v
theories/HopRunProofs.v
theories/HopEndProofs.v
theories/HopProps.v
theories/DasoModel.v
theories/DasoSpec.v
theories/DasoProofs.v
theories/DasoFitProofs.v
theories/DasoProps.v
theories/ClrModel.v
theories/ClrSpec.v
theories/ClrProofs.v
theories/ClrFitProofs.v
theories/ClrLossProofs.v
theories/ClrProps.v
theories/NgcnModel.v
theories/NgcnSpec.v
theories/NgcnProofs.v
theories/NgcnProps.v
theories/GrafnModel.v
theories/GrafnSpec.v
theories/GrafnProofs.v
theories/GrafnFitProofs.v
theories/GrafnProps.v
theories/TclfModel.v
theories/TclfSpec.v
theories/TclfProofs.v
theories/TclfUseProofs.v
theories/TclfProps.v
theories/WaveModel.v
theories/WaveSpec.v
theories/WaveProofs.v
theories/WaveProps.v
theories/AdaptModel.v
theories/AdaptSpec.v
theories/AdaptProofs.v
theories/AdaptTorchProofs.v
theories/AdaptMetaProofs.v
theories/AdaptProps.v
theories/VcacheModel.v
theories/VcacheSpec.v
theories/VcacheProofs.v
theories/VcacheProps.v
theories/SchemaModel.v
theories/SchemaSpec.v
theories/SchemaProofs.v
theories/SchemaStartProofs.v
theories/SchemaProps.v
theories/SblModel.v
theories/SblSpec.v
theories/SblProofs.v
theories/SblProps.v
theories/BundleModel.v
theories/BundleSpec.v
theories/BundleProofs.v
theories/BundleProps.v
theories/InjModel.v
theories/InjSpec.v
theories/InjProofs.v
theories/InjProps.v
theories/ProvModel.v
theories/ProvSpec.v
theories/ProvProofs.v
theories/ProvProps.v
theories/GsiModel.v
theories/GsiSpec.v
theories/GsiProofs.v
theories/GsiProps.v
theories/OmlModel.v
theories/OmlSpec.v
theories/OmlProofs.v
theories/OmlProps.v
theories/TaudModel.v
theories/TaudSpec.v
theories/TaudProofs.v
theories/TaudProps.v
theories/DgiModel.v
theories/DgiSpec.v
theories/DgiProofs.v
theories/DgiProps.v
theories/AutoModel.v
theories/AutoSpec.v
theories/AutoProofs.v
theories/AutoProps.v
theories/HfModel.v
theories/HfSpec.v
theories/HfProofs.v
theories/HfProps.v
theories/TviModel.v
theories/TviSpec.v
theories/TviProofs.v
theories/TviProps.v
theories/StatsModel.v
theories/StatsSpec.v
theories/StatsProofs.v
theories/StatsProps.v
theories/PplanModel.v
theories/PplanSpec.v
theories/PplanProofs.v
theories/PplanProps.v
theories/TbackModel.v
theories/TbackSpec.v
theories/TbackProofs.v
theories/TbackProps.v
theories/IpreModel.v
theories/IpreSpec.v
theories/IpreProofs.v
theories/IpreProps.v
theories/ScrModel.v
theories/ScrSpec.v
theories/ScrProofs.v
theories/ScrProps.v
theories/TvdModel.v
theories/TvdSpec.v
theories/TvdProofs.v
theories/TvdProps.v
theories/AftModel.v
theories/AftSpec.v
theories/AftProofs.v
theories/AftProps.v
theories/TfdModel.v
theories/TfdSpec.v
theories/TfdProofs.v
theories/TfdProps.v
theories/McdModel.v
theories/McdSpec.v
theories/McdProofs.v
theories/McdProps.v
theories/MfsModel.v
theories/MfsSpec.v
theories/MfsProofs.v
theories/MfsProps.v
theories/CldModel.v
theories/CldSpec.v
theories/CldProofs.v
theories/CldProps.v
theories/DocModel.v
theories/DocSpec.v
theories/DocProofs.v
theories/DocProps.v
