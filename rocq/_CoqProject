-Q theories Verif
theories/AcceptProofs.v
theories/ApproxCases.v
theories/ApproxProofs.v
theories/ApproxProofs2.v
theories/ApproxProofs3.v
theories/ApproxSpec.v
theories/AskCases.v
theories/AskProofs.v
theories/AskSpec.v
theories/Base.v
theories/BinModel.v
theories/BinProofs.v
theories/BinProofs2.v
theories/BinSpec.v
theories/BlasCases.v
theories/BlasModel.v
theories/BlasProofs.v
theories/BlasProofs2.v
theories/BlasProofs3.v
theories/BlasProofs4.v
theories/BlasProofs5.v
theories/BlasProofs6.v
theories/BlasProofs7.v
theories/BlasProofs8.v
theories/BlasProofs9.v
theories/BlasSpec.v
theories/BuildModel.v
theories/BuildProofs.v
theories/BuildProofs2.v
theories/BuildSpec.v
theories/BuildWitness.v
theories/Bytes.v
theories/CacheModel.v
theories/CacheProofs.v
theories/CacheSpec.v
theories/ClosestModel.v
theories/ClosestProofs.v
theories/ClosestSpec.v
theories/CmdCases.v
theories/CmdModel.v
theories/CmdProofs.v
theories/CmdProofs2.v
theories/CmdProofs3.v
theories/CmdProofs4.v
theories/CmdProofs5.v
theories/CmdProofs6.v
theories/CmdProofs7.v
theories/CmdProofs8.v
theories/CmdProofs9.v
theories/CmdRealSpec.v
theories/CmdSpec.v
theories/ConvProofs.v
theories/ConvertModel.v
theories/ConvertProofs.v
theories/ConvertSpec.v
theories/CopyCases.v
theories/CopyProofs.v
theories/CopySpec.v
theories/CrashModel.v
theories/CrashProofs.v
theories/CrashProofs2.v
theories/CrashProofs3.v
theories/CrashSpec.v
theories/DistModel.v
theories/DistProofs.v
theories/DistProofs2.v
theories/DistSpec.v
theories/DivFacts.v
theories/EngineProofs.v
theories/EntryModel.v
theories/EntryProofs.v
theories/EntrySpec.v
theories/EntrySpread.v
theories/FiltGtModel.v
theories/FiltGtProofs.v
theories/FiltGtSpec.v
theories/FiltToolCases.v
theories/FiltToolModel.v
theories/FiltToolProofs.v
theories/FiltToolProofs2.v
theories/FiltToolSpec.v
theories/FilterProofs.v
theories/FilterSpec.v
theories/FlatModel.v
theories/FlatProofs.v
theories/FlatSpec.v
theories/Float32.v
theories/Float32Facts.v
theories/Float64Real.v
theories/FloatBits.v
theories/FloatReal.v
theories/FlushCases.v
theories/FlushModel.v
theories/FlushProofs.v
theories/FlushProofs2.v
theories/FlushProofs3.v
theories/FlushSpec.v
theories/FusedModel.v
theories/FusedProofs.v
theories/GraphFileModel.v
theories/GraphFileProofs.v
theories/GraphFileSpec.v
theories/GraphSpec.v
theories/GreedyModel.v
theories/GreedyProofs.v
theories/GtModel.v
theories/GtProofs.v
theories/GtProofs2.v
theories/GtProofs3.v
theories/GtSpec.v
theories/GtToolCases.v
theories/GtToolModel.v
theories/GtToolProofs.v
theories/GtToolProofs2.v
theories/GtToolProofs3.v
theories/GtToolProofs4.v
theories/GtToolSpec.v
theories/HashArith.v
theories/HashModel.v
theories/HashProofs.v
theories/HashProofs2.v
theories/HashProofs3.v
theories/HashSpec.v
theories/HeapInst.v
theories/HeapSpec.v
theories/HideCases.v
theories/HideProofs.v
theories/HideSpec.v
theories/HnswModel.v
theories/HnswProofs.v
theories/HnswProofs2.v
theories/HnswProofs3.v
theories/HnswSpec.v
theories/HwideCases.v
theories/HwideProofs.v
theories/HwideProofs2.v
theories/HwideSpec.v
theories/HyperCases.v
theories/HyperModel.v
theories/HyperProofs.v
theories/HyperProofs2.v
theories/HyperProofs3.v
theories/HyperSpec.v
theories/IndexFileModel.v
theories/IndexFileProofs.v
theories/IndexFileProofs2.v
theories/IndexFileProofs3.v
theories/IndexFileSpec.v
theories/IvfModel.v
theories/IvfProofs.v
theories/KmeansCases.v
theories/KmeansModel.v
theories/KmeansProofs.v
theories/KmeansProofs2.v
theories/KmeansProofs3.v
theories/KmeansProofs4.v
theories/KmeansProofs5.v
theories/KmeansProofs6.v
theories/KmeansSpec.v
theories/L2ErrorProofs.v
theories/LifeCases.v
theories/LifeModel.v
theories/LifeProofs.v
theories/LifeProofs2.v
theories/LifeProofs3.v
theories/LifeProofs4.v
theories/LifeProofs5.v
theories/LifeSpec.v
theories/LimitCases.v
theories/LimitProofs.v
theories/LimitSpec.v
theories/ListLemmas.v
theories/LloydModel.v
theories/LloydProofs.v
theories/LloydProofs2.v
theories/LloydSpec.v
theories/LocalCases.v
theories/LocalFlat.v
theories/LocalProofs.v
theories/LocalSpec.v
theories/LocalSpec2.v
theories/LockProofs.v
theories/LongerBuilt.v
theories/LongerCases.v
theories/LongerProofs.v
theories/LongerProofs2.v
theories/LongerSpec.v
theories/LshModel.v
theories/LshParCases.v
theories/LshParModel.v
theories/LshParProofs.v
theories/LshParSpec.v
theories/LshProofs.v
theories/LshSpec.v
theories/MathCases.v
theories/MathModel.v
theories/MathProofs.v
theories/MathProofs2.v
theories/MathProofs3.v
theories/MathSpec.v
theories/MeanCases.v
theories/MeanModel.v
theories/MeanProofs.v
theories/MeanProofs2.v
theories/MeanProofs3.v
theories/MeanProofs4.v
theories/MeanProofs5.v
theories/MeanProofs6.v
theories/MeanSpec.v
theories/MoreCases.v
theories/MoreProofs.v
theories/MoreSpec.v
theories/NormCases.v
theories/NormCases2.v
theories/NormModel.v
theories/NormProofs.v
theories/NormProofs2.v
theories/NormProofs3.v
theories/NormProofs4.v
theories/NormProofs5.v
theories/NormProofs6.v
theories/NormSpec.v
theories/NumProofs.v
theories/NumSpec.v
theories/OrderProofs.v
theories/OrderProofs2.v
theories/OrderProofs3.v
theories/OrderSpec.v
theories/ParamModel.v
theories/ParamProofs.v
theories/ParamSpec.v
theories/PartitionModel.v
theories/PartitionProofs.v
theories/PartitionSpec.v
theories/PipelineProofs.v
theories/PipelineProofs2.v
theories/PipelineProofs3.v
theories/PipelineSpec.v
theories/PoolModel.v
theories/PoolProofs.v
theories/PoolProofs2.v
theories/PoolSafety.v
theories/PopInst.v
theories/PqFileModel.v
theories/PqFileProofs.v
theories/PqFileProofs2.v
theories/PqFileProofs3.v
theories/PqFileSpec.v
theories/PqModel.v
theories/PqProofs.v
theories/PqProofs2.v
theories/PqProofs3.v
theories/PqSpec.v
theories/PropApprox.v
theories/PropAsk.v
theories/PropBin.v
theories/PropBlas.v
theories/PropBuild.v
theories/PropCmd.v
theories/PropCmdReal.v
theories/PropConvert.v
theories/PropCopy.v
theories/PropCrash.v
theories/PropDist.v
theories/PropFiltGt.v
theories/PropFiltTool.v
theories/PropFlush.v
theories/PropGraphFile.v
theories/PropGreedy.v
theories/PropGt.v
theories/PropGtTool.v
theories/PropHash.v
theories/PropHide.v
theories/PropHnsw.v
theories/PropHwide.v
theories/PropHyper.v
theories/PropIndexFile.v
theories/PropIo.v
theories/PropIvf.v
theories/PropKmeans.v
theories/PropLife.v
theories/PropLimit.v
theories/PropLloyd.v
theories/PropLocal.v
theories/PropLonger.v
theories/PropLsh.v
theories/PropLshPar.v
theories/PropMath.v
theories/PropMean.v
theories/PropMore.v
theories/PropNorm.v
theories/PropOrder.v
theories/PropPartition.v
theories/PropPipeline.v
theories/PropPool.v
theories/PropPq.v
theories/PropPqFile.v
theories/PropPrune.v
theories/PropQuant.v
theories/PropRace.v
theories/PropRand.v
theories/PropRandDist.v
theories/PropReal.v
theories/PropRealSearch.v
theories/PropRecall.v
theories/PropRename.v
theories/PropResave.v
theories/PropRng.v
theories/PropSearch.v
theories/PropShard.v
theories/PropShare.v
theories/PropStats.v
theories/PropSystem.v
theories/PropTable.v
theories/PropTemp.v
theories/PropTool.v
theories/PropTrain.v
theories/PropTsv.v
theories/PropUtilChain.v
theories/PropUtilCmd.v
theories/PropWide.v
theories/PropWork.v
theories/PruneModel.v
theories/PruneProofs.v
theories/PruneSpec.v
theories/QuantCases.v
theories/QuantProofs.v
theories/QuantSpec.v
theories/RaceModel.v
theories/RaceProofs.v
theories/RaceProofs2.v
theories/RaceSpec.v
theories/RandDistCases.v
theories/RandDistModel.v
theories/RandDistProofs.v
theories/RandDistProofs2.v
theories/RandDistProofs3.v
theories/RandDistProofs4.v
theories/RandDistProofs5.v
theories/RandDistSpec.v
theories/RandModel.v
theories/RandProofs.v
theories/RandProofs2.v
theories/RandSpec.v
theories/RealCases.v
theories/RealDistProofs.v
theories/RealDistProofs2.v
theories/RealSearchCases.v
theories/RealSearchModel.v
theories/RealSearchProofs.v
theories/RealSearchProofs2.v
theories/RealSearchProofs3.v
theories/RealSearchProofs4.v
theories/RealSearchProofs5.v
theories/RealSearchSpec.v
theories/RealSpec.v
theories/RecallModel.v
theories/RecallProofs.v
theories/RecallSpec.v
theories/RenameCases.v
theories/RenameProofs.v
theories/RenameProofs2.v
theories/RenameProofs3.v
theories/RenameSpec.v
theories/ResaveCases.v
theories/ResaveProofs.v
theories/ResaveSpec.v
theories/RngModel.v
theories/RngProofs.v
theories/RngSpec.v
theories/RngWitness.v
theories/ScaleL2.v
theories/ScaleProofs.v
theories/SearchModel.v
theories/SearchProofs.v
theories/SearchSpec.v
theories/ShardModel.v
theories/ShardProofs.v
theories/ShardProofs2.v
theories/ShardProofs3.v
theories/ShardSpec.v
theories/ShareCases.v
theories/ShareProofs.v
theories/ShareSpec.v
theories/SliceModel.v
theories/SliceProofs.v
theories/SortInst.v
theories/SortSpec.v
theories/StatsCases.v
theories/StatsModel.v
theories/StatsProofs.v
theories/StatsProofs2.v
theories/StatsProofs3.v
theories/StatsProofs4.v
theories/StatsSpec.v
theories/StreamModel.v
theories/SystemModel.v
theories/SystemProofs.v
theories/SystemProofs2.v
theories/SystemProofs3.v
theories/SystemProofs4.v
theories/SystemSpec.v
theories/SystemWitness.v
theories/TableCases.v
theories/TableModel.v
theories/TableProofs.v
theories/TableProofs2.v
theories/TableProofs3.v
theories/TableSpec.v
theories/TempCases.v
theories/TempModel.v
theories/TempProofs.v
theories/TempSpec.v
theories/TextModel.v
theories/TextProofs.v
theories/ToolModel.v
theories/ToolProofs.v
theories/ToolProofs2.v
theories/ToolProofs3.v
theories/ToolSpec.v
theories/ToolWitness.v
theories/TopKSpec.v
theories/TrainCases.v
theories/TrainModel.v
theories/TrainProofs.v
theories/TrainProofs2.v
theories/TrainSpec.v
theories/TruthModel.v
theories/TruthProofs.v
theories/TruthProofs2.v
theories/TruthSpec.v
theories/TsvModel.v
theories/TsvNum.v
theories/TsvNum2.v
theories/TsvNum3.v
theories/TsvNum4.v
theories/TsvProofs.v
theories/TsvProofs2.v
theories/TsvProofs3.v
theories/TsvSpec.v
theories/TsvText.v
theories/UnitsCases.v
theories/UnitsProofs.v
theories/UnitsSpec.v
theories/UtilCmdCases.v
theories/UtilCmdCases2.v
theories/UtilCmdModel.v
theories/UtilCmdProofs.v
theories/UtilCmdProofs2.v
theories/UtilCmdProofs3.v
theories/UtilCmdProofs4.v
theories/UtilCmdSpec.v
theories/VamanaModel.v
theories/VamanaProofs.v
theories/WideCases.v
theories/WideProofs.v
theories/WideProofs2.v
theories/WideProofs3.v
theories/WideProofs4.v
theories/WideSpec.v
theories/WorkCases.v
theories/WorkModel.v
theories/WorkProofs.v
theories/WorkProofs2.v
theories/WorkSpec.v
