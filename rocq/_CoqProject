-Q theories Verif
theories/Py.v
theories/PyFacts.v
theories/MemModel.v
theories/MemSpec.v
theories/MemFacts.v
theories/MemFacts2.v
theories/MemFacts3.v
theories/MemFacts4.v
theories/MemFacts5.v
theories/MemFacts6.v
theories/MemFacts7.v
theories/MemHeap.v
theories/MemHeapSpec.v
theories/MemHeapFacts.v
theories/PropMem.v
theories/Conc.v
theories/ConcFacts.v
theories/SplitModel.v
theories/SplitSpec.v
theories/SplitFacts.v
theories/SplitFacts2.v
theories/SplitFacts3.v
theories/SplitFacts4.v
theories/SplitFacts5.v
theories/SplitHeap.v
theories/SplitHeapFacts.v
theories/PropSplit.v
theories/MetricModel.v
theories/MetricSpec.v
theories/MetricFacts.v
theories/MetricFacts2.v
theories/MetricFacts3.v
theories/MetricFacts4.v
theories/MetricFacts5.v
theories/MetricFacts6.v
theories/PropMetric.v
theories/TrainModel.v
theories/TrainSpec.v
theories/TrainFacts.v
theories/TrainFacts2.v
theories/TrainFacts3.v
theories/PropTrain.v
theories/RankModel.v
theories/RankSpec.v
theories/RankFacts.v
theories/RankFacts2.v
theories/RankFacts3.v
theories/PropRank.v
theories/KnnModel.v
theories/KnnSpec.v
theories/KnnFacts.v
theories/KnnFacts2.v
theories/KnnFacts3.v
theories/KnnFacts4.v
theories/KnnShrink.v
theories/PropKnn.v
theories/SimModel.v
theories/SimSpec.v
theories/SimFacts.v
theories/SimFacts2.v
theories/SimFacts3.v
theories/SimFacts4.v
theories/PropSim.v
theories/SampModel.v
theories/SampSpec.v
theories/SampFacts.v
theories/SampFacts2.v
theories/SampFacts3.v
theories/PropSamp.v
theories/EvalModel.v
theories/EvalSpec.v
theories/EvalFacts.v
theories/EvalFacts2.v
theories/EvalFacts3.v
theories/EvalFacts4.v
theories/EvalFacts5.v
theories/PropEval.v
theories/DbModel.v
theories/DbFacts.v
theories/DbFacts2.v
theories/DbFacts3.v
theories/DbFacts4.v
theories/DbFacts5.v
theories/DbFacts6.v
theories/DbFacts7.v
theories/DbFacts8.v
theories/DbFacts9.v
theories/DbFacts10.v
theories/DbSpec.v
theories/DbFacts11.v
theories/DbFacts12.v
theories/DbFacts13.v
theories/DbFacts14.v
theories/DbFacts15.v
theories/DbFacts16.v
theories/DbCheck.v
theories/DbExamples.v
theories/DbFacts17.v
theories/DbFacts18.v
theories/PropDb.v
theories/CsvModel.v
theories/CsvSpec.v
theories/CsvFacts.v
theories/CsvFacts2.v
theories/CsvFacts3.v
theories/CsvFacts4.v
theories/CsvFacts5.v
theories/PropCsv.v
theories/FileModel.v
theories/FileSpec.v
theories/FileFacts.v
theories/FileFacts2.v
theories/FileFacts3.v
theories/FileFacts4.v
theories/PropFile.v
theories/PropErrors.v
theories/PropErrors2.v
theories/FitModel.v
theories/FitFacts.v
theories/PropFit.v
theories/NetModel.v
theories/NetFacts.v
theories/NetFacts2.v
theories/NetFacts3.v
theories/PropNet.v
theories/FrameModel.v
theories/FrameFacts.v
theories/PropFrame.v
theories/DbGenModel.v
theories/DbGenSpec.v
theories/DbGenFacts.v
theories/DbGenFacts2.v
theories/DbGenFacts3.v
theories/DbGenFacts4.v
theories/DbGenFacts5.v
theories/PropDbGen.v
theories/DbSplitModel.v
theories/DbSplitSpec.v
theories/DbSplitFacts.v
theories/DbSplitFacts2.v
theories/DbSplitFacts3.v
theories/DbSplitFacts4.v
theories/DbSplitFacts5.v
theories/DbSplitFacts6.v
theories/DbSplitFacts7.v
theories/DbSplitFacts8.v
theories/DbSplitFacts9.v
theories/DbSplitFacts10.v
theories/DbSplitFacts11.v
theories/PropDbSplit.v
theories/TwinSpec.v
theories/TwinFacts.v
theories/TwinFacts2.v
theories/TwinFacts3.v
theories/TwinFacts4.v
theories/TwinQuery.v
theories/TwinFacts5.v
theories/TwinFacts6.v
theories/TwinCheck.v
theories/PropTwin.v
theories/TwinCsv.v
theories/PropTwin2.v
theories/RecDbModel.v
theories/RecDbModel2.v
theories/RecDbSpec.v
theories/RecDbFacts.v
theories/RecDbFacts2.v
theories/RecDbFacts3.v
theories/RecDbFacts4.v
theories/RecDbFacts5.v
theories/RecDbFacts6.v
theories/SimFacts5.v
theories/PropRecDb.v
theories/RecDbSpec2.v
theories/RecDbFacts7.v
theories/RecDbFacts8.v
theories/PropRecDb2.v
theories/RecDbModel3.v
theories/RecDbSpec3.v
theories/RecDbFacts9.v
theories/PropRecDb3.v
theories/RecDbModel4.v
theories/RecDbSpec4.v
theories/RecDbFacts10.v
theories/PropRecDb4.v
theories/CaserSpec.v
theories/CaserFacts.v
theories/PropCaser.v
theories/RecDbModel5.v
theories/RecDbSpec5.v
theories/RecDbFacts11.v
theories/RecDbFacts12.v
theories/RecDbFacts13.v
theories/RecDbFacts14.v
theories/RecDbFacts15.v
theories/PropRecDb5.v
theories/RecDbModel6.v
theories/RecDbSpec6.v
theories/RecDbFacts16.v
theories/PropRecDb6.v
theories/DbGenSpec2.v
theories/DbGenFacts6.v
theories/PropDbGen2.v
theories/RecDbModel7.v
theories/RecDbFacts17.v
theories/RecDbSpec7.v
theories/RecDbFacts18.v
theories/PropRecDb7.v
theories/DbGenFacts7.v
theories/RecDbFacts19.v
theories/PropRecDb8.v
theories/LogModel.v
theories/LogSpec.v
theories/LogFacts.v
theories/PropLog.v
theories/KnnSpec2.v
theories/KnnFacts5.v
theories/PropKnn2.v
theories/SaveModel.v
theories/SaveSpec.v
theories/SaveFacts.v
theories/PropSave.v
theories/PipeSpec.v
theories/PipeFacts.v
theories/PropPipe.v
theories/SeedModel.v
theories/SeedSpec.v
theories/SeedFacts.v
theories/PropSeed.v
theories/TwistModel.v
theories/TwistSpec.v
theories/TwistFacts.v
theories/PropTwist.v
theories/VerboseSpec.v
theories/VerboseFacts.v
theories/PropVerbose.v
theories/MakeModel.v
theories/MakeSpec.v
theories/MakeFacts.v
theories/PropMake.v
theories/RuleModel.v
theories/RuleSpec.v
theories/RuleFacts.v
theories/PropRule.v
theories/MoveSpec.v
theories/MoveFacts.v
theories/MoveFacts2.v
theories/PropMove.v
theories/ViewSpec.v
theories/ViewFacts.v
theories/ViewFacts2.v
theories/PropView.v
theories/PartSpec.v
theories/PartFacts.v
theories/PartFacts2.v
theories/PropPart.v
theories/DevSpec.v
theories/DevFacts.v
theories/DevFacts2.v
theories/PropDev.v
theories/AskSpec.v
theories/AskFacts.v
theories/PropAsk.v
theories/GrowSpec.v
theories/GrowFacts.v
theories/GrowFacts2.v
theories/PropGrow.v
theories/PropRound.v
theories/FewFacts.v
theories/PropFew.v
