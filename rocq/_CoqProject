-Q theories Verif
theories/PyBase.v
theories/B64.v
theories/NdArray.v
theories/Eda.v
theories/EdaInv.v
theories/Spec.v
theories/TopK.v
theories/LoopObs.v
theories/LoopThms.v
theories/BestCost.v
theories/Select.v
theories/LoopMore.v
theories/LoopRel.v
theories/LoopAny.v
theories/LoopPar.v
theories/LoopTrain.v
theories/LoopFinal.v
theories/SelectAny.v
theories/Demo.v
theories/MixedDemo.v
theories/Properties_SelectAny.v
theories/FailDemo.v
theories/Properties_Fail.v
theories/Properties_Loop.v
theories/B64More.v
theories/Rand.v
theories/RandThms.v
theories/Models.v
theories/Inits.v
theories/ModelThms.v
theories/Kahan.v
theories/CatThms.v
theories/ModelMore.v
theories/ModelProps.v
theories/Interval.v
theories/InitThms.v
theories/Trunc.v
theories/InitGauss.v
theories/DemoModels.v
theories/InitProps.v
theories/Properties_Models.v
theories/Properties_Inits.v
theories/Stock.v
theories/LoopInv.v
theories/Sign.v
theories/StockInv.v
theories/StockGauss.v
theories/StockCat.v
theories/StockPrior.v
theories/StockArchive.v
theories/StockFail.v
theories/StockAll.v
theories/StockMore.v
theories/StockCustom.v
theories/DemoStock.v
theories/StockFinal.v
theories/Properties_Stock.v
theories/Gbn.v
theories/GbnSpec.v
theories/GbnThms.v
theories/GbnSigma.v
theories/GbnInfer.v
theories/GbnSample.v
theories/GbnExist.v
theories/DemoGbn.v
theories/Properties_Gbn.v
theories/Tools.v
theories/ToolsThms.v
theories/Properties_Tools.v
theories/Bench.v
theories/BenchThms.v
theories/BenchCec.v
theories/Schwefel.v
theories/Properties_Bench.v
theories/Alias.v
theories/AliasThms.v
theories/AliasProps.v
theories/Properties_Alias.v
theories/ChoiceInt.v
theories/ChoiceMore.v
theories/Properties_Choice.v
theories/Nets.v
theories/NetThms.v
theories/Kde.v
theories/KdeRun.v
theories/DemoNets.v
theories/Properties_Nets.v
theories/OrderRel.v
theories/DemoOrder.v
theories/Watch.v
theories/Properties_Order.v
theories/StockExt.v
theories/DemoExt.v
theories/Properties_Ext.v
theories/Lhs.v
theories/LhsThms.v
theories/DemoLhs.v
theories/Properties_Lhs.v
theories/InitArgs.v
theories/Properties_InitArgs.v
theories/LoopDrawn.v
theories/LoopFail.v
theories/FailThms.v
theories/DrawnStock.v
theories/Properties_Drawn.v
theories/Scale.v
theories/DemoScale.v
theories/Properties_Scale.v
theories/Summary.v
theories/Properties_Summary.v
theories/SchwefelText.v
theories/Properties_Schwefel.v
theories/FloatLow.v
theories/BenchFloat.v
theories/BenchFloatThms.v
theories/Properties_BenchFloat.v
theories/CustomAll.v
theories/Properties_Custom.v
theories/GbnQuery.v
theories/Properties_Query.v
theories/FloatSum.v
theories/FloatMean.v
theories/FloatCov.v
theories/DemoFloat.v
theories/Properties_FloatMean.v
theories/LoopNoise.v
theories/FloatRun.v
theories/FloatStart.v
theories/DemoRun.v
theories/EmnaPsd.v
theories/Properties_Emna.v
theories/Budget.v
theories/Properties_Budget.v
theories/BudgetCost.v
theories/Properties_BudgetCost.v
theories/FevCount.v
theories/Properties_FevCount.v
theories/NoiseNeed.v
theories/DemoNoise.v
theories/Properties_NoiseNeed.v
theories/PoolNeed.v
theories/DemoPool.v
theories/Properties_PoolNeed.v
theories/Average.v
theories/AverageStrict.v
theories/Properties_Average.v
theories/Counts.v
theories/Properties_Counts.v
theories/Progress.v
theories/ProgressBits.v
theories/ProgressMulti.v
theories/DemoProgress.v
theories/Properties_Progress.v
theories/OrderLearn.v
theories/Properties_OrderLearn.v
theories/Properties_FloatRun.v
theories/LoopMap.v
theories/VarOrder.v
theories/VarRun.v
theories/VarLearn.v
theories/DemoVar.v
theories/Properties_VarOrder.v
theories/RenameCat.v
theories/RenameRun.v
theories/DemoRename.v
theories/Properties_Rename.v
theories/Constant.v
theories/Properties_Constant.v
theories/ArchiveNoise.v
theories/Properties_ArchiveNoise.v
theories/Extinct.v
theories/DemoExtinct.v
theories/Properties_Extinct.v
theories/LoopKeep.v
theories/VarKeep.v
theories/KeepRun.v
theories/KeepLearn.v
theories/DemoKeep.v
theories/Properties_Keep.v
theories/Units.v
theories/Properties_Units.v
theories/Consts.v
theories/BenchNear.v
theories/BenchWave.v
theories/BenchNan.v
theories/Properties_BenchNear.v
theories/Properties_BenchNan.v
theories/CecFloat.v
theories/CecFloatThms.v
theories/Properties_CecFloat.v
theories/CecNear.v
theories/Properties_CecNear.v
theories/Arange.v
theories/Properties_Arange.v
theories/GbnFloat.v
theories/GbnFloatDemo.v
theories/Properties_GbnFloat.v
theories/Chance.v
theories/ChanceThms.v
theories/Properties_Chance.v
theories/Explore.v
theories/ExploreDemo.v
theories/Properties_Explore.v
theories/VecEda.v
theories/VecThms.v
theories/VecShape.v
theories/VecDemo.v
theories/Properties_Vec.v
theories/MaxLik.v
theories/Properties_MaxLik.v
theories/Mean.v
theories/LoopTape.v
theories/Found.v
theories/Answers.v
theories/GenCount.v
theories/FoundBest.v
theories/FoundTime.v
theories/FoundDemo.v
theories/Properties_Found.v
theories/Properties_FoundTime.v
theories/Lost.v
theories/LostBits.v
theories/LostDemo.v
theories/Properties_Lost.v
theories/LostCat.v
theories/LostCatDemo.v
theories/Properties_LostCat.v
theories/Recorded.v
theories/Properties_Recorded.v
theories/ArchiveEvery.v
theories/Properties_ArchiveEvery.v
theories/ExtinctEvery.v
theories/Properties_ExtinctEvery.v
theories/FloatRunEvery.v
theories/Properties_FloatRunEvery.v
theories/ArangeMore.v
theories/Properties_ArangeMore.v
theories/CommonDraws.v
theories/CommonStock.v
theories/Properties_CommonDraws.v
theories/CallsEvery.v
theories/DemoCalls.v
theories/Properties_CallsEvery.v
theories/UniformChance.v
theories/BoxChance.v
theories/UniformRun.v
theories/BoxDemo.v
theories/Properties_UniformChance.v
theories/FirstChance.v
theories/FirstDemo.v
theories/Properties_FirstChance.v
theories/FirstTol.v
theories/FirstTolDemo.v
theories/Properties_FirstTol.v
theories/InitOrder.v
theories/InitOrderDemo.v
theories/Properties_InitOrder.v
theories/ToolsMore.v
theories/Properties_ToolsMore.v
theories/UnitFloat.v
theories/UnitStat.v
theories/Guard.v
theories/UnitRun.v
theories/UnitThms.v
theories/DemoUnit.v
theories/UnitLow.v
theories/Properties_Unit.v
theories/ModelNew.v
theories/Properties_ModelNew.v
