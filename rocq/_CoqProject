-Q theories Verif
theories/Num.v
theories/NumFloat.v
theories/Py.v
theories/QcTac.v
theories/Rewards.v
theories/SortedKeyList.v
theories/World.v
theories/Stakeholder.v
theories/Sched.v
theories/Sim.v
theories/Init.v
theories/RewardFacts.v
theories/PropRewards.v
theories/Helper.v
theories/ListFacts.v
theories/PropHelper.v
theories/FloatOrd.v
theories/Greedy.v
theories/SLFacts.v
theories/Inv.v
theories/Static.v
theories/Exec.v
theories/Eval.v
theories/Step.v
theories/Reach.v
theories/SimInv.v
theories/Spec.v
theories/PropState.v
theories/PropInit.v
theories/ExactInv.v
theories/Demo.v
theories/PropExact.v
theories/PropMove.v
theories/PropSearch.v
theories/PropSched.v
theories/Ends.v
theories/Frame.v
theories/PropRun.v
theories/PropPools.v
theories/PropPhase.v
theories/Reporters.v
theories/ReporterFacts.v
theories/PropReporters.v
theories/Batch.v
theories/PropBatch.v
theories/PropFiles.v
theories/PropBatchRun.v
theories/AnyOrder.v
theories/PropSimul.v
theories/TotalExec.v
theories/TotalEval.v
theories/Profit.v
theories/PropTotal.v
theories/Stable.v
theories/PropStable.v
theories/PropIncome.v
theories/Persons.v
theories/PropBudget.v
theories/PropMetrics.v
theories/PropTopK.v
theories/Export.v
theories/PropExport.v
theories/PropForesight.v
theories/FloatRun.v
theories/Main.v
theories/PropMain.v
theories/Folder.v
theories/PropFolder.v
theories/PropOptions.v
theories/PropDocs.v
theories/Script.v
theories/PropScript.v
theories/PropSeed.v
theories/PropFrame.v
theories/AnyBooks.v
theories/PropBooks.v
theories/PropRestart.v
theories/AnyRank.v
theories/PropRank.v
theories/Concave.v
theories/AnyTotal.v
theories/PropAnyTotal.v
theories/Binary64.v
theories/RealArith.v
theories/FloatReward.v
theories/FloatError.v
theories/PropFloat.v
theories/Viz.v
theories/PropViz.v
theories/Graphs.v
theories/PropGraphs.v
theories/Abstain.v
theories/PropAbstain.v
theories/Distributions.v
theories/PropDistributions.v
theories/BatchFigures.v
theories/PropBatchFigures.v
theories/PropSplit.v
theories/PropSchemes.v
theories/PropScale.v
theories/SameRewards.v
theories/PropNoPledge.v
theories/PropBest.v
theories/PropCalcMargin.v
theories/PropAnyMetrics.v
theories/AnyShares.v
theories/PropAnyShares.v
theories/PropAnyBudget.v
theories/PropDrift.v
theories/AnyValues.v
theories/FloatRange.v
theories/PropDriftRun.v
theories/PropStakesFloat.v
theories/PropDivFloat.v
theories/PropInactiveFloat.v
theories/PropPayFloat.v
theories/PropMarginFloat.v
theories/PropTargetFloat.v
theories/PropMetricNames.v
theories/PropSplitFloat.v
theories/PropGreedyFloat.v
theories/PropBudgetFloat.v
theories/PropPayAllFloat.v
