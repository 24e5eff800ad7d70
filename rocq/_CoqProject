-Q theories Verif
theories/Model/Prelude.v
theories/Model/UidQueue.v
theories/Spec/UidQueue.v
theories/Proofs/Prelude.v
theories/Proofs/UidQueue.v
theories/Props/UidQueue.v
theories/Model/MultiValue.v
theories/Spec/MultiValue.v
theories/Proofs/MultiValue.v
theories/Props/MultiValue.v
theories/Model/Pruning.v
theories/Spec/Pruning.v
theories/Proofs/Pruning.v
theories/Props/Pruning.v
theories/Model/Archive.v
theories/Spec/Archive.v
theories/Proofs/Archive.v
theories/Props/Archive.v
theories/Model/Float.v
theories/Model/Optimizer.v
theories/Spec/Optimizer.v
theories/Proofs/Optimizer.v
theories/Props/Optimizer.v
theories/Model/Minimize.v
theories/Spec/Minimize.v
theories/Proofs/Minimize.v
theories/Props/Minimize.v
theories/Model/Evolution.v
theories/Spec/Evolution.v
theories/Proofs/Evolution.v
theories/Props/Evolution.v
theories/Model/Pareto.v
theories/Spec/Pareto.v
theories/Proofs/Pareto.v
theories/Props/Pareto.v
theories/Model/Layers.v
theories/Spec/Layers.v
theories/Proofs/Layers.v
theories/Proofs/LayerValues.v
theories/Props/Layers.v
theories/Model/Param.v
theories/Spec/Param.v
theories/Proofs/ParamBase.v
theories/Proofs/ParamTree.v
theories/Proofs/ParamOps.v
theories/Props/Param.v
theories/Model/Sharing.v
theories/Spec/Sharing.v
theories/Proofs/Sharing.v
theories/Props/Sharing.v
theories/Model/Tools.v
theories/Spec/Tools.v
theories/Proofs/Tools.v
theories/Props/Tools.v
theories/Model/Crossover.v
theories/Spec/Crossover.v
theories/Proofs/Crossover.v
theories/Props/Crossover.v
theories/Model/Mutation.v
theories/Spec/Mutation.v
theories/Proofs/Mutation.v
theories/Props/Mutation.v
theories/Model/Symmetry.v
theories/Props/Symmetry.v
theories/Model/Callbacks.v
theories/Props/Callbacks.v
theories/Model/Constraints.v
theories/Props/Constraints.v
theories/Model/Instantiate.v
theories/Spec/Instantiate.v
theories/Proofs/Instantiate.v
theories/Props/Instantiate.v
theories/Model/RTransforms.v
theories/Proofs/RTransforms.v
theories/Props/RTransforms.v
theories/Model/Discretization.v
theories/Proofs/Discretization.v
theories/Props/Discretization.v
theories/Model/Choice.v
theories/Proofs/Choice.v
theories/Props/Choice.v
theories/Model/Tabu.v
theories/Props/Tabu.v
theories/Model/Sequences.v
theories/Spec/Sequences.v
theories/Proofs/Sequences.v
theories/Props/Sequences.v
theories/Model/Benchmark.v
theories/Spec/Benchmark.v
theories/Proofs/Benchmark.v
theories/Props/Benchmark.v
theories/Model/Execution.v
theories/Proofs/Execution.v
theories/Props/Execution.v
theories/Model/Recast.v
theories/Spec/Recast.v
theories/Proofs/Recast.v
theories/Proofs/BatchRecast.v
theories/Props/Recast.v
theories/Model/Nsga2.v
theories/Model/Hypervolume.v
theories/Model/HypervolumePareto.v
theories/Spec/Nsga2.v
theories/Spec/Hypervolume.v
theories/Spec/HypervolumePareto.v
theories/Proofs/Nsga2.v
theories/Proofs/HyperMeasure.v
theories/Proofs/Hypervolume.v
theories/Proofs/HyperUnion.v
theories/Proofs/HypervolumePareto.v
theories/Props/Nsga2.v
theories/Props/Hypervolume.v
theories/Props/HypervolumePareto.v
theories/Model/Mutator.v
theories/Spec/Mutator.v
theories/Proofs/Mutator.v
theories/Props/Mutator.v
theories/Model/OnePlusOne.v
theories/Spec/OnePlusOne.v
theories/Proofs/OnePlusOne.v
theories/Props/OnePlusOne.v
theories/Model/MutationRate.v
theories/Props/MutationRate.v
theories/Model/PopSize.v
theories/Model/Tbpsa.v
theories/Spec/PopSize.v
theories/Proofs/PopSize.v
theories/Proofs/Tbpsa.v
theories/Props/PopSize.v
theories/Model/Pso.v
theories/Spec/Pso.v
theories/Proofs/Pso.v
theories/Props/Pso.v
theories/Model/Chain.v
theories/Spec/Chain.v
theories/Proofs/Chain.v
theories/Props/Chain.v
theories/Model/Portfolio.v
theories/Spec/Portfolio.v
theories/Proofs/Portfolio.v
theories/Props/Portfolio.v
theories/Model/Split.v
theories/Spec/Split.v
theories/Spec/Recombine.v
theories/Proofs/Split.v
theories/Proofs/Recombine.v
theories/Props/Split.v
theories/Props/Recombine.v
theories/Model/Select.v
theories/Spec/Select.v
theories/Proofs/Select.v
theories/Props/Select.v
theories/Model/Cga.v
theories/Spec/Cga.v
theories/Proofs/Cga.v
theories/Props/Cga.v
theories/Model/Spsa.v
theories/Spec/Spsa.v
theories/Proofs/Spsa.v
theories/Props/Spsa.v
theories/Model/Cma.v
theories/Spec/Cma.v
theories/Proofs/Cma.v
theories/Props/Cma.v
theories/Model/MetaModel.v
theories/Spec/MetaModel.v
theories/Proofs/MetaModel.v
theories/Props/MetaModel.v
theories/Model/Emna.v
theories/Spec/Emna.v
theories/Proofs/Emna.v
theories/Props/Emna.v
theories/Model/NoisyBandit.v
theories/Spec/NoisyBandit.v
theories/Proofs/NoisyBandit.v
theories/Props/NoisyBandit.v
theories/Model/Delegate.v
theories/Spec/Delegate.v
theories/Proofs/Delegate.v
theories/Props/Delegate.v
theories/Model/OneShot.v
theories/Spec/OneShot.v
theories/Proofs/OneShot.v
theories/Props/OneShot.v
theories/Model/CoreFuncs.v
theories/Spec/CoreFuncs.v
theories/Proofs/CoreFuncs.v
theories/Props/CoreFuncs.v
theories/Model/Artificial.v
theories/Spec/Artificial.v
theories/Proofs/Artificial.v
theories/Props/Artificial.v
theories/Model/Experiment.v
theories/Spec/Experiment.v
theories/Proofs/Experiment.v
theories/Props/Experiment.v
theories/Model/DataParam.v
theories/Spec/DataParam.v
theories/Proofs/DataParam.v
theories/Props/DataParam.v
theories/Model/Games.v
theories/Spec/Games.v
theories/Proofs/Games.v
theories/Props/Games.v
theories/Model/Helpers.v
theories/Spec/Helpers.v
theories/Proofs/Helpers.v
theories/Props/Helpers.v
theories/Model/RandomState.v
theories/Spec/RandomState.v
theories/Proofs/RandomState.v
theories/Props/RandomState.v
theories/Model/HyperOpt.v
theories/Spec/HyperOpt.v
theories/Proofs/HyperOpt.v
theories/Props/HyperOpt.v
theories/Model/ConstraintLayer.v
theories/Spec/ConstraintLayer.v
theories/Proofs/ConstraintLayer.v
theories/Props/ConstraintLayer.v
theories/Model/WinRates.v
theories/Spec/WinRates.v
theories/Proofs/WinRates.v
theories/Props/WinRates.v
theories/Model/NamedPortfolios.v
theories/Spec/NamedPortfolios.v
theories/Proofs/NamedPortfolios.v
theories/Props/NamedPortfolios.v
theories/Model/Msr.v
theories/Spec/Msr.v
theories/Proofs/Msr.v
theories/Props/Msr.v
theories/Model/Tuned.v
theories/Spec/Tuned.v
theories/Proofs/Tuned.v
theories/Props/Tuned.v
theories/Model/Tables.v
theories/Spec/Tables.v
theories/Proofs/Tables.v
theories/Props/Tables.v
theories/Model/Bayes.v
theories/Spec/Bayes.v
theories/Proofs/Bayes.v
theories/Props/Bayes.v
theories/Model/Lsgo.v
theories/Spec/Lsgo.v
theories/Proofs/Lsgo.v
theories/Props/Lsgo.v
theories/Model/Legends.v
theories/Spec/Legends.v
theories/Proofs/Legends.v
theories/Props/Legends.v
theories/Model/PlotData.v
theories/Spec/PlotData.v
theories/Proofs/PlotData.v
theories/Props/PlotData.v
theories/Model/Compare.v
theories/Spec/Compare.v
theories/Proofs/Compare.v
theories/Props/Compare.v
theories/Model/Solver.v
theories/Spec/Solver.v
theories/Proofs/Solver.v
theories/Props/Solver.v
theories/Model/Restarts.v
theories/Spec/Restarts.v
theories/Proofs/Restarts.v
theories/Props/Restarts.v
theories/Model/Causal.v
theories/Spec/Causal.v
theories/Proofs/Causal.v
theories/Props/Causal.v
theories/Model/PyomoModel.v
theories/Spec/PyomoModel.v
theories/Proofs/PyomoModel.v
theories/Props/PyomoModel.v
theories/Model/DoubleOSeven.v
theories/Spec/DoubleOSeven.v
theories/Proofs/DoubleOSeven.v
theories/Props/DoubleOSeven.v
theories/Model/Pbt.v
theories/Spec/Pbt.v
theories/Proofs/Pbt.v
theories/Props/Pbt.v
theories/Model/Planning.v
theories/Spec/Planning.v
theories/Proofs/Planning.v
theories/Props/Planning.v
theories/Model/Mlda.v
theories/Spec/Mlda.v
theories/Proofs/Mlda.v
theories/Props/Mlda.v
theories/Model/Configured.v
theories/Spec/Configured.v
theories/Proofs/Configured.v
theories/Props/Configured.v
theories/Model/FolderRun.v
theories/Spec/FolderRun.v
theories/Proofs/FolderRun.v
theories/Props/FolderRun.v
theories/Model/PowerSystem.v
theories/Spec/PowerSystem.v
theories/Proofs/PowerSystem.v
theories/Props/PowerSystem.v
theories/Model/ARCoating.v
theories/Spec/ARCoating.v
theories/Proofs/ARCoating.v
theories/Props/ARCoating.v
theories/Model/Smooth.v
theories/Spec/Smooth.v
theories/Proofs/Smooth.v
theories/Props/Smooth.v
theories/Model/Leaderboard.v
theories/Spec/Leaderboard.v
theories/Proofs/Leaderboard.v
theories/Props/Leaderboard.v
theories/Model/ResultTables.v
theories/Spec/ResultTables.v
theories/Proofs/ResultTables.v
theories/Props/ResultTables.v
theories/Model/CrossVal.v
theories/Spec/CrossVal.v
theories/Proofs/CrossVal.v
theories/Props/CrossVal.v
theories/Model/Nash.v
theories/Spec/Nash.v
theories/Proofs/Nash.v
theories/Props/Nash.v
theories/Model/Jittered.v
theories/Spec/Jittered.v
theories/Proofs/Jittered.v
theories/Props/Jittered.v
theories/Model/Torch.v
theories/Spec/Torch.v
theories/Proofs/Torch.v
theories/Props/Torch.v
theories/Model/ParamLog.v
theories/Spec/ParamLog.v
theories/Proofs/ParamLog.v
theories/Props/ParamLog.v
theories/Model/Pymoo.v
theories/Spec/Pymoo.v
theories/Proofs/Pymoo.v
theories/Props/Pymoo.v
theories/Model/AxPlatform.v
theories/Spec/AxPlatform.v
theories/Proofs/AxPlatform.v
theories/Props/AxPlatform.v
theories/Model/Curves.v
theories/Spec/Curves.v
theories/Proofs/Curves.v
theories/Props/Curves.v
theories/Model/Cycling.v
theories/Spec/Cycling.v
theories/Proofs/Cycling.v
theories/Props/Cycling.v
theories/Model/GymMulti.v
theories/Spec/GymMulti.v
theories/Proofs/GymMulti.v
theories/Props/GymMulti.v
theories/Model/Rocket.v
theories/Spec/Rocket.v
theories/Proofs/Rocket.v
theories/Props/Rocket.v
theories/Model/LatexTable.v
theories/Spec/LatexTable.v
theories/Proofs/LatexTable.v
theories/Props/LatexTable.v
theories/Model/MLTuning.v
theories/Spec/MLTuning.v
theories/Proofs/MLTuning.v
theories/Props/MLTuning.v
theories/Model/Control.v
theories/Spec/Control.v
theories/Proofs/Control.v
theories/Props/Control.v
theories/Model/OptGroups.v
theories/Spec/OptGroups.v
theories/Proofs/OptGroups.v
theories/Props/OptGroups.v
theories/Model/PointSets.v
theories/Spec/PointSets.v
theories/Proofs/PointSets.v
theories/Props/PointSets.v
theories/Model/Dispersion.v
theories/Spec/Dispersion.v
theories/Proofs/Dispersion.v
theories/Props/Dispersion.v
theories/Model/ImageLosses.v
theories/Spec/ImageLosses.v
theories/Proofs/ImageLosses.v
theories/Props/ImageLosses.v
