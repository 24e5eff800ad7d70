# Formal model of nevergrad in Rocq (Coq 8.16.1)

## Layout

Every area `X` is split in up to four files under `rocq/theories`:

| file | content |
|---|---|
| `Model/X.v` | definitions only: total, computable Gallina functions that follow the Python code branch by branch. Every definition cites the file and lines in `/repo` it models. No proofs. |
| `Spec/X.v` | the small, independent vocabulary used to state the properties (defined without the model's helpers). |
| `Proofs/X.v` | lemmas. |
| `Props/X.v` | the property theorems only, each closed by `exact lemma`, followed by `Print Assumptions`, and beside each an `Example` showing that a concrete non-trivial case meets the hypotheses. |

## Modelling conventions

* **Exceptions are values.** A Python function that may raise is modelled by a function returning
  `result A := Ok a | Err e` (or by a step function returning a new state *and* an outcome, when the
  state at the moment of the exception matters, which is the case for all failure-atomicity properties).
* **Stateful classes** are records with a step function `step : state -> op -> state * out`;
  properties over all histories are stated over all lists of operations from the initial state.
* **Random draws, executors, internal ask/tell of concrete optimizers, clocks, constraint functions**
  are universally quantified function arguments ("oracles"): the theorems hold for every behaviour.
* **Numbers.** IEEE arithmetic rounding is not modelled. Where the code only compares numbers
  (losses, estimates, bounds, clipping) we use `Z`: every finite double is an integer multiple of
  2^-1074, so scaling by 2^1074 embeds the finite doubles in `Z` with the same order, min, max and clip
  (exactly). Where the code does arithmetic (means, transforms, hypervolume, samplers) we use exact
  rationals `Q` (or the standard library's reals `R` for `tanh`, `arctan`, `exp`, `ln`). Special values
  are modelled explicitly (`NaN`, infinities) where the code branches on them (`tell`, `Encoder`).
* **Objects and identity.** Parameter objects are identified by natural-number uids, handed out
  by a counter when freshness matters. Aliasing that matters (same MultiValue object in archive and
  current bests) is modelled with explicit identifiers.
* Python `dict` keeps insertion order: modelled as association lists with distinct keys.

## Trusted base

* Coq's kernel (8.16.1), and the correspondence between the model and the Python text (by reading;
  nothing is executed here).
* `Print Assumptions` output for each theorem is reproduced below. Theorems over
  `nat`, `Z`, `Q`, lists are "Closed under the global context". Those using `R` depend on the standard
  library's axioms of the classical reals only.
* No axioms, admits, functors, or plugins of our own.

## What is modelled and what is not

Every definition of the model cites the lines it follows. By file of `/repo/nevergrad`:

| file | modelled | not modelled |
|---|---|---|
| `optimization/base.py` | `ask`, `tell`, `suggest`, `recommend`, `num_objectives`, counters, learning curve, penalties given by the user, `minimize` (loop, executor, verbosity left out), archive update (`_update_archive_and_bests`), `pareto_front` subsets | `dump`/`load`, `enable_pickling`, `ConfiguredOptimizer` naming, warnings |
| `optimization/utils.py` | `MultiValue`, `Archive`, `Pruning`, `UidQueue`, `ConstraintManager`, `SequentialExecutor`, `DelayedJob` as oracles | `Normalizer` printing, pickling |
| `optimization/optimizerlib.py` | `_OnePlusOne` adaptation, `_CMA` exchanges, `_PopulationSizeController`, `EDA`, `_TBPSA`, `NoisyBandit`, `_PSO`, `SPSA`, `_Rescaled`, `SplitOptimizer`, `Portfolio`, `ConfPortfolio` budgets, `_MetaModel`, `_Chain`, `cGA`, `_EMNA` (fixed population), NGOpt family: selection and delegation, `ChoiceBase`/`MetaCMA`, the selections of the NgIoh, NgDS and CSEC families and of the table-driven `NGOptF` ones, the registered portfolios (`MultiBFGS`, `SQPCMA`, `Carola3`, `CM`…), `_MSR`, `_FakeFunction`/`_BO` and `_BayesOptim` exchanges | the construction of `NGOptRW`/`AX`/`SMAC3` wrappers, the strategies inside `cma`/`fcmaes`/`scipy`/`nlopt` (arbitrary functions where they are used) |
| `optimization/oneshot.py` | `_RandomSearch`, `_SamplingSearch` asks, budgets, averages, `provide_recommendation` | `convex_limit`, `hull_center`, the scaling laws of the points |
| `optimization/es.py`, `differentialevolution.py` | populations, queues, selections, crossovers, donor formula choices | the draws (arguments) |
| `optimization/mutations.py`, `metamodel.py`, `sequences.py`, `callbacks.py` | all mutations, `learn_on_k_best`, samplers and rescalers, printers/loggers/stoppers | scikit-learn regressions (arbitrary functions), `OptimizationLogger` formatting, `Optimizer` dumps |
| `optimization/externalbo.py` | search space, asked candidates and recorded trials of `HyperOpt` | the package hyperopt (by its documented behaviour) |
| `optimization/recaster.py`, `recastlib.py` | the message thread, sequential and batch recasts as transition systems | the library functions run in the threads (arbitrary) |
| `optimization/multiobjective/*` | `ParetoFront`, `HypervolumePareto`, `HypervolumeIndicator`, NSGA-II ranking and crowding | — |
| `parametrization/*` | `core`, `data`, `container`, `choice`, `_layering`, `_datalayers`, `transforms`, `discretization`, `mutation`, `instantiate`, tabu lists, `helpers` (`flatten`, `Normalizer`, deterministic sampling, `analyze`), `float_penalty`, random states | descriptors, `FolderFunction` subprocesses, casting of numpy types |
| `ops/constraints.py` | the layer which searches for a value satisfying a constraint | — |
| `benchmark/core.py`, `execution.py`, `xpbase.py` | splitting, seeds, resumption, mocked executor, the result of an experiment and its budget accounting | the list of experiments |
| `benchmark/plotting.py` | win rates, ranking, complete runs | figures, cropping of the tables |
| `common/tools.py`, `decorators.py` | iteration helpers, `Sleeper`, `flatten`, `set_env`, `Registry`, `OrderedSet` | — |
| `functions/base.py`, `functionlib.py`, `corefuncs.py`, `utils.py` | symmetries of `ArrayExperimentFunction`, copies, `ArtificialFunction` (blocks, translation, rotation, hashing), the core functions with their optima, transforms of the variables | images, RL, power systems and the other applications |
| `functions/games/game.py` | war, guess who, batawaf, flip | the other games |
| `optimization/base.py` (`compare`, `ConfiguredOptimizer`), `utils.py` (`different_from_defaults` in `common/tools.py`) | comparisons of candidates, names, equality and calls of configured optimizers | — |
| `optimization/utils.py` (Nash, jobs), `parametrization/data.py` (`_constraint_solver`, `smooth_copy`) | most tried points, delayed jobs, restarts of the constraint solver, smoothing | — |
| `optimization/recastlib.py` (restarts, Pymoo), `optimizerlib.py` (`AXP`), `helpers.py` (`TorchOptimizer`) | restart loop, wrappers, what is asked and told | scipy, pymoo, Ax, torch themselves (arbitrary machines) |
| `optimization/callbacks.py` (`ParametersLogger`, `OptimizerDump`, `ProgressBar`) | records, files, flattening, counts | the text of json, tqdm |
| `benchmark/plotting.py` (`XpPlotter`, tables, leaderboard), `benchmark/utils.py`, `__main__` | data of curves, best performances, titles, result tables, latex tables, merging of csv files, selectors | drawing |
| `functions/lsgo`, `causaldiscovery`, `pyomo`, `rl`, `pbt.py`, `unitcommitment`, `fishing`, `stsp`, `mlda`, `powersystems`, `arcoating`, `helpers.py`, `cycling`, `gym/multigym.py`, `rocket`, `ml`, `control` | costs, constraints, dispatches, simulations, cross-validation, folders and commands | data files, physics libraries, gym environments (arbitrary functions) |
| `functions/images/imagelosses.py` | the checks of references, absolute, squared and histogram differences | losses of neural networks and cv2 |
| the rest of `functions/images`, `photonics`, `mixsimulator`, `olympussurfaces`, `iohprofiler`, `topology_optimization`, `ac` | nothing, except where a property names them | their numerical code |
| `common/sphere.py` | stratified points (`jittered`), random and antithetic points (`normalize`, `pure_random`, `antithetic_pm`, `antithetic_order`), `greedy_dispersion` and `dispersion` | the other point sets, the metrics |

Throughout: floating point rounding is not modelled (exact rationals, or reals where a transcendental function
matters; NaN and infinities are modelled where they reach a decision); random draws are arguments, so the
theorems hold for every seed; numpy broadcasting is modelled only where a definition says so.

## Findings

Behaviours of the code which contradict what a user would expect, or limits of a property, proved of the model.

* `C01_raising_ask_counted_refuted`: An ask that raises after a constraint retry has increased num_ask.
* `C03_rejected_suggestion_lost_refuted`: A suggestion violating the constraints is dropped, never asked.
* `C04_list_of_one_refuted`: A loss in a list of length one is not sanitised, and an integer in such a list raises AttributeError.
* `C06_clipped_minimum_refuted`: A re-evaluation beyond +-1e10 is clipped, so the recorded minimum is not the minimum of the told values.
* `C07_out_of_range_refuted`: Re-evaluations beyond +-1e10 are clipped, the recommendation is then not the best told point.
* `C08_best_may_leave_archive_refuted`: A current best need not be in the (non-empty) archive any more: pruning ignores the minimum criterion.
* `C101_integers_refuted`: If all the positions are integers, what is returned is truncated, and legends may be at the same place.
* `C102_failures_refuted`: If all the losses below the limit are equal, an infinite loss becomes as good as they are.
* `C102_labels_refuted`: With labels in common (two tables put one after the other), results without error go away, others appear twice.
* `C102_names_refuted`: Two optimizers may end with the same name, so that their results are mixed.
* `C102_suffix_refuted`: So does the removal of the suffix: DE1 and DE2 become one.
* `C103_recommended_refuted`: The recommendation may not follow the last comparison: a point which was a better winner before stays recommended, although the archive itself now says that the first winner is better. (The square root only matters for the confidence bounds, which are not used here: any function will do.)
* `C104_noisy_refuted`: A point tried twice which violates the constraints, then one which satisfies them: the first one is returned for a function which is not deterministic (the square roots are only used at 0 and at 500000).
* `C105_restart_refuted`: Methods in the unit cube forget a better point found by a previous run.
* `C105_space_refuted`: Even with a single run, pysot recommends a point of the unit cube as if it were in the space of the parameter, and CmaFmin2 maps from the unit cube a point which was not in it (when the parameter is not fully bounded): the recommendation was not evaluated and is worse than all the evaluated points.
* `C106_first_refuted`: The first node never has an arrow: a true graph in which it has one is not the graph of any value of the parametrization. The loop over the pairs starts at 1 instead of 0.
* `C107_descending_refuted`: When only one end is included, the other one is taken instead: the bounds are exchanged but not what is said about them.
* `C107_open_refuted`: An open lower end which is 1 or more is moved down instead of up: the parameter may take a value which is not in the range; and likewise for an open upper end which is -1 or less.
* `C107_tuple_refuted`: A variable indexed by tuples in which there is a string makes all the evaluations fail: its name has single quotes, and the assignments are compiled from a text where the name is between single quotes.
* `C108_reset_refuted`: But the runner resets its agents before each game, and nobody resets the fixed one: the second game may differ.
* `C109_noise_refuted`: So that an optimum (where the gradients are zero) is left even with all the noises at zero: each coordinate of a block moves by the learning rate times the dimension.
* `C109_shared_refuted`: All the workers start with the same array (line 38): two of them may be trained in turn on it, and then the fitness of the first is not the value of its checkpoint.
* `C10_ties_may_empty_refuted`: With ties the archive can be emptied.
* `C110_default_refuted`: Three generators, the default: no plan is feasible as soon as a demand is between 2/3 and 4/5 of the largest one.
* `C110_single_refuted`: One generator: whatever the demands, no plan is feasible.
* `C111_complex_refuted`: The complex variant adds a term for the positions of the cities in the vector, and does not have this invariance.
* `C112_equal_refuted`: Equal configured optimizers can make different optimizers, with different names.
* `C112_given_dict_refuted`: The dict given at creation stays the configuration: modifying it afterwards changes what the optimizers receive, and leaves the name as it was.
* `C112_refused_refuted`: A registration that is refused renames the configured optimizer all the same.
* `C112_two_names_refuted`: A configured optimizer registered twice bears only one of its registered names.
* `C113_source_refuted`: A command that writes in a file without placeholders modifies the instrumented folder.
* `C113_stale_refuted`: Instantiating twice in the same folder: a file without placeholders which is already there is kept even when it is not the one of the instrumented folder.
* `C114_depth_refuted`: [depth] is documented as the number of layers of the networks and [width] as the number of neurons of their hidden layers. The networks have [width] layers, whatever the depth, hidden layers of 14 neurons, and [depth] outputs of which only the first is used; a width of 1 is refused.
* `C117_nan_refuted`: So the file may have a worse loss than one which was submitted.
* `C119_volume_refuted`: The bounds of the pack are not those of the experiment: with the hypervolume method, between limit + 1 and 15 recommendations none of which dominates another always make the evaluation fail.
* `C120_threshold_refuted`: The threshold is not the fourth root of the largest number of trials: a point tried more often can be left out.
* `C121_default_refuted`: ** And the default number of blocks is lost: it is bound to a misspelt name, so that asking for stratified points without blocks raises, whatever the number of points; so does asking for none.
* `C121_endless_refuted`: ** But it does not end otherwise: the least number of points of a class is kept from one draw to the next, and never grows. With at most [K] classes, if a class which is met by the first draws holds less than [n / K] of them, the loop runs forever, whatever is drawn afterwards, even when all the classes get more and more points.
* `C122_bounds_refuted`: ** But when the bound is rounded up in 32 bits, as 0.1 is, the module leaves the bounds after one step of an optimizer which reaches them.
* `C122_first_refuted`: ** But with any other one, the first candidate gets the loss of another point.
* `C123_dump_refuted`: So that a run restarted from the dump made on "tell" has lost the last evaluation
* `C123_every_call_refuted`: A call whose data cannot be written as json leaves no record: not every call is logged
* `C123_hidden_refuted`: A value can be hidden by the element of a list: a parameter named x#0 next to an array x
* `C123_order_refuted`: The constructor documents "order: order of the internal/model parameters to extract", but a logger of order 2 does not log the parameters of order 2
* `C124_constraint_refuted`: And as soon as a point of pymoo violates a constraint checked by ask, ask raises RuntimeError, at any time of the run
* `C124_late_refuted`: But when another ask comes before all of them are told, telling the others raises KeyError
* `C124_penalty_refuted`: The penalty for violated constraints, which tell gives to other optimizers, does not reach pymoo
* `C125_busy_refuted`: When Ax has no trial to give, ask raises
* `C125_refused_refuted`: After an ask which refused candidates, the loss of the next candidate is given to Ax for another trial: one that was refused, or the one of the first candidate
* `C125_suggestion_refuted`: After a suggestion, telling a candidate raises
* `C127_follower_energy_refuted`: C127, refuted: the energy of a follower may increase: braking behind the leader gives energy back, even to an exhausted rider
* `C128_best_refuted`: C128, refuted: "the best episodes are kept": the best one is forgotten, the worst one kept
* `C128_gamma_refuted`: C128, refuted: "the same actions have the same loss for all controls": gamma is ignored when there is a policy; and for sequences it discounts the early rewards
* `C128_history_refuted`: C128, refuted: "the loss of a policy does not depend on earlier evaluations": with stacking, the extended input and the archive are kept from one simulation to the next
* `C128_sparse_evaluation_refuted`: C128, refuted: "the recommendation is evaluated with the penalty it was optimized for"
* `C129_distance_refuted`: C129, refuted: "during the firing the rocket moves for as long as the firing lasts": positions are moved by the time since the launch instead of the time since the last step, so that at a constant velocity it moves nine times too far
* `C129_empty_refuted`: C129: the mass of the rocket never increases while the engine is firing, and is at least that of the rocket without its engine; the checks of the percentages never fail. But at the end the rocket is always lighter than with its empty engine, with which it then falls: the mass jumps up
* `C129_given_refuted`: C129, refuted: "the impulse given to the rocket does not depend on the variables": the last thrust is never used
* `C12_curve_changed_refuted`: The learning curve records the loss of a rejected tell.
* `C12_reference_fixes_objectives_refuted`: A reference point given by mistake with one loss raises, but makes the optimizer single-objective: the corrected call then fails.
* `C130_distinct_refuted`: C130, refuted: two different optimizers may have the same text in the table
* `C130_escape_refuted`: C130, refuted: a percent after a backslash is escaped into a latex comment, which removes the end of the row; ampersands of cells are kept, and add columns
* `C130_names_refuted`: C130, refuted: the names of rows and columns are not treated like the cells: their percents start comments
* `C131_keras_refuted`: C131, refuted for learners which go on from where they are (keras networks): the same object is fitted on each of the folds, so that from the second fold on it has already learnt the validation points. The error here is the number of validation points which were learnt before
* `C131_labels_refuted`: C131, refuted: the labels of the training data are sums of sines for all the artificial datasets, so that the evaluation on the test set of artificialsquare is that of a learner fitted on other labels (here with the sine to the third order)
* `C131_tree_refuted`: C131, refuted for decision trees: the criterion and the ratio of the recommendation are replaced, in the evaluation, by friedman_mse and 1e-5: recommendations with the same depth have the same evaluation
* `C132_default_refuted`: C132, refuted for the default random_state: the simulation said to be deterministic is seeded with None, and two evaluations of the same policy may differ
* `C132_layers_refuted`: C132, refuted: "all the layers are used": layers without a coefficient are ignored, so that the action of a policy with too few coefficients is that of its first layers
* `C134_antithetic_refuted`: C134: "antithetic points are on the sphere" is refuted for odd numbers: the last one is not normalized
* `C135_count_refuted`: C135: "as many points as asked" is refuted for zero
* `C135_farthest_refuted`: C135: "each further point is the farthest of all those which were tried" is refuted: earlier batches are forgotten
* `C136_histogram_refuted`: C136: "the histogram loss is not negative, and zero only for the same histogram" is refuted
* `C13_no_budget_refuted`: Without a budget, candidates violating the registered constraints do reach the archive and the recommendation.
* `C13_tabu_asked_never_archived_refuted`: With a tabu list and a budget, a candidate returned by ask and told is refused by the check made in tell (the ask put it in the list): it never reaches the archive nor the recommendation.
* `C13_zero_penalty_refuted`: During the first half of the budget, the penalty for an explicit violation of a candidate with a non-positive loss is zero.
* `C16_interruption_loses_job_refuted`: An interruption between the submission and the registration loses the job
* `C16_refused_candidate_lost_refuted`: An executor refusing a job loses the candidate asked for it: it is counted in [num_ask], and neither evaluated nor told by the next call
* `C19_double_tell_duplicates_refuted`: Without the protocol (an individual asked twice, then told twice) the same uid is queued twice.
* `C21_injection_exceeds_popsize_refuted`: A candidate told before the initial asks are finished is added to the population, which then exceeds [popsize].
* `C21_population_shrinks_refuted`: Candidates of the initial population told once it is full are both in the population and waiting, so a selection may keep the same one twice and the population shrinks; here (2+2) keeps a single individual although two distinct ones with known losses were available.
* `C22_ask_key_error_refuted`: As many outstanding candidates as individuals are not enough to be safe. With more, two children of one individual are evaluated at the same time, its uid gets twice in the queue, and once a better injected point has removed the individual an ask raises [KeyError].
* `C22_multiobjective_key_error_refuted`: With several objectives, injecting a Pareto point while the individual to remove was itself injected raises [KeyError]: the lineage of an injected individual is not its key.
* `C23_subset_distinct_refuted`: The subsets are drawn with replacement: the same point may come twice.
* `C25_beyond_refuted`: A point beyond the reference makes the result wrong, possibly negative.
* `C25_ties_refuted`: Four objectives, with ties: the result is not the volume; it is even less than that of one of the points alone.
* `C25_undominated_ties_refuted`: Five objectives, with ties: wrong even when no point dominates another.
* `C26_beyond_first_refuted`: C26, what does not hold. If the first point is beyond the bounds it stays in the list and falsifies the volume: a later point strictly better than the bounds is not kept, and its loss is infinite.
* `C26_first_after_automatic_refuted`: The first point compared with automatic bounds gets minus the volume as loss, even when it is dominated and adds nothing.
* `C26_on_bounds_refuted`: A point on the bounds in one objective is lost, with an infinite loss, even when no point dominates it.
* `C27_cycle_refuted`: With three objectives the comparisons may go round in circles, and then no candidate is ranked nor selected.
* `C27_majority_refuted`: With three objectives, a candidate may win without dominating.
* `C28_bounded_set_then_get_refuted`: With bounds, data which lead out of them are clipped when set: what is read back is not what was set.
* `C29_one_number_for_an_array_refuted`: Which numpy adds to every coordinate.
* `C29_other_structure_breaks_sizes_refuted`: A reference of another structure breaks it: the sizes of the reference are remembered for ever, so that the right number of data is then refused.
* `C29_replaced_subparameter_breaks_sizes_refuted`: Replacing a sub-parameter inside a sub-container leaves the sizes known by the outer one.
* `C30_constant_child_is_frozen_refuted`: A root constant spawns itself: a frozen one remains so.
* `C31_given_arrays_are_shared_refuted`: Two parameters which received the same array (of floats) share it: writing in it changes the value of both; even if they are frozen.
* `C31_sample_changes_and_shares_constants_refuted`: The sample of a container holds the constants of the original, not copies. Sampling a child resets their generation and lineage: the child is changed by it, and the two share the constant afterwards.
* `C31_wrapped_objects_are_shared_refuted`: A copied constant wraps the object of the original: changing it in place through the child changes the parent.
* `C32_failed_set_changes_value_refuted`: A mismatch below, or a constant set to another value, is found after other entries were already set.
* `C34_failed_set_bounds_changes_the_value_refuted`: A failed [set_bounds] leaves the layer: the value is then silently changed by the next reading.
* `C34_negative_multiplier_bounds_refuted`: With a negative multiplier above the bounds, the announced bounds are swapped, and the values are not within them.
* `C34_nested_bounds_can_raise_refuted`: Bounds above bounds: reading may raise, when the outer bounce leaves the inner bounds.
* `C35_margin_refuted`: With a margin, numbers far from zero are not recovered.
* `C36_base_one_refuted`: Powers lose the sign, and an exponent layer turns a non-positive value into nan without raising; base 1 is accepted although it is not invertible.
* `C36_negative_power_refuted`: Powers lose the sign, and an exponent layer turns a non-positive value into nan without raising; base 1 is accepted although it is not invertible.
* `C36_nonpositive_exponent_refuted`: Powers lose the sign, and an exponent layer turns a non-positive value into nan without raising; base 1 is accepted although it is not invertible.
* `C36_partly_zero_refuted`: A zero among the factors is accepted, and loses the coordinate.
* `C37_negated_integer_is_constant_refuted`: The opposite of a bounded integer parameter: whatever its raw value the value read is -10, as the bounds are swapped.
* `C37_no_integer_in_bounds_refuted`: Bounds without an integer between them: the value is out of bounds.
* `C39_refused_set_changes_refuted`: A refused set may change the value of options, hence the value read.
* `C39_repetitions_refuted`: Repetitions over parameters share the options: setting (3, 5) reads (5, 5).
* `C39_wrong_length_refuted`: A set of a wrong number of values is refused, but then the choice reads these values.
* `C39_zero_draw_refuted`: Options of probability zero are never drawn, but by the draw 0 (of probability about 2^-53).
* `C40_not_idempotent_refuted`: Asking twice about the same value: the answer changes.
* `C40_shorter_refuted`: After reducing the length, some values stay in the list for ever: with length 2, the values 1 and 2, then length 1, the value 2 is refused whatever happens next.
* `C40_violating_recorded_refuted`: A value violating the registered constraints enters the list, and pushes out older values.
* `C44_constant_refuted`: A coordinate where all points agree is divided by zero (in particular with a single point).
* `C45_negative_index_refuted`: Splitting in zero parts loses the experiments silently; a negative index is accepted and selects nothing, but counts.
* `C45_seeded_length_refuted`: Otherwise it is not: it is computed on the plan without seed.
* `C45_zero_parts_refuted`: Splitting in zero parts loses the experiments silently; a negative index is accepted and selects nothing, but counts.
* `C46_not_recognized_refuted`: An experiment whose process function raised is run again although it had completed, and an interrupted experiment that is not recognized when its plan is generated again starts from scratch.
* `C46_process_refuted`: An experiment whose process function raised is run again although it had completed, and an interrupted experiment that is not recognized when its plan is generated again starts from scratch.
* `C47_raising_refuted`: A job that raises blocks the others, as it stays first in the queue.
* `C47_read_twice_refuted`: The result of a job can be read only once in steady mode.
* `C48_late_exit_blocks_refuted`: Or the next ask never returns
* `C48_late_exit_refuted`: The thread may still be alive just after the library function returned: a tell is then archived although nobody receives it, and restoring raises.
* `C48_penalty_refuted`: With a constraint violation penalty the replay uses the loss without it, and may raise.
* `C48_pending_refuted`: Pickled after the end with a candidate left to tell: restoring draws once more, and the next candidates differ.
* `C48_refused_candidate_refuted`: A candidate refused by the constraints is replayed with None as loss, which stops the restored library: it raises or gives random points, where the original goes on.
* `C48_told_again_refuted`: Telling a candidate again is refused, but changes the loss used by the replay.
* `C49_empty_batch_refuted`: An empty batch: the ask raises IndexError and the following ones never return.
* `C49_refused_candidate_refuted`: A candidate of a batch refused by the constraints is never told: once the other ones are handed out and told, nothing more can be done.
* `C50_grouper_zero_refuted`: Groups of 0: all the elements are lost
* `C51_removed_raises_refuted`: If the body removes a named variable, the exit raises whatever the body did.
* `C52_stale_info_refuted`: An object registered without information may have the one of another object.
* `C53_max_min_swapped_refuted`: "max" takes the smallest, "min" the largest
* `C53_mix_rotation_refuted`: "max" takes the smallest, "min" the largest
* `C53_rotated_refuted`: The rotated one is not a coordinatewise mix
* `C53_voronoi_one_refuted`: Voronoi without a shape raises in dimension 1
* `C54_axis_one_refuted`: An axis of size two at most cannot be used with a window of more than one element, and one of size one raises.
* `C54_jumping_size_one_refuted`: Chunks of one slice cannot be asked for: [size=1] raises at each mutation
* `C54_jumping_whole_refuted`: And a chunk which covers the axis raises
* `C54_negative_axis_refuted`: A negative axis is accepted and nothing of the first array is left.
* `C55_other_bounds_refuted`: Only the bounds of the first coordinate are used: with other bounds on the second one the point given to the function may be out of the domain.
* `C56_several_objectives_refuted`: With several objectives the stopper makes every ask raise.
* `C56_window_refuted`: The window of asks without improvement is not enough: one more is needed.
* `C57_last_newline_refuted`: A commented line anywhere in the file removes its last newline.
* `C57_shared_names_refuted`: The same name in two files is not detected, although the documentation requires unique names.
* `C57_upper_case_refuted`: Arrays written in files whose suffix is in upper case keep square brackets, although such files are instantiated like the others.
* `C59_nan_refuted`: A constraint which returns nan is not met, but counts as satisfied and is not penalised.
* `C59_nested_refuted`: The penalty ignores the constraints of the sub-parameters: it may be zero on a parameter which does not satisfy its constraints.
* `C59_refused_kept_refuted`: But kept: the penalties then decrease.
* `C60_collision_refuted`: Otherwise an entry is lost: with a dot in a key, or an integer and a string key.
* `C60_empty_refuted`: Two structures with the same leaves may differ: empty containers disappear.
* `C61_late_silent_refuted`: When more evaluations than the interval were told since the last print (several workers and a callback on ask), it does not print, until the seconds have passed.
* `C61_prints_each_tell_refuted`: Called after each tell, it prints each time, whatever the interval of tells asked for.
* `C63_default_arity_refuted`: With the default arity instead of that of the index, the inverse is not an inverse.
* `C64_binning_refuted`: Among parameters, setting the data falls back on the first option that accepts the value: the second option is never chosen, and the value of the first is lost.
* `C64_unordered_refuted`: The mutation of an unordered choice fails if some option has parameters (or if the transitions have).
* `C65_coordinatewise_refuted`: With more bins the centres are still those of two bins: an untouched coordinate of bin two or more goes to the last bin (the centre beyond the last one is replaced by the largest float [top])
* `C65_dimension_one_refuted`: Dimension one: these two mutations draw a normal number, possibly in the same bin
* `C65_doerr_small_refuted`: So that it may leave every coordinate in its bin, as soon as two numbers of opposite signs share a bin
* `C65_high_arity_refuted`: More than 499 bins: the chosen coordinates are drawn anew, the others are untouched
* `C66_doerr_dimension_one_refuted`: In dimension one the decay factor is minus one, and exploring twice the same rate divides by zero
* `C66_doerr_twice_refuted`: Asking again before the tell of an explored rate fails: for instance when the first candidate violates a constraint
* `C67_eda_stuck_refuted`: If a candidate without step size (repaired by the constraint solver) is the best of its generation, then (without population size adaptation) this tell and all the later ones raise a KeyError, as long as nothing better is told.
* `C67_frozen_refuted`: It does happen that the step size becomes zero: if the user tells (or suggests) the initial point and it is the best of its generation, then every candidate asked later is this point, for ever.
* `C67_minimal_refuted`: [initial_popsize] is documented as "initial (and minimal) population size"; it is not minimal when it is larger than the dimension.
* `C67_solver_refuted`: A candidate repaired by the constraint solver has no step size: if it is among the best of its generation, the tell which completes the generation raises a KeyError.
* `C68_arctan_pole_refuted`: With the default transform (arctan, which maps to the open interval) the clipped position may be the end of the interval, which no data has, and is transformed back to an infinite value (a number around -1.6e16 in floating point), whatever the inertia at least 1/2.
* `C68_ask_key_error_refuted`: With more outstanding candidates than particles (more workers than [popsize]) an ask may fail.
* `C68_best_penalty_refuted`: The penalty of a candidate which violates the constraints is forgotten once it is the best point: the first candidate has loss 1 and penalty 100, the second one has loss 5 and no penalty, the swarm stays attracted by the first one.
* `C68_personal_best_injected_refuted`: A particle told without being asked is not recorded as its own best: its child, although worse, becomes the personal best of the particle.
* `C69_budgets_sum_refuted`: The sum may exceed the budget: the last optimizer always has 4 at least.
* `C69_nested_refuted`: Chains of chains share the label: the outer chain overwrites it and the inner one tells the wrong optimizer, so a chain does not satisfy the hypothesis [C69_own] is about for the level above it.
* `C69_over_budget_refuted`: Without crossing, beyond the budget, the candidates of the last optimizer are labelled as those of the first one: nobody is told their losses.
* `C69_rejected_refuted`: A candidate refused by the constraints may give the turn to the next optimizer before the end of the budget of the previous one.
* `C69_suggestion_refuted`: Without crossing, nobody is told the loss of a suggestion, nor of a candidate that was not asked.
* `C69_tell_accepted_refuted`: A sub-optimizer that does not accept foreign points makes [tell] raise, after the previous ones were told; the same candidate can be told again, and is then told twice to them.
* `C70_asked_accepted_refuted`: Hence a third optimizer is told as new a candidate it proposed: if all refuse such candidates, the first tell of the third optimizer raises.
* `C70_choice_parallel_refuted`: The warm-up does not always end with a choice: see [C70_never_chosen]; here three optimizers and two workers.
* `C70_late_tell_refuted`: After the choice, the tell of a candidate of another optimizer is refused if the chosen one refuses it.
* `C70_second_sampled_refuted`: The second optimizer does not start with a sample although "all but the first" should.
* `C70_sub_budget_parallel_refuted`: With more workers than optimizers, an optimizer may be asked more than its budget.
* `C70_turns_refuted`: With a warm-up ratio of 1, there may be fewer turns than workers.
* `C71_num_vars_refuted`: Empty groups may be dropped without error.
* `C71_retry_refuted`: A tell which is refused by the second optimizer was made to the first one; made again, it fails for another reason: the candidate is forgotten.
* `C71_solved_refuted`: The tell of a candidate repaired by the constraint solver fails.
* `C72_shift_refuted`: With a shift, a point told is not translated back: the optimizer would not propose it.
* `C73_container_noise_refuted`: But a container is mutated with more than that noise: its parts are mutated by themselves, then by the noise of the whole, so that each moves by the sum of two draws.
* `C74_no_budget_refuted`: Without a budget, NGOpt works exactly for continuous problems with noise and for discrete problems with an arity and no noise; for all the others the first [ask] raises an AssertionError.
* `C74_noise_refuted`: It is not so for integer variables (with rounding and without arity).
* `C74_one_variable_refuted`: This is false with noise, and for older variants.
* `C75_learning_refuted`: With the default arity of 500, and at most 40 workers, nothing can be learnt.
* `C76_asked_again_refuted`: Asking twice (as when a candidate violates a constraint and another one is asked for) moves the centre again, along the new direction, with the losses of the old one.
* `C76_suggestion_refuted`: A point which is told (for instance after [suggest]) before the first ask spoils everything: whatever happens next, all the candidates are NaN.
* `C77_penalties_refuted`: The strategy does not see the penalties: what it is told are the losses before penalties.
* `C77_told_twice_refuted`: A candidate told twice before the batch is full appears twice with its last loss.
* `C78_degree_one_refuted`: With degree 1 in dimension 1, one point is enough to consult the metamodel, but it never proposes anything.
* `C79_isotropic_refuted`: The other way round: the documented "isotropic" distribution gets a scale for each coordinate, and the separable one a single scale, from the first generation on.
* `C79_small_budget_refuted`: With a budget of 1, 2 or 3, the last tell of the budget raises ZeroDivisionError, whatever is told.
* `C82_rejected_refuted`: Without the hypothesis on the constraints the design is not followed and the budget is not available: the rejected points use up the sampler, after which ask returns children of the parametrization (here candidate 99), although fewer asks than the budget have returned.
* `C83_bentcigar_far_refuted`: In dimension 2, the values of [bentcigar] tend to its minimum, 0, far from the optimum along the positive first axis: the exponent there is 1 - sqrt(x) / 2, because coordinates are numbered from 0 in a formula which numbers them from 1.
* `C83_hm_minimum_refuted`: [hm] has no value at its optimum, the origin, nor at any point with a coordinate 0; it is positive where it has one.
* `C83_illcond_minimum_refuted`: [deceptiveillcond] has no minimum: finite values are positive and as small as one wishes, and the value at the origin is infinite.
* `C83_linear_minimum_refuted`: Without a minimum: [slope] (any real is a value), [linear] and [genzcornerpeak] (bounds which are not reached).
* `C83_rosenbrock_one_variable_refuted`: Rosenbrock's function of one variable is 0 everywhere.
* `C83_slope_minimum_refuted`: Without a minimum: [slope] (any real is a value), [linear] and [genzcornerpeak] (bounds which are not reached).
* `C83_styblinski_tang_positive_refuted`: Styblinski-Tang: the constant added to "return a positive value" (corefuncs.py:82-83) is slightly too small; the minimum is between -0.00018 and -0.00017 per coordinate.
* `C84_hashing_refuted`: With [hashing], the parametrization has one variable: a function of more than one useful variable cannot be called.
* `C84_zero_pen_optimum_refuted`: But the origin of the transformed space is the optimum of the core function: with [zero_pen], the sphere is worth more than 249 at its optimum and 1 at distance 1, whatever the translation.
* `C85_same_name_refuted`: So a parametrization set by the user under the name it had is silently lost: the copy, said equivalent, has another dimension.
* `C86_sticky_refuted`: The error of a run stays when the experiment is run again and goes well: it is never set back to "".
* `C87_array_sampling_refuted`: "This is activated by default if both bounds are provided": not for an array given its two bounds and its shape, whose samples never depend on the uniform draw.
* `C87_bounds_twice_refuted`: Setting bounds a second time raises [AttributeError] instead of replacing them, and leaves the parameter without bounds.
* `C87_log_disorder_refuted`: A logarithmic scalar whose bounds are given in the wrong order is accepted, where a scalar raises.
* `C87_small_exponent_refuted`: Exponents under 1 are allowed, but bounds cannot be combined with them: [set_mutation] raises, and the parameter has lost its bounds.
* `C88_flip_empty_hand_refuted`: So a player can get rid of every card first and lose: here the game goes on and player 1 is declared the winner.
* `C88_flip_match_refuted`: Cards match when the card played is the same or the next one: the relation is not symmetric, a 4 goes on a 3 but a 3 does not go on a 4, although the comments of the game and the circular distance suggest both.
* `C88_guesswho_odds_refuted`: A question about [c] of the [n] cards should be answered yes for [c] of the [n] secrets. The code answers yes for [c + 1] of the draws: with an odd number of cards the dichotomic player keeps the smaller part too often.
* `C89_continuous_refuted`: It is said to be continuous although its only values are options, when these are drawn at random.
* `C89_deterministic_refuted`: But a value that was read before, at random, stays in the block and after it.
* `C89_forward_inside_refuted`: With constraints, it can leave the unit cube.
* `C89_two_dimensions_refuted`: After an array with two dimensions and bounds, [forward] gives up half-way and transforms again what was already transformed: it does not undo [backward].
* `C90_sigma_refuted`: C90 nor does seeding an array determine what follows, if its standard deviation is then replaced by a parameter: this one gets its generator from the global one.
* `C90_sub_seed_refuted`: C90 seeding an element of a container before the container is of no use: the first read of the container's random state gives the element an other generator, with a seed from the global one.
* `C91_sigma_refuted`: So the standard deviation given to a parameter is not that of its mutations, once it is in an instrumentation: whatever the number of steps, some depth has more.
* `C92_constant_refuted`: A constant argument: candidates are handed out, none can be recorded.
* `C92_labels_refuted`: An instrumentation inside a choice uses the labels of the outer one: the optimizer cannot be created.
* `C92_nested_choice_refuted`: A choice inside a choice: the value of the inner one is recorded as if it were an index.
* `C92_rounded_refuted`: A choice between an integer and a log-scalar: the draw of the log-scalar is given to the integer, which rounds it.
* `C92_unbounded_refuted`: Scalars without both bounds: the optimizer cannot be created, though the code has a distribution for them.
* `C92_upper_bound_refuted`: The upper bound of an integer scalar is never handed out, though its value is allowed.
* `C93_frozen_refuted`: Not guaranteed: a frozen parameter can be read. The search is done, then the read raises; the parameter is left as it was.
* `C93_many_refuted`: Not guaranteed beyond 15 points: that the search with several constraints stops at a point which satisfies them, or returns it. Point 17 satisfies both, and is not kept: one constraint being satisfied by all the first points, no volume is below the bounds.
* `C93_own_refuted`: Not guaranteed: with an optimizer which recommends a point of its own (CMA, TBPSA, EDA, BO...: every one which returns an array), the read raises after the first point, whatever this point, as soon as the budget is two.
* `C93_refused_refuted`: Not guaranteed: a refused assignment has no effect. It drops the value which was found, and the parameter can no longer be read.
* `C93_sign_refuted`: Not guaranteed: that a constraint means the same whether it is registered as a layer or not. [register_cheap_constraint] reads a positive number as satisfied, with [as_layer=True] as missed; and a negative number the other way round.
* `C93_worse_refuted`: Not guaranteed: the value misses the constraint by less than the one it replaces. The latter is not among the points of the search.
* `C94_add_refuted`: Not guaranteed: that the rates of two optimizers add to one. An optimizer which wins in each case it has a run in comes after one it has beaten each time.
* `C94_complete_refuted`: Not guaranteed: that the optimizers kept with [complete_runs_only] "have run on all settings", when none has.
* `C94_infinite_refuted`: Not guaranteed with infinite losses (kept with --nolimit): an optimizer which had a run is said to have played zero case, and its column has no rate, not even against itself.
* `C94_majority_refuted`: Not guaranteed: "The algorithm which performs better than all other algorithms comes first". 0 beats each of the others in three cases of five, and 1 comes first.
* `C95_announced_refuted`: Hence none contains the local search it announces.
* `C95_carola3_pair_refuted`: With two workers and a budget of at least 24, each third ask fails.
* `C95_cm_budget_refuted`: Competence maps: the choice; the optimizer chosen alone is given twice the budget, and is never reconsidered within the budget.
* `C95_sqrt_refuted`: The versions with a number of workers at least 1 + sqrt(budget) are a Hammersley search under a budget of 156.
* `C96_candidate_refuted`: Refuted: the attribute [loss] of a candidate is the loss which was told for it. It is the loss told to the last copy.
* `C96_own_refuted`: Refuted: telling a candidate succeeds when the copy which proposed it accepts it. Copies which know their own candidates only ([s]) refuse the others.
* `C96_weighted_refuted`: ** Refuted: each copy is told the sum of the objectives with its own weights
* `C97_multiobjective_refuted`: "NgIohTuned will delegate to DE in the case of multi-objective functions" (docs/optimization.rst:286-287) holds for its ancestors, not for it: it goes on with one-point-at-a-time methods on the hypervolume.
* `C97_one_variable_refuted`: A meta-model "is always added to a (1+1) in dimension 1" (optimizerlib.py:2190-2192), but not that of NgIohTuned: from 2001 evaluations it uses CMA-ES, whose package has no dimension 1.
* `C97_tuned_refuted`: "NgIohTuned works for every problem with a budget" is false.
* `C98_reproducible_refuted`: "The same seed gives the same run" is false for them: e.g. with 2 variables and 100 evaluations.
* `C99_batches_refuted`: When two points are asked before their losses are told, a batch is told in pieces, and the package is asked for the next batch in between.
* `C99_bo_latest_refuted`: So a later, smaller loss for the same point is ignored.
* `C99_doe_refuted`: Below, it has 5 points, which may be more than the budget: the package is then never told anything before the end.
* `C99_suggested_refuted`: A point which the user suggested gets its loss refused, always, and the package never hears of it.

Noticed while reading, not stated as theorems:

* `TellNotAskedNotSupportedError` is raised after the archive was updated; EDA, and others which refuse such tells, raise for suggestions.
* `pareto_front()` returns the internal list; the entries of multi-objective losses are not clipped.
* Telling the same parameter object twice overwrites the loss it carries.
* The lognormal mutation, smoothing and the shift of `Rescaled` use the global numpy random state.
* `DE(recommendation="mean")` raises `KeyError`; the scatter of EDA is not divided by mu; EMNA uses losses without penalties.
* `ConfPortfolio(no_crossing=True)` is ignored; nested portfolios share the label `optim_index`.
* `SplitOptimizer` changes the user's own sub-parameters (`function.deterministic`, random state).
* After a one-dimensional use the CMA configuration is switched to fcmaes for everyone; `ParametrizedCMA(popsize=1)` has no parents.
* The `eps` of bounded scalars vanishes for bounds beyond 2^14; `Int(deterministic=False)` mutates the root's data in place.
* `register_cheap_constraint(as_layer=True)` uses another sign convention; `tabu_set` and `tabu_list` are shared by copies.
* Resuming an `Experiment` suggests its suggestions again.
* The automatic scale of one-shot optimizers is infinite in dimension 1 and zero (autotune) for a budget of 1.

## Print Assumptions, theorem by theorem

Output of `Print Assumptions` for every theorem of the manifest, grouped by result.

**Closed under the global context** (897 theorems):
`C01_counters`, `C01_raising_ask_counted_refuted`, `C01_retries_not_counted`, `C02_outstanding`, `C02_second_tell_not_asked`, `C03_each_exactly_once`, `C03_last_in_first_out`, `C03_rejected_suggestion_lost_refuted`, `C04_forwarded_loss`, `C04_list_of_one_refuted`, `C04_recorded_loss`, `C05_other_number_rejected`, `C05_same_number`, `C05_same_number_accepted`, `C06_bounds_ordered`, `C06_clipped_minimum_refuted`, `C06_clipping_exact`, `C06_statistics_exact`, `C06_variance_exact`, `C06_variance_nonneg`, `C06_variance_zero_iff_constant`, `C07_default_pruning_applies`, `C07_out_of_range_refuted`, `C07_recommendation_full_interface`, `C07_recommendation_is_best_told`, `C08_best_may_leave_archive_refuted`, `C08_best_minimises_criterion`, `C08_identifiers_valid`, `C09_archive_exact`, `C09_default_pruning_applies`, `C100_split`, `C101_best`, `C101_integers_refuted`, `C101_mean`, `C101_unchanged`, `C101_unique`, `C101_unsorted`, `C102_all_above`, `C102_errors`, `C102_failures_refuted`, `C102_labels_refuted`, `C102_names`, `C102_names_distinct`, `C102_names_refuted`, `C102_no_error_column`, `C102_no_nan`, `C102_normalized`, `C102_order`, `C102_pattern_errors`, `C102_suffix_refuted`, `C102_unit`, `C103_afresh`, `C103_kept`, `C103_losers`, `C103_recommended`, `C103_recommended_refuted`, `C103_unknown_losers`, `C103_winners`, `C104_feasible`, `C104_least`, `C104_noisy_refuted`, `C104_trials`, `C105_best`, `C105_budget`, `C105_direct_search`, `C105_no_budget`, `C105_restart_refuted`, `C105_single_run`, `C105_space_refuted`, `C106_first_refuted`, `C106_idle`, `C106_links`, `C106_nodes`, `C106_oriented`, `C106_reachable`, `C107_closed`, `C107_descending`, `C107_descending_refuted`, `C107_history`, `C107_names`, `C107_open`, `C107_open_refuted`, `C107_runs`, `C107_tuple_refuted`, `C108_agent`, `C108_fixed`, `C108_means`, `C108_reset_refuted`, `C108_rules`, `C108_run_once`, `C108_stops`, `C108_symmetric`, `C109_fitness`, `C109_loss`, `C109_noise_refuted`, `C109_runs`, `C109_shared_refuted`, `C109_step`, `C109_value`, `C10_below_max_len_unchanged`, `C10_keeps_exactly_the_best`, `C10_never_invents`, `C10_no_ties_exact_number`, `C10_ties_may_empty_refuted`, `C110_cost`, `C110_default_refuted`, `C110_fishing`, `C110_five`, `C110_gap`, `C110_negative`, `C110_penalty`, `C110_populations`, `C110_single_refuted`, `C111_border`, `C111_clusters`, `C111_complex`, `C111_complex_refuted`, `C111_exact`, `C111_more_centers`, `C111_no_center`, `C111_no_city`, `C111_order`, `C111_outside`, `C111_pixel`, `C111_reach`, `C111_sammon`, `C111_summit`, `C111_tour`, `C111_turn`, `C112_config`, `C112_copy`, `C112_create`, `C112_equal`, `C112_equal_refuted`, `C112_given_dict_refuted`, `C112_last_name`, `C112_made`, `C112_name`, `C112_refused_refuted`, `C112_register`, `C112_registry`, `C112_two_names_refuted`, `C113_blank`, `C113_call`, `C113_command_line`, `C113_failure`, `C113_instantiate`, `C113_other_values`, `C113_output`, `C113_source_refuted`, `C113_stale_refuted`, `C114_cheapest`, `C114_consumption`, `C114_depth_refuted`, `C114_hour`, `C114_weights`, `C114_year`, `C116_between`, `C116_kept`, `C116_mean`, `C116_sum`, `C117_best`, `C117_nan_refuted`, `C117_others`, `C117_rounding`, `C117_since_nan`, `C117_table`, `C118_append`, `C118_column`, `C118_drop`, `C118_equivalent`, `C118_lost`, `C118_repeated`, `C118_select`, `C118_unique`, `C119_all`, `C119_alone`, `C119_descriptors`, `C119_held_out`, `C119_plan`, `C119_possible`, `C119_random`, `C119_subset`, `C119_volume_refuted`, `C11_archive_bounded`, `C11_default_thresholds`, `C11_pruning_never_fails`, `C120_job`, `C120_probabilities`, `C120_sample`, `C120_support`, `C120_threshold_refuted`, `C121_balanced`, `C121_default_refuted`, `C121_endless_refuted`, `C121_enough`, `C122_bounds`, `C122_bounds_refuted`, `C122_first`, `C122_first_refuted`, `C122_training`, `C123_dump`, `C123_dump_refuted`, `C123_elements_apart`, `C123_every_call_refuted`, `C123_fields`, `C123_flat_total`, `C123_flattened`, `C123_hidden_refuted`, `C123_lines`, `C123_order_refuted`, `C123_params`, `C123_progress`, `C124_constraint_refuted`, `C124_known`, `C124_late_refuted`, `C124_not_asked`, `C124_penalty_refuted`, `C124_told`, `C124_warmup`, `C125_apart`, `C125_busy_refuted`, `C125_paired`, `C125_refused_refuted`, `C125_suggestion_refuted`, `C126_best`, `C126_budgets`, `C126_drawn`, `C126_first`, `C126_points`, `C126_title`, `C127_again`, `C127_cost`, `C127_fatigue`, `C127_follower_energy`, `C127_follower_energy_refuted`, `C127_formation`, `C127_leader_energy`, `C127_refused`, `C127_result`, `C127_segment`, `C128_actions`, `C128_archive`, `C128_average`, `C128_best_refuted`, `C128_conformant`, `C128_evaluation`, `C128_failures`, `C128_forgotten`, `C128_gamma_refuted`, `C128_history_refuted`, `C128_layers`, `C128_loss`, `C128_sparse`, `C128_sparse_evaluation_refuted`, `C128_sparse_shape`, `C128_suggested`, `C12_curve_changed_refuted`, `C12_reference_fixes_objectives_refuted`, `C12_rejected_tell_no_effect`, `C130_cell`, `C130_columns`, `C130_distinct_refuted`, `C130_escape_refuted`, `C130_extra`, `C130_missing`, `C130_names_refuted`, `C130_rows`, `C130_safe`, `C131_candidate`, `C131_data`, `C131_depth`, `C131_dimension`, `C131_evaluation`, `C131_folds`, `C131_keras_refuted`, `C131_labels_refuted`, `C131_loss`, `C131_new`, `C131_once`, `C131_overfitter`, `C131_tree_refuted`, `C131_unknown`, `C132_activation`, `C132_deeper`, `C132_default_refuted`, `C132_layers_refuted`, `C132_linear`, `C132_loss`, `C132_noise`, `C132_none`, `C132_same`, `C132_seed`, `C132_shapes`, `C132_units`, `C133_again`, `C133_groups`, `C133_seeds`, `C133_unknown`, `C135_count`, `C135_count_refuted`, `C135_farthest`, `C135_farthest_refuted`, `C135_improves`, `C135_late`, `C135_replaces`, `C135_single`, `C136_absolute`, `C136_errors`, `C136_histogram`, `C136_histogram_refuted`, `C136_reference`, `C136_square`, `C13_no_budget_refuted`, `C13_tabu_asked_never_archived_refuted`, `C13_violating_never_archived`, `C13_violating_scalar`, `C13_zero_penalty_refuted`, `C14_evaluations`, `C15_pairing`, `C15_parallelism`, `C16_interrupted`, `C16_interruption_loses_job_refuted`, `C16_no_job_lost`, `C16_refused_candidate_lost_refuted`, `C16_resume`, `C16_resume_timeout`, `C17_fuel_irrelevant`, `C17_never_returns`, `C17_terminates`, `C18_early_stopping`, `C19_ask_takes_oldest`, `C19_asks_cycle`, `C19_contents_exact`, `C19_discard_exact`, `C19_double_tell_duplicates_refuted`, `C20_ordered_set_refines_list`, `C21_ask_succeeds`, `C21_injection_exceeds_popsize_refuted`, `C21_lineage_improves`, `C21_population_shrinks_refuted`, `C21_queue`, `C21_selection`, `C21_size`, `C21_waiting`, `C22_ask_key_error_refuted`, `C22_child_replaces_parent`, `C22_covered_stays`, `C22_injected_replaces_worst`, `C22_multiobjective_key_error_refuted`, `C22_no_failure`, `C22_queue`, `C22_size`, `C22_told_covered`, `C23_best_tentative`, `C23_eps_is_random`, `C23_front`, `C23_mutually_undominated`, `C23_requests_do_not_matter`, `C23_subset`, `C23_subset_distinct_refuted`, `C24_covered`, `C24_undominated_present`, `C25_beyond_refuted`, `C25_cells`, `C25_contribution`, `C25_dominated_ignored`, `C25_exact`, `C25_monotone`, `C25_no_points`, `C25_set_only`, `C25_single`, `C25_ties_refuted`, `C25_undominated_ties_refuted`, `C26_automatic_bounds`, `C26_automatic_loss`, `C26_best_never_decreases`, `C26_best_volume`, `C26_beyond`, `C26_beyond_first_refuted`, `C26_first_after_automatic_refuted`, `C26_front`, `C26_given_bounds`, `C26_improving`, `C26_no_hypervolume`, `C26_not_improving`, `C26_not_improving_finite`, `C26_on_bounds_refuted`, `C27_all_ranked`, `C27_compare`, `C27_cycle_refuted`, `C27_fronts`, `C27_majority_refuted`, `C27_selection`, `C27_trimmed`, `C27_two_objectives`, `C28_bounded_set_then_get_refuted`, `C28_get_changes_nothing`, `C28_get_then_set`, `C28_self_is_zero`, `C28_set_then_get`, `C29_children_have_same_dimension`, `C29_dimension`, `C29_dimension_never_changes`, `C29_one_number_for_an_array_refuted`, `C29_other_structure_breaks_sizes_refuted`, `C29_replaced_subparameter_breaks_sizes_refuted`, `C29_wrong_size_is_ValueError`, `C29_wrong_size_rejected`, `C29_wrong_size_rejected_array`, `C30_children_not_frozen`, `C30_constant_child_is_frozen_refuted`, `C30_freeze_keeps_values`, `C30_frozen_array_never_changes`, `C30_frozen_below_refuses`, `C30_frozen_never_changes`, `C30_frozen_refuses`, `C30_frozen_refuses_values`, `C31_child_changes_keep_parent`, `C31_child_fields`, `C31_child_heritage`, `C31_child_new_value`, `C31_child_value`, `C31_child_values`, `C31_copy`, `C31_copy_changes_keep_original`, `C31_given_arrays_are_shared_refuted`, `C31_parent_changes_keep_child`, `C31_sample`, `C31_sample_changes_and_shares_constants_refuted`, `C31_spawn_succeeds`, `C31_wrapped_objects_are_shared_refuted`, `C32_accepted_values`, `C32_failed_set_changes_value_refuted`, `C32_other_keys_refused`, `C32_other_kind_refused`, `C32_other_length_refused`, `C32_set_then_get`, `C33_add_keeps_order`, `C33_attached_layer_refused`, `C33_copy_same_layers`, `C33_layers_sorted`, `C34_bouncing_reflects`, `C34_clipping_nearest`, `C34_failed_set_bounds_changes_the_value_refuted`, `C34_inside_is_kept`, `C34_negative_multiplier_bounds_refuted`, `C34_nested_bounds_can_raise_refuted`, `C34_reading_is_stable`, `C34_set_accepts_exactly_in_bounds`, `C34_set_bounds`, `C34_transform_idempotent`, `C34_value_within_bounds`, `C36_affine_inverse`, `C36_get_then_set`, `C36_set_then_get`, `C37_integer_bounds_exact`, `C37_integer_nearest`, `C37_negated_integer_is_constant_refuted`, `C37_no_integer_in_bounds_refuted`, `C38_modulo`, `C38_set_moves_little`, `C40_bounded`, `C40_not_idempotent_refuted`, `C40_shorter_refuted`, `C40_tabu`, `C40_violating_recorded_refuted`, `C41_cells`, `C41_history`, `C42_distinct`, `C42_equidistributed`, `C42_hammersley`, `C42_permutations`, `C42_range`, `C43_enough`, `C43_first`, `C44_accepted`, `C44_constant_refuted`, `C44_rescaled`, `C45_disjoint`, `C45_length`, `C45_negative_index_refuted`, `C45_partition`, `C45_seeded_length_refuted`, `C45_split_succeeds`, `C45_zero_parts_refuted`, `C46_not_recognized_refuted`, `C46_outcome`, `C46_process_refuted`, `C46_resumed`, `C46_summaries`, `C46_workers`, `C47_batch`, `C47_earliest`, `C47_evaluated_once`, `C47_one_done`, `C47_order`, `C47_progress`, `C47_raising_refuted`, `C47_read_twice_refuted`, `C47_time`, `C48_finished`, `C48_late_exit_blocks_refuted`, `C48_late_exit_refuted`, `C48_mismatch`, `C48_penalty_refuted`, `C48_pending_refuted`, `C48_refused_candidate_refuted`, `C48_running`, `C48_told_again_refuted`, `C49_answered`, `C49_can_ask_finished`, `C49_empty_batch_refuted`, `C49_losses`, `C49_once`, `C49_refused_candidate_refuted`, `C49_too_many`, `C50_grouper`, `C50_grouper_zero_refuted`, `C50_pairwise`, `C50_roundrobin`, `C51_lower_case`, `C51_removed_raises_refuted`, `C51_restored`, `C52_info`, `C52_lookup`, `C52_register`, `C52_stale_info_refuted`, `C53_apply`, `C53_max_min_swapped_refuted`, `C53_mix`, `C53_mix_rotation_refuted`, `C53_onepoint`, `C53_rotated`, `C53_rotated_refuted`, `C53_twopoints`, `C53_variablewise`, `C53_voronoi`, `C53_voronoi_one_refuted`, `C54_axis_one_refuted`, `C54_crossover`, `C54_jump`, `C54_jumping`, `C54_jumping_legal`, `C54_jumping_size_one_refuted`, `C54_jumping_whole_refuted`, `C54_negative_axis_refuted`, `C54_translation`, `C55_all_patterns`, `C55_distinct`, `C55_domain`, `C55_involution`, `C55_other_bounds_refuted`, `C55_pattern`, `C55_range`, `C56_callback`, `C56_no_improvement`, `C56_no_loss`, `C56_several_objectives_refuted`, `C56_timer`, `C56_timer_first`, `C56_window_refuted`, `C57_convert`, `C57_file_call`, `C57_file_init`, `C57_file_lines`, `C57_finditer`, `C57_folder`, `C57_last_newline_refuted`, `C57_shared_names_refuted`, `C57_sub`, `C57_uncomment`, `C57_uncomment_clean`, `C57_upper_case_refuted`, `C58_advice`, `C58_bounds`, `C58_clip`, `C60_clean`, `C60_collision_refuted`, `C60_empty_refuted`, `C60_flatten`, `C61_exact`, `C61_late_silent_refuted`, `C61_prints_each_tell_refuted`, `C61_seconds`, `C65_coordinatewise`, `C65_coordinatewise_refuted`, `C65_crossover`, `C65_default_num`, `C65_dimension_one_refuted`, `C65_discrete`, `C65_discrete_kept`, `C65_discrete_reaches`, `C65_doerr`, `C65_doerr_small`, `C65_doerr_small_refuted`, `C65_doubledoerr`, `C65_empty`, `C65_high_arity_refuted`, `C65_low_arity`, `C65_no_error`, `C65_portfolio`, `C65_portfolio_default`, `C65_rls`, `C65_rls_reaches`, `C65_roulette`, `C65_roulette_all`, `C65_roulette_empty`, `C65_roulette_zero`, `C66_adaptive`, `C66_adaptive_step`, `C66_annealing`, `C66_annealing_step`, `C66_bso`, `C66_doerr_dimension_one_refuted`, `C66_doerr_greedy`, `C66_doerr_rates`, `C66_doerr_sequence`, `C66_doerr_twice_refuted`, `C66_lognormal`, `C66_no_error`, `C66_sigma`, `C66_sigma_positive`, `C66_velocities_alike`, `C66_velocity`, `C67_constant_losses`, `C67_growth`, `C67_minimal_refuted`, `C67_sizes`, `C68_ask_accepted`, `C68_ask_key_error_refuted`, `C68_asked_inherits`, `C68_best_penalty_refuted`, `C68_global_best`, `C68_injected`, `C68_particle_moves`, `C68_personal_best`, `C68_personal_best_injected_refuted`, `C68_size`, `C68_tell_accepted`, `C69_ask`, `C69_budgets`, `C69_budgets_sum_refuted`, `C69_fed`, `C69_fed_before`, `C69_nested_refuted`, `C69_no_crossing`, `C69_over_budget_refuted`, `C69_own`, `C69_rejected_refuted`, `C69_share`, `C69_suggestion_refuted`, `C69_tell_accepted_refuted`, `C70_ask`, `C70_asked_accepted_refuted`, `C70_choice_parallel_refuted`, `C70_chooses`, `C70_chosen`, `C70_focus`, `C70_late_tell_refuted`, `C70_never_chosen`, `C70_rotation`, `C70_sampled`, `C70_second_sampled_refuted`, `C70_setup`, `C70_setup_errors`, `C70_sub_budget`, `C70_sub_budget_parallel_refuted`, `C70_sub_budget_warmup`, `C70_tell`, `C70_turns_refuted`, `C70_workers`, `C71_ask`, `C71_default`, `C71_max_num_vars`, `C71_num_optims`, `C71_num_vars`, `C71_num_vars_refuted`, `C71_progressive`, `C71_retry_refuted`, `C71_sizes`, `C71_solved_refuted`, `C71_tell`, `C71_tell_new`, `C72_ask`, `C72_function`, `C72_own`, `C72_shift_refuted`, `C72_tell`, `C73_container_noise_refuted`, `C73_mutation`, `C73_recombination`, `C73_recombination_alone`, `C74_metacma`, `C74_no_budget`, `C74_no_budget_refuted`, `C74_noise`, `C74_noise_refuted`, `C74_one_variable`, `C74_one_variable_refuted`, `C74_selection`, `C75_asked`, `C75_distribution`, `C75_draw`, `C75_exact_step`, `C75_flat`, `C75_learning_refuted`, `C75_pairs`, `C75_winner_ahead`, `C76_asked_again_refuted`, `C76_linear`, `C76_recommendation`, `C76_rounds`, `C76_suggestion_refuted`, `C77_batches`, `C77_given`, `C77_learnt`, `C77_parents`, `C77_penalties_refuted`, `C77_told_twice_refuted`, `C78_ask`, `C78_degree_one_refuted`, `C78_ranked`, `C78_schedule`, `C78_trust_region`, `C79_collapse`, `C79_generations`, `C79_isotropic_refuted`, `C79_sizes`, `C79_small_budget_refuted`, `C80_asks`, `C80_exploration_bounded`, `C80_known_points_delay_draws`, `C80_never_fails`, `C80_one_worker`, `C81_failing_selection`, `C81_failing_selection_tell`, `C81_interface`, `C81_penalised_twice`, `C81_retries_multiply`, `C81_several_objectives`, `C81_transparent`, `C82_average`, `C82_capacity`, `C82_design`, `C82_design_determined`, `C82_ignored_rules`, `C82_pairs`, `C82_rejected_refuted`, `C82_within_budget`, `C83_jump`, `C83_jump_valley`, `C83_leadingones`, `C83_onemax`, `C85_added`, `C85_changed_raises`, `C85_copies`, `C85_copy`, `C85_copy_error`, `C85_copy_iff`, `C85_equivalence`, `C85_experiments`, `C85_multi`, `C85_multi_check`, `C85_parametrization`, `C85_reserved_raises`, `C85_same_name_refuted`, `C86_let_through`, `C86_loss`, `C86_not_reached`, `C86_raises`, `C86_sticky`, `C86_sticky_refuted`, `C86_success`, `C86_which`, `C88_flip_empty_hand_refuted`, `C88_flip_ends`, `C88_flip_greedy`, `C88_flip_loss`, `C88_flip_match_refuted`, `C88_flip_move`, `C88_flip_second_seat`, `C88_guesswho_ends`, `C88_guesswho_loss`, `C88_guesswho_odds_refuted`, `C88_guesswho_progress`, `C88_war_cards`, `C88_war_ends`, `C88_war_expressive`, `C88_war_fair`, `C88_war_loss`, `C88_war_size`, `C88_war_takes`, `C88_war_winner`, `C89_analyze`, `C89_continuous`, `C89_continuous_refuted`, `C89_deterministic`, `C89_deterministic_refuted`, `C89_settings_restored`, `C90_apart`, `C90_one_seed`, `C90_reset_copy`, `C90_seeded`, `C90_sigma_refuted`, `C90_stream`, `C90_sub_seed_refuted`, `C90_synchronised`, `C91_mutation_steps`, `C91_nested`, `C91_sampling_steps`, `C91_sigma_refuted`, `C92_asked`, `C92_constant_refuted`, `C92_labels_refuted`, `C92_nested_choice_refuted`, `C92_recorded`, `C92_round_trip`, `C92_rounded_refuted`, `C92_scales`, `C92_unbounded_refuted`, `C92_upper_bound_refuted`, `C93_assign`, `C93_bool`, `C93_frozen_refuted`, `C93_many`, `C93_many_refuted`, `C93_own_refuted`, `C93_refused_refuted`, `C93_satisfied`, `C93_search`, `C93_stable`, `C93_worse_refuted`, `C94_add_refuted`, `C94_aggregate`, `C94_best`, `C94_complete`, `C94_complete_refuted`, `C94_infinite_refuted`, `C94_kept`, `C94_majority_refuted`, `C94_order`, `C94_rates`, `C94_table`, `C95_announced_refuted`, `C95_built`, `C95_carola3`, `C95_carola3_pair_refuted`, `C95_cm`, `C95_cm_and_as`, `C95_cm_budget_refuted`, `C95_multi_discrete`, `C95_named`, `C95_portfolio`, `C95_sqrt_refuted`, `C96_candidate_refuted`, `C96_first`, `C96_hypervolume`, `C96_own_refuted`, `C96_same_ranking`, `C96_single`, `C96_stop`, `C96_weighted_refuted`, `C97_direct_search`, `C97_multiobjective`, `C97_multiobjective_refuted`, `C97_no_budget`, `C97_noise`, `C97_one_variable_refuted`, `C97_one_worker`, `C97_one_worker8`, `C97_restarts`, `C97_selection`, `C97_tuned_refuted`, `C97_unlucky`, `C98_F_reproducible`, `C98_closest_unique`, `C98_many_variables`, `C98_nearest`, `C98_never_used`, `C98_no_budget`, `C98_parallel`, `C98_reproducible`, `C98_reproducible_refuted`, `C99_batches_refuted`, `C99_bo_ask`, `C99_bo_latest_refuted`, `C99_bo_recommend`, `C99_by_batches`, `C99_design`, `C99_doe`, `C99_doe_refuted`, `C99_exactly_once`, `C99_keys`, `C99_no_budget`, `C99_points`, `C99_suggested_refuted`.

**`ClassicalDedekindReals.sig_forall_dec`** (1 theorems):
`C83_rosenbrock_one_variable_refuted`.

**`ClassicalDedekindReals.sig_forall_dec`, `ClassicalDedekindReals.sig_not_dec`, `Classical_Prop.classic`, `FunctionalExtensionality.functional_extensionality_dep`** (104 theorems):
`C100_asymmetry`, `C100_conditioning`, `C100_conflicting`, `C100_conflicting_no_zero`, `C100_indexing`, `C100_irregularity`, `C100_optimum`, `C124_box`, `C125_coordinates`, `C35_backward_forward`, `C35_cauchy`, `C35_forward_backward`, `C35_increasing`, `C35_inside`, `C35_margin_refuted`, `C35_outside`, `C35_tanh_bounds`, `C36_affine`, `C36_base_one_refuted`, `C36_exponentiate`, `C36_negative_power_refuted`, `C36_nonpositive_exponent_refuted`, `C36_partly_zero_refuted`, `C36_reverted`, `C36_stack_get_set`, `C36_stack_set_get`, `C39_frozen`, `C39_history`, `C39_refused`, `C39_refused_set_changes_refuted`, `C39_repetitions_refuted`, `C39_reset`, `C39_reset_probability`, `C39_set_get`, `C39_set_get_parameter`, `C39_wrong_length_refuted`, `C59_monotone`, `C59_nan_refuted`, `C59_nested_refuted`, `C59_penalty`, `C59_refused_kept_refuted`, `C59_unsupported`, `C62_range`, `C62_set_get`, `C64_binned`, `C64_binning_refuted`, `C64_boundary`, `C64_increasing`, `C64_index`, `C64_move_probability`, `C64_mutate`, `C64_refused_index`, `C64_set_get_index`, `C64_uniform`, `C64_unordered`, `C64_unordered_refuted`, `C66_lengler`, `C67_covariance`, `C67_eda_generation`, `C67_eda_stuck_refuted`, `C67_frozen_refuted`, `C67_generation`, `C67_moving`, `C67_no_error_at_ask`, `C67_solver_refuted`, `C68_arctan_pole_refuted`, `C72_default_scale`, `C83_bentcigar_far_refuted`, `C83_conditioning`, `C83_deceptive`, `C83_gaussian_peak`, `C83_ill_conditioned`, `C83_illcond_minimum_refuted`, `C83_linear_minimum_refuted`, `C83_multimodal`, `C83_multipeak`, `C83_step`, `C83_stepellipsoid`, `C87_array_sampling_refuted`, `C87_bounce`, `C87_bounded`, `C87_bounds_twice_refuted`, `C87_construct`, `C87_either_order`, `C87_get_again`, `C87_log`, `C87_log_bounded`, `C87_log_disorder_refuted`, `C87_log_scale`, `C87_log_set`, `C87_sample_around`, `C87_sample_log`, `C87_sample_scalar`, `C87_set`, `C87_set_bounds`, `C87_set_get`, `C87_small_exponent_refuted`, `C89_backward`, `C89_forward_inside`, `C89_forward_inside_refuted`, `C89_fully_bounded`, `C89_roundtrip`, `C89_two_dimensions_refuted`, `C89_unworkable`.

**`ClassicalDedekindReals.sig_forall_dec`, `ClassicalDedekindReals.sig_not_dec`, `FunctionalExtensionality.functional_extensionality_dep`** (46 theorems):
`C115_bare`, `C115_behind`, `C115_front`, `C115_loss`, `C115_range`, `C115_uniform`, `C129_distance_refuted`, `C129_empty_refuted`, `C129_fired`, `C129_first`, `C129_given_refuted`, `C129_impulse`, `C129_length`, `C129_loss`, `C129_masses`, `C129_shift`, `C129_velocity`, `C129_zero`, `C134_antithetic`, `C134_antithetic_refuted`, `C134_order`, `C134_permutations`, `C134_random`, `C134_signs`, `C39_kept`, `C39_positive`, `C39_probabilities`, `C39_sample`, `C39_valid`, `C39_zero_draw_refuted`, `C66_lognormal_odds`, `C66_lognormal_rate`, `C67_test`, `C83_corner_peak`, `C83_hm_minimum_refuted`, `C83_lunacek`, `C84_hashing_refuted`, `C84_noise`, `C84_noise_centred`, `C84_noise_dissymmetric`, `C84_noise_free`, `C84_optimum`, `C84_optimum_untransformed`, `C84_penalty`, `C84_useless`, `C84_zero_pen_optimum_refuted`.

**`ClassicalDedekindReals.sig_forall_dec`, `FunctionalExtensionality.functional_extensionality_dep`** (26 theorems):
`C100_groups`, `C100_numbers`, `C115_thin`, `C129_fall`, `C129_higher`, `C35_new`, `C39_deterministic`, `C59_update`, `C63_default_arity_refuted`, `C63_inverse`, `C63_noisy_inverse`, `C63_range`, `C68_attraction`, `C68_in_box`, `C68_rest`, `C83_doublelinearslope`, `C83_rosenbrock`, `C83_slope_minimum_refuted`, `C83_sphere`, `C83_sphere_from`, `C83_styblinski_tang_positive_refuted`, `C84_blocks`, `C84_far_optimum`, `C84_settings`, `C84_split`, `C93_sign_refuted`.

## Properties: what is modelled and how it is proved

* **C01 num_ask / num_tell / num_tell_not_asked count exactly what they say** — Model/Optimizer.v: the whole of `ask`/`tell`/`suggest` as a step function with the algorithm's internals, constraint checks and callbacks as oracles. Invariant by induction on the history.
* **C02 The outstanding set: no candidate handed out twice, each ask matched by at most one tell** — same model; invariant relating the outstanding set to the history.
* **C03 Suggestions are asked last-in first-out, each exactly once** — same model; refinement of the suggestion deque to a stack; refutation witness for rejected suggestions.
* **C04 Scalar losses are sanitised** — extended floats (NaN, -inf, +inf, finite); case analysis over the type; witnesses for the list bypass.
* **C05 The number of objectives is fixed by the first tell** — same tell model; invariant + failure frame.
* **C06 Point statistics equal the statistics of the told values** — Model/MultiValue.v over Q; induction on the evaluation list; square root enters only as a monotone oracle/comparison of squares.
* **C07 Deterministic recommendation is the best told point** — Model/Archive.v: archive, bests with object identity, pruning as an arbitrary sub-archive oracle; invariant.
* **C08 Each current best minimises its criterion over the archive** — same model, generic in the estimate function.
* **C09 The archive is exact without pruning** — same model; refinement to the list of told (point, loss).
* **C10 Pruning keeps the best and never invents** — Model/Pruning.v over Z estimates; order statistics via sorting and counting.
* **C11 The archive length is bounded** — corollary of C10 over histories, plus arithmetic on sensible_default.
* **C12 A rejected tell leaves the optimizer unchanged** — tell model returns the state at the raise; frame lemma; witnesses.
* **C13 Points violating constraints never reach the archive or the recommendation** — tell model with constraint oracle; frame lemma; tabu witness.
* **C14 minimize evaluates and tells exactly the budget** — Model/Minimize.v: the loop as a fuelled function with an executor oracle; invariants.
* **C15 Parallelism limit** — same; invariant on every intermediate state (trace).
* **C16 Interrupting minimize loses no job** — same; small-step version with crash at any step.
* **C17 minimize terminates when jobs terminate** — same; termination measure; divergence witnesses (proved for all fuel).
* **C18 Early stopping stops asking and still tells everything** — same.
* **C19 UidQueue never loses or duplicates an individual and is fair** — Model/UidQueue.v; refinement to an abstract two-queue spec, conservation and fairness by induction.
* **C20 OrderedSet is a set iterated by last insertion** — Model/Tools.v; refinement to a list of distinct keys.
* **C21 ES populations: bounded, elitist, consistent with the queue** — Model/Evolution.v; invariants over ask/tell histories; sort permutation lemmas.
* **C22 DE: population bounded, every individual's loss never increases** — Model/Evolution.v; invariants.
* **C23 The Pareto front contains no dominated point** — Model/Pareto.v over Q vectors.
* **C24 Every stored point is on the front or dominated by a front point** — same; well-founded induction on dominance in a finite list.
* **C25 Hypervolume is the measure of the dominated region** — Model/Hypervolume.v: the recursion over objectives with its per-dimension chains, bounds, cached areas/volumes and domination flags. Specification: inclusion–exclusion over the boxes (Spec/Hypervolume.v), itself proved equal to counting cells of any grid (C25_cells). Proof by induction on the number of objectives with an invariant relating cached areas to volumes of prefixes and flags to dominating nodes (Proofs/HyperMeasure.v, Proofs/Hypervolume.v, Proofs/HyperUnion.v). Exact up to three objectives; beyond, exact without ties and refuted with ties.
* **C26 The multiobjective single loss is minus the hypervolume for improving points** — Model/HypervolumePareto.v on top of Model/Pareto.v and Model/Hypervolume.v (the algorithm, not an oracle): automatic bounds, excess loss beyond the bounds, volume loss, distance to the front, no_hypervolume. Invariant over histories: the raw list dominates the same volume as all points within the bounds (submodularity of the volume), the best volume is that volume.
* **C27 NSGA-II ranking sorts by dominance** — Model/Nsga2.v over rational losses; counting argument for the front peeling, explicit sorted orders for the crowding distance, induction over fronts for selection. Findings for three or more objectives as refuted theorems.
* **C28 Standardized data round-trips** — Model/Param.v: inductive trees; round trip by structural induction over Q.
* **C29 dimension is the size of the standardized data, wrong sizes are rejected unchanged** — same.
* **C30 Frozen parameters do not change** — same with frozen flags.
* **C31 spawn_child and copy are independent of the original and record heritage** — same with uids/heritage; Model/Sharing.v: objects and arrays as cells of a heap, separation of what child and parent own.
* **C32 Container values round-trip and key mismatches are rejected** — same.
* **C33 Layers are always ordered by level, insertion order within a level** — Model/Layers.v; sortedness/stability invariant of bisect_right insertion.
* **C34 Bounded values are within bounds** — Model/Layers.v over Q vectors; invariant of a stack of layers over all histories.
* **C35 arctan/tanh/cdf bounds map into the bounds and invert** — Model/RTransforms.v over R (standard library reals).
* **C36 Affine, Add, Multiply, Exponent and Power are inverted by their backward** — Q for affine layers, R for exponent/power.
* **C37 Integer casting is within bounds and nearest** — Model/Layers.v over Q with round-half-even and the caches of the layers.
* **C38 Modulo layer** — Model/Layers.v over Q with floor.
* **C39 Choice returns one of its options** — Model/Discretization.v with extended weights.
* **C40 Tabu list remembers exactly the last tabu_length accepted values** — Model/Tabu.v ring buffer refinement.
* **C41 Latin hypercube: one point per cell in each coordinate** — Model/Sequences.v over Q.
* **C42 Halton/van der Corput points are in [0,1), pairwise distinct and equidistributed** — same; digits induction.
* **C43 The prime table is the first primes in order** — same; sieve invariant.
* **C44 Rescaler maps the sample into the open unit cube** — same.
* **C45 Splitting a benchmark partitions the experiments** — Model/Benchmark.v; arithmetic of nested moduli.
* **C46 Interrupted benchmark computations resume without loss or repetition** — same; compute with crash oracle.
* **C47 Mocked executor delivers in simulated time order** — Model/Execution.v; heap as sorted list.
* **C48 Pickled sequential recast optimizers replay to the same state** — Model/Recast.v; thread as deterministic transition system.
* **C49 Batch recast sends each batch its own losses, once, in position order** — same.
* **C50 Iteration helpers** — Model/Tools.v.
* **C51 set_env restores the environment** — same.
* **C52 Registry never overwrites** — same.
* **C53 DE crossovers mix two vectors coordinatewise** — Model/Crossover.v.
* **C54 Jumping and Translation permute the array** — Model/Mutation.v.
* **C55 Symmetrised test functions are permuted copies** — Model/Symmetry.v: odd multiplier is a unit mod 2^d.
* **C56 Early stopping criteria** — Model/Callbacks.v.
* **C57 Template instantiation replaces each placeholder once** — Model/Instantiate.v.
* **C58 Sleeper advice is within its limits** — Model/Tools.v.
* **C59 Constraint penalties are non-negative and zero exactly on feasible values** — Model/Constraints.v.
* **C60 flatten keeps every leaf under its dotted path** — Model/Tools.v.
* **C61 Progress callbacks print when announced** — Model/Callbacks.v; step function of the printer over a history of tells and clock values.
* **C62 Angles** — Model/RTransforms.v over R.
* **C63 Discretization by thresholds** — Model/Discretization.v over R with special values.
* **C64 Transition choices** — Model/Choice.v over R, options as a state with a partial setter.
* **C65 Discrete mutations change bins, and only where drawn** — Model/Mutator.v: the random state is the list of its draws; loops are structural on it.
* **C66 Self-adaptation of the (1+1) optimizers** — Model/OnePlusOne.v over Q (told losses and the best mean as inputs, induction on the history), Model/MutationRate.v over R for the rates with exp and ln.
* **C67 Population sizes and generations of TBPSA and EDA** — Model/PopSize.v over Q (the test z < 2 squared, proved equal to the real statistic), Model/Tbpsa.v over R; invariants by induction on the operations.
* **C68 particle swarm** — `Model/Pso.v` models `_PSO` on the candidates, population and uid queue of `Model/Evolution.v`, with the best point and the inherited `best_parent`; the move of a coordinate is modelled over R. Proved by invariants over all histories (size, accepted tells, best, personal best along the ancestors). Refuted: penalties of the best point, personal best of injected particles, asks with too many workers, the pole of arctan. Not modelled: quasi-opposite initialisation, cached boxed data.
* **C69 chains of optimizers** — `Model/Chain.v` models `_Chain` (budgets, ask, tell, the label `optim_index`) over arbitrary sub-optimizers with a log of the calls they receive, and the retries of `ask` on refused candidates. Proved by induction on the histories: shares, what each optimizer is told, no crossing. Refuted on concrete chains: see the theorems in `_refuted`. Not modelled: sub-optimizers whose ask raises.
* **C70 portfolios of optimizers** — `Model/Portfolio.v` models `Portfolio` (sub-budgets, workers, turns, warm-up, ask, tell) over arbitrary sub-optimizers with a log of their calls. Proved by induction on histories: rotation, window of pending candidates, tells, choice after the warm-up, sub-budgets. Refuted on concrete portfolios: see the theorems in `_refuted`. Not modelled: sub-optimizers given as instances, asks that raise.
* **C71 split optimizers** — `Model/Split.v` models the computation of the groups (over Z, with all the assertions) and ask/tell of `SplitOptimizer` over arbitrary sub-optimizers with a log of their calls, inside the bookkeeping of asked candidates of `Optimizer.tell`. Proved by induction on the loop and on histories.
* **C72 rescaled optimizers** — same file, `_Rescaled` over Q; the default scale over R. Proved by an invariant linking pending candidates with the answers of earlier asks.
* **C73 Recombination is the mean, mutation adds the noise drawn** — Model/Param.v (`recombine`, `mutate`), Spec/Recombine.v (`mean_of`). By induction on the position in the tree: each container hands the sub-parameters of the same key of the others to its own sub-parameters; data take the mean of the standardized arrays with themselves (and their recombined sigma) as reference, and the mean commutes with the affine change of reference. For bounded data only the layers' clipping is added (C30, C36), hence the hypothesis.
* **C74 choice of NGOpt** — model: `Model/Select.v`, the decision trees `_select_optimizer_cls` of the NGOpt family as functions from the information they read (budget, workers, dimension, flags of the parametrization and of the function) to a description of an optimizer, and `create`, which creates it down to the leaves (chains, portfolios through `portfolio_setup` of C70, meta-models, rescalings, nested NGOpt), with the check of `Optimizer.__init__` that a sequential optimizer has one worker. Proof: each tree returns something good for all numbers of workers up to the given one, bottom-up over the variants; creation is monotone in the depth. The dimension 1, no-budget and noise statements are proved for NGOpt (NGOpt39).
* **C75 compact genetic algorithm** — Model/Cga.v: the matrix of probabilities, the pending candidate, the tells and the draws, with
  exact rationals.  Proved by an invariant on the rows (sum 1, minimum) and induction over the tells two by two; the bound
  1/(arity − llambda) is a fixpoint of the update.  `C75_learning_refuted`: with the default arity the distributions stay almost uniform.
* **C76 SPSA** — Model/Spsa.v: the parity counter, the direction (NaN at first), the two stored losses, centre and average, with exact
  rationals and arbitrary gains.  Proved by an invariant between rounds and induction over the rounds; the linear case follows from
  the slope being squared.  `C76_suggestion_refuted` (invariant: centre or direction is NaN), `C76_asked_again_refuted`.
* **C77 CMA bookkeeping** — Model/Cma.v: queue of points, waiting candidates, parents and restarts around an arbitrary strategy.
  Proved by induction over the events (conservation of points and of evaluations); k best by sorting.
  `C77_penalties_refuted`, `C77_told_twice_refuted`.
* **C78 metamodels** — Model/MetaModel.v: when the metamodel is consulted, and `learn_on_k_best` with its checks, the regression and its
  minimisation being arbitrary.  Proved by inversion of the successful path, with the mean and the k best stated independently.
* **C79 EMNA** — Model/Emna.v: generations, parents, centre and scale for `population_size_adaptation=False`.  Proved by induction over
  the generations; sums are exchanged to state the single scale.  `C79_isotropic_refuted`, `C79_small_budget_refuted`.
* **C80 NoisyBandit** — Model/NoisyBandit.v: the ask on top of the archive model, histories of
  asks, tells and tells of outside points with an observer's log. Invariants (data of the
  candidates of all archived objects; archive = first occurrences with exact statistics) give what
  each ask proposes; counting draws against evaluated arms gives the exploration bound, and an
  induction on the rounds the exact number of arms with one worker.
* **C81 delegation of NGOpt** — Model/Delegate.v instantiates the generic optimizer of Model/Optimizer.v with
  another generic optimizer as its algorithm (creation at first use, possibly raising; replacement by DE at the
  first multi-objective loss).  `C81_interface`: simulation over all histories, the inner state is that of a direct
  use.  `C81_transparent`: step-by-step equality of histories without violated constraints.
  `C81_penalised_twice`, `C81_retries_multiply`, `C81_several_objectives`, `C81_failing_selection(_tell)`:
  consequences which surprise users.  Callbacks registered by the user on the outer optimizer are left out.
* **C82 one-shot optimizers** — `Model/OneShot.v` gives `_RandomSearch` and `_SamplingSearch` as algorithms of the generic optimizer of `Model/Optimizer.v`, with the sampler of `Model/Sequences.v` (its points and the random factors are arbitrary sequences). `Spec/OneShot.v` defines the design (which point is at rank k) and the capacity without the state of the optimizer. Proved by an invariant over all histories (`Proofs/OneShot.v: oinv`) that the candidates follow the design whatever is told, that ask succeeds exactly up to the capacity, hence within the budget, that opposite points come in pairs, and that the averages are means of the k best. `C82_rejected_refuted`: with constraints the rejected points use up the sampler.
* **C83 optima of the test functions** — the functions of `functions/corefuncs.py` over exact reals (vectors are lists, exceptions values); a specification `optimum` says: a number for each vector, never below the minimum, equal to it at one point only. Proofs: sums of non-negative terms, |cos| ≤ 1, monotonicity of exp and ln; a sum-of-squares certificate for Styblinski-Tang; counting for discrete functions.
* **C84 artificial functions** — `functionlib.py` and `utils.Transform`: settings, drawing of blocks (sorting then `grouper`), transforms with translation and rotation, aggregation, penalty, noise; the draws are arguments with numpy's contract (`choice_without_replacement`, `orthogonal`). The optimum of a core function (as in C83) is carried through: orthogonal matrices are inverted by exchanging double sums, aggregates are compared with a common lower bound, and the optimal point is built from the disjoint blocks.
* **C85 copies of benchmark functions** — `Model/Experiment.v` models `ExperimentFunction` by class, recorded arguments, descriptors (dicts) and the attributes of the parametrization which `copy` propagates; the constructor is an arbitrary function. `Proofs/Experiment.v:copy_spec` computes the descriptors of the copy key by key; the rest follows by dict lookups and induction on the chain of copies.
* **C86 results of experiments** — the outcome of each step of a run is an input (`events`); `run` threads the result dict through the nested handlers. Theorems relate the reported loss, budget and error to the outcomes, by cases.
* **C87 construction and bounds of array-like parameters** — model of `Array`/`Scalar`/`Log.__init__`, `set_bounds`, `set_mutation(exponent)`, `_fix_legacy`, the layers `Bound`, `BoundLayer`, `Exponent` and `sample`, one coordinate over R (`Model/DataParam.v`). Reading through layers is a fixpoint returning the value and the data written back; set-get and get-get by induction on the layers; constructors by computing their layers; commutation of the two configuration calls by reducing both to the same stack.
* **C88 Card games** — Model/Games.v follows game.py turn by turn with the shuffles and draws as arguments. War: invariant (pack conserved, even table) by induction over turns, bounds of the index of the policy, mirror simulation for fairness. Guess who: decreasing decks. Flip: invariant of the search over moves, each turn uses up a card; three expectations are refuted by theorems or concrete games.
* **C89 helpers of parametrizations** — `Normalizer` on a list of arrays over the layer stacks of C87 (the numbers are those the constructors make); backward by coordinates, roundtrip and range by induction on the list of arrays; `deterministic_sampling` as a state transformer around an arbitrary block with exceptions; `analyze` on the integer layers. Counterexamples: two-dimensional arrays, constraints, values already read, random options.
* **C90 Random states** — `Model/RandomState.v`: parameter trees whose nodes hold an optional generator handle; a world of generators (seed, numbers drawn) and a count of seeds taken from the global generator; lazy reading, propagation, insertion, spawning, sampling, copies and copies without state, as programs. Proved by an invariant over programs, parametrised by a predicate on states and a relation between worlds, instantiated with "initialised / global generator unused" and "handle h / only h used".
* **C91 Mutation by depth** — same model; induction on the path of an array, following which part of the drawn numbers reaches it. Mutation of a container mutates its elements and then moves all of them again: `C91_sigma_refuted`.
* **C92 HyperOpt's search space** — `Model/HyperOpt.v` follows the translation of instrumentations to spaces, of draws to values and of candidates to draws. Proofs by induction on parameters with nested lists; labels are tracked through dict updates; the refuted theorems are runs or general equations.
* **C93 constraint layer** — `Model/ConstraintLayer.v` follows `Constraint._layered_get_value`, `function`, `stopping_criterion` and `apply_constraint`: one evaluation of the raw value, then the loop of `minimize` with the stopping criterion before each ask, then the first of the front; the multiobjective front is the model of C08 with its 15 points for the bounds. Points and optimizer are arbitrary. Proved by induction on the budget, with an invariant of the front while the bounds are being set (every point told is above one kept, and nothing kept is dominated after a filtering). Refuted: optimizers recommending their own point, frozen parameters, improvement over the raw value, several constraints after 15 points, agreement of the sign with `register_cheap_constraint` without layer.
* **C94 win rates** — `Model/WinRates.v` follows `_make_winners_df`, `aggregate_winners` (recursion over categories), `_make_sorted_winrates_df` (including pandas' alignment of the divisor with the columns) and `winrates_from_selection`. The specification compares sums of losses cross-multiplied, over a duplicate-free list of the cases present. Proved by induction on the categories: the distinct tuples are a permutation of the concatenation over the values of the first category. Refuted: majority winner first, rates adding to one, completeness of the optimizers kept, infinite losses.
* **C95 registered portfolios** — the constructors of the registered portfolios are modelled as operations on the attributes `optims`, `turns`,
  `num_workers` and `_warmup_budget` of an object that `Portfolio.__init__` overwrites; the set-up of budgets and turns is that of C70.
  The floor of the logarithm is an arbitrary function. Proved by computing the set-up of parallelizable optimizers in closed form.
* **C96 multiple single-objective runs** — the tells of `_MSR`, with the scalar loss of `Optimizer.tell` (itself for one objective, the model of C26 for
  several), arbitrary copies and arbitrary positive weights. By induction on the tells the log of a copy is the list of the scalar losses times the
  sum of its weights; the ranking theorem follows. Clipping of losses over 5e20 and penalties are left out.
* **C97 NgIohTuned and its relatives** — `Model/Tuned.v` writes the choices of NgIoh to NgIoh21, NgIohRW2, NgDS11, NgDS, NgDS2, NGDSRW, CSEC, CSEC10 and CSEC11 as functions of the problem, on top of `Model/Select.v`; the logarithms used as thresholds are arbitrary functions. Proved by a predicate "works for every usable problem with at most this many workers", closed under chains, portfolios, meta-models and restarts. The direct-search theorem uses a syntactic predicate preserved by creation. Not modelled: random scales of restarts, constraints (registering one does not set `has_constraints`).
* **C98 nearest entry of a table** — the tables of NGOptF, NGOptF2, NGOptF3 and NGOptF5 (optimizerlib.py 4396–4800) are copied row by row, `best` is the nested defaultdict in its order of insertion, and the iteration over `set(algs)` in `max(set(algs), key=algs.count)` is an arbitrary order given as an argument. The specification lists the places in the order of their first rows and says which one is the first of the closest ones. Proved by induction on the rows; reproducibility is characterised (unique most frequent name) and refuted in general.
* **C99 Bayesian optimizers** — `_BayesOptim` as a step function over asks, suggestions and tells which records the calls
  to the package (an arbitrary function with arbitrary state); invariants by induction on the events tie points given,
  batches, accepted losses and calls together. `_BO`/`_FakeFunction` with their names as strings of character codes (order
  proved for every dimension by induction on the number of digits), the register/probe handshake, the queue of the design
  and the cache of the package.
* **C100 LSGO** — transforms, losses, groups and chunks of `functions/lsgo` over the reals; each transform is zero at zero
  only, each loss is nonnegative and zero at zero only (C83's lemmas), rotations keep the sum of squares, the groups cover
  the variables (induction on the group sizes), and the sum over the chunks is zero iff every group is.
* **C101 placement of legends** — `Model/Legends.v` follows `LegendGroup` and `compute_best_placements` (assertions included, one scan per turn of the while loop). Invariant: the groups cut the positions into consecutive segments, in each of them the moves add up to zero and all their prefix sums are non-negative; a merge of overlapping groups keeps it. With summation by parts this gives the optimality of the final placement, its uniqueness, and (with the first assertion) the absence of errors.
* **C102 tables which are plotted** — `Model/PlotData.v` follows `remove_errors` (selection by labels, so that repeated labels matter), `normalized_losses` (the set of cases is visited in an order given by an arbitrary function) and `merge_optimizer_name_pattern`. The proof of the normalization keeps the table in the form "rows of the visited cases updated from the initial table, others as they were".
* **C103 Learning from comparisons** — `Model/Compare.v` models `Optimizer.compare` on top of the archive of C08: the
  losers' best mean, the told values `best − n + i`, and the overwriting of the archive's entry. Histories mix tells and
  comparisons. The proofs carry a well-formedness invariant of the archive and heap (`wf`), and the effect of one winner.
  The recommendation after a comparison involving points which were evaluated before is refuted by a session.
* **C104 Search for a point satisfying the constraints** — `Model/Solver.v` models `_constraint_solver`: the loop over an
  arbitrary proposer, the losses built from penalties and distances, and the recommendation of the inner optimizer through
  the archive of C08. Proved by an invariant on the objects of the archive (all the minima of violating points exceed one);
  the least violation comes from C07. The noisy case is refuted for every square root with the right values at 0 and 500000.
* **C105 Recommendation of the optimizers which restart a library** — `Model/Restarts.v` models the loop of
  `_NonObjectMinimizeBase._optimization_function` with an arbitrary library: which points are asked, how `best_x` is updated
  by each family of methods, when the loop ends. Proved by an invariant of the loop; NLOPT-like restarts, pysot and CmaFmin2 on
  unbounded parameters are refuted.
* **C106 causal graphs** — `Model/Causal.v` models `choices_to_graph` loop by loop with the networkx operations it uses; the two nested loops are shown equal to one pass over the list of pairs, from which the arrows of the graph are characterised. The first node is refuted to be connectable.
* **C107 Pyomo models** — `Model/PyomoModel.v` models the conversion of a numeric range to bounds (floating point neighbours are oracles whose specification is a hypothesis), the names of the parameters, and the state of the wrapped model (values and compiled assignments) under any history of evaluations; an invariant on the compiled list of variables gives the independence from the past.
* **C108 007 game** — `Model/DoubleOSeven.v` models the players, a round, the runner loop (with fuel) and the environment with a fixed player; `Spec/DoubleOSeven.v` states the rules on histories of actions. The invariant of games still going (counts agree with the history; protections are at most 4 or equal) gives the rules, and the runner by induction on the fuel.
* **C109 population based training** — `Model/Pbt.v` has a heap of arrays so that sharing between workers is visible; an invariant on addresses (fresh ones are never shared) is carried over any history of evaluations with arbitrary draws.
* **C110 Planning problems** — `Model/Planning.v` models the unit commitment loss (penalties of demand and of limits, running cost) and the daily fishing dynamics over exact rationals. Feasibility is specified on its own in `Spec/Planning.v`. Proved: the loss exceeds the running cost except for feasible plans; a counting argument on the generators which are on shows when no plan is feasible (one generator always, three by default for some demands), and a constructed plan shows that five suffice; the invariant of the populations shows that the assertion never fails.
* **C111 Tours, clusters, maps and landscapes** — `Model/Mlda.v` models `STSP._simulate_stsp`, `_kmeans_distance`, the Sammon loss and the value of a pixel. The specifications (closed tours by index, assignments of points, nearest pixels) are in `Spec/Mlda.v`. Proved for every sort which sorts: uniqueness of the sorted order for distinct keys gives the invariance and the surjectivity onto tours; row minima are shown to be the best assignment.
* **C112 configured optimizers** — model: objects and dicts by reference, `__init__` with `different_from_defaults`, `__call__` through chains, `config`, `__eq__`, `set_name` with registration; histories of operations. Proof: invariant (distinct keys, targets created before), induction on the chain and on the history.
* **C113 folder functions** — model: a file system with files and links, `symlink_folder_tree`, `instantiate_to_folder`, the command as a function of what it sees giving writes and an outcome, removal of the temporary folder, stripping and splitting of the output. Proof: induction on the listing and on the files; lemmas on stripping. Text substitution is the model of C57.
* **C114 power systems** — one hour as the loop over the plants in the stable order of prices, with the assertion on the stocks as a value, and the fold over hours; proved by induction on the ordered plants (what is produced, what is left, who is full), then optimality by comparing with the price of the last plant used, and conservation by induction on hours.
* **C115 coatings** — the recursion over the slabs with complex numbers as pairs of reals and division by zero as an error; proved by the invariant that the impedance keeps a positive real part, and by showing that a slab of the front medium multiplies both terms of the reflection by the same factor.
* **C116 smoothing** — the convolution as the mean over a product of windows of reflected indices; bounds by induction on the axes, the conservation of the sum by pairing the shifts by k and -k over one period of the reflected array.
* **C117 leaderboard** — the file as an optional table, the update as in the code, with IEEE comparisons; by induction on the submissions the entry of a problem is a fold over its own submissions, whose value is the last of the smallest.
* **C118 result tables** — tables as lists of columns and rows; a cell is looked up by the name of its column, and the content of a row is specified by positions. Concatenation preserves contents; files by induction on the repetitions; equivalence because two sorted lists for a total order are equal iff they are permutations of each other.
* **C119 cross-validation** — functions are numbered instances; the list of experiments is a product, read by position. The evaluation reuses the models of the Pareto front and of the automatic bounds: what is selected comes from the recommendations by induction on the additions, and up to 15 incomparable points are all kept without any volume being computed.
* **C120 empirical distribution, delayed jobs** — points with their numbers of trials; comparisons of roots are those of powers. Sorting is stable by induction; the sampled index by induction on cumulated probabilities. A job is a state machine over a function which may behave differently at each call.
* **C121 stratified points** — `jittered` of common/sphere.py over an oracle of draws and of classes; the table of strata is
  related to the draws by an invariant, the collection is proved to end in at most two passes; the endless loop is proved for
  every fuel.
* **C122 torch helper** — `TorchOptimizer` of optimization/helpers.py over any ask/tell machine, any 32-bit rounding and any
  batches; the training loop of its documentation is a fixpoint which also returns what the optimizer was told; induction on the
  batches.
* **C123 What logging callbacks leave behind** — `Model/ParamLog.v`: the dict built by a call of ParametersLogger, the file as a list of lines, load, load_flattened (with real string keys, so that collisions are visible), the progress bar with pickling, the dump of the optimizer. Proved by induction over the history of the file and over nested lists; injectivity of keys from that of decimal notation. Refuted: the `order` argument is not used, a call with data json refuses leaves nothing, a parameter called `x#0` is hidden by the first element of the array `x`, the dump made on tell lacks the last tell.
* **C124 Pymoo wrappers** — `Model/Pymoo.v`: the warm-up phase (num_objectives unknown) and the sending of candidate.losses, on top of the recast optimizers of `Model/Recast.v`. Proved by simulation (wrapper against plain recast optimizer, for any calls) and by induction over ask/tell cycles. Refuted: candidates of the warm-up told after a new ask raise KeyError in the batch wrapper; penalties do not reach pymoo; a cheap constraint violated by a point of pymoo makes ask raise RuntimeError.
* **C125 Ax platform wrapper** — `Model/AxPlatform.v`: AXP with the client of Ax reduced to its numbering of trials. Proved by an invariant over all events; refuted when candidates are refused by constraints (losses go to other trials, because num_ask is used as the number of the trial), after suggestions (KeyError), when Ax gives no trial (IndexError). Coordinates over the reals.
* **C126 Curves, best performances and titles of experiment plots** — Model/Curves.v models the grouping of XpPlotter.make_data (median or mean, variance, count, NaN skipped), the best-per-budget dictionary of save_txt, the selection of drawn optimizers and split_long_title. Proved: budgets and points of every curve against an inductive description of the group (C126_budgets, C126_points), the summary is the minimum with the first optimizer reaching it (C126_best, C126_first), which optimizers are drawn (C126_drawn), the place of the line break (C126_title).
* **C127 The team pursuit simulation** — Model/Cycling.v models functions/cycling: positions (cyclists_remaining, transition, validate_order, leader), energies, fatigue, the loop of segments with early end, the checks of simulate, and team_pursuit_simulation. The step dynamics is an arbitrary pair of functions. Proved with an invariant over the cyclic orders of the team: C127_formation (no missing leader, positions 1..k, fatigue), C127_result (time, distance, velocities), C127_refused, C127_again, C127_cost, C127_leader_energy; refuted: a follower can gain energy (C127_follower_energy_refuted).
* **C128 gym benchmarks** — `Model/GymMulti.v` models `functions/gym/multigym.py`: sizes and slices of the weights, the simulation loop with stacking and the archive, sequences of actions, averages over seeds, the weight limit and discrete actions. The environment, the policy and the normal cumulative distribution are arbitrary functions; numbers are exact. Proved by induction on the steps left (`played` is an independent relation between an environment and what happened in it) and on the history of the archive. Not modelled: the list of environments, casts of observations, compilergym specifics.
* **C129 the rocket simulation** — `Model/Rocket.v` models `functions/rocket/rocket.py`: the thrust table, its modification and normalization, the masses and their checks, the two loops of the flight and the loss. Over the reals, exponential included; forces, norm, rounding, launch point and direction are arbitrary. Impulse and invariances by algebra on lists, masses by an invariant bounding the product of (1 - p) by 1 / (1 + sum of p), flight by induction on the rows and on the fuel.
* **C130 tables exported in latex** — `Model/LatexTable.v` models `benchmark/exporttable.py`: the cells, the rows and the text of the file, with the file left by an exception. Proved by reading the file back (splitting it into lines, and lines into cells): one line per row with the name and the cells, the cut at the first parenthesis, escaped percents, extra and missing rows, number of columns. Refuted: distinct texts for distinct optimizers, escaping of ampersands, of percents after a backslash and of names.
* **C131 the tuning of learning algorithms** — `Model/MLTuning.v` models `functions/ml/mlfunctionlib.py`: the settings of each regressor, the keywords of losses and evaluations, the artificial datasets with their folds, the lazy creation with what is stored when it fails, and the cross-validation. Proved: folds partition the data, the loss is the mean error of independent folds for learners which forget, the candidate's values reach the learner, evaluations use the same learner, failures by dimension and name. Refuted: hyperparameters of evaluated decision trees, labels of the training data, independence of the folds for learners which go on.
* **C132 control policies** — `Model/Control.v` models `functions/control` (core.py and mujoco.py): shapes of the layers, the action of a policy with normalization, activation and coefficients, noise, episodes, rollouts and seeding; the environment is an arbitrary machine. Proved: the loss is the opposite of the mean total reward of episodes (an inductive relation of the specification), same loss for the same seed, linear policies, further layers, fitting shapes, units, noise. Refuted: use of all the layers with too few coefficients, reproducibility of the default simulation.
* **C133 groups of optimizers and seeds of plans** — `Model/OptGroups.v` models `benchmark/optgroups.py:get_optimizers` and `benchmark/xpbase.py:create_seed_generator`. Proved: the list has exactly the members of the groups, each once, in the order of first occurrences without seed and permuted with one; KeyError exactly for an unknown group; a repeated group changes nothing; the seeds of a plan depend only on the initial seed and the rank.
* **C134 random and antithetic points of the sphere** — `Model/PointSets.v` models `normalize`, `pure_random`, `antithetic_pm` and `antithetic_order` (with and without signs) of `common/sphere.py` on real arrays seen as lists of slices. Proved: as many points as asked, on the unit sphere, in the direction of the draws; opposite halves; slices of a normalized draw in some order and up to sign; the loop ends; the permutations come first. Refuted: antithetic points on the sphere for odd numbers.
* **C135 dispersed points** — `Model/Dispersion.v` models `greedy_dispersion` and `dispersion` of `common/sphere.py`; points, distance, draws of the threads and the clock are arbitrary. Proved: the number of points, each point is the farthest of its last batch, what happens when the clock leaves no batch, replacements choose the farthest candidate and never reduce a separation between the points, failure for a single point. Refuted: no point when zero are asked, the farthest of all candidates.
* **C136 losses on images** — `Model/ImageLosses.v` models the checks of `ImageLoss` and the three losses of `functions/images/imagelosses.py` which are computed by numpy. Proved: which references are accepted; the sums of absolute and squared differences are not negative and zero exactly on the reference; the histogram loss equals the difference of the sums of the images; errors. Refuted: the histogram loss as a distance between histograms.
