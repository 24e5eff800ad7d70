{"id": "C01", "title": "num_ask / num_tell / num_tell_not_asked count exactly what they say", "statement": "After any history of ask, suggest and tell calls on an optimizer, num_ask is the number of asks that returned, num_tell the number of candidate tells that completed, and num_tell_not_asked the number of completed tells whose candidate was not an outstanding (asked, not yet told) one; calls that raise change none of the three, constraint retries inside an ask included.", "quantifier": "all optimizers (internal ask/tell arbitrary), all call histories, all constraint predicates", "why_tests_cant": "the counters must agree for every interleaving of asks, tells, retries and failures; tests run a handful", "anchors": ["nevergrad/optimization/base.py:Optimizer.ask", "nevergrad/optimization/base.py:Optimizer.tell", "nevergrad/optimization/base.py:Optimizer.num_ask", "nevergrad/optimization/base.py:Optimizer.num_tell_not_asked"]}
{"id": "C02", "title": "The outstanding set: no candidate handed out twice, each ask matched by at most one tell", "statement": "After any history the outstanding candidates are exactly those returned by ask from the algorithm (not from suggest) and not told since; ask never returns an algorithm candidate that is already outstanding (it raises instead), and a second tell of the same candidate is treated as a tell of a non-asked point.", "quantifier": "all histories of ask/suggest/tell, all internal ask behaviours including ones repeating a candidate", "why_tests_cant": "requires every interleaving, including an algorithm that returns an old candidate", "anchors": ["nevergrad/optimization/base.py:Optimizer.ask", "nevergrad/optimization/base.py:Optimizer.tell", "nevergrad/optimization/base.py:Optimizer._asked"]}
{"id": "C03", "title": "Suggestions are asked last-in first-out, each exactly once", "statement": "Without violated constraints, an ask issued while suggestions are pending returns the most recently suggested one not yet asked, never consults the algorithm, and removes just that suggestion; every suggestion is returned by exactly one ask. With a constraint that rejects a suggestion, the suggestion is silently lost (finding).", "quantifier": "all interleavings of suggest and ask", "why_tests_cant": "an ordering property of all interleavings", "anchors": ["nevergrad/optimization/base.py:Optimizer.suggest", "nevergrad/optimization/base.py:Optimizer.ask"]}
{"id": "C04", "title": "Scalar losses are sanitised", "statement": "Whatever scalar float is told (NaN and infinities included), the loss recorded on the candidate and passed on to the algorithm and archive is never NaN and never exceeds 5e20; a loss below 5e20 is passed unchanged. A loss wrapped in a one-element list bypasses this (finding).", "quantifier": "all IEEE scalar losses, all list/array losses", "why_tests_cant": "the input space is all floats in all wrappings", "anchors": ["nevergrad/optimization/base.py:Optimizer.tell"]}
{"id": "C05", "title": "The number of objectives is fixed by the first tell", "statement": "Once some tell passed the loss-size check, every later tell with a different number of losses raises and leaves archive, recommendation, counters and outstanding set unchanged; with the same number it never fails for that reason.", "quantifier": "all histories of tells with arbitrary loss sizes", "why_tests_cant": "history dependent", "anchors": ["nevergrad/optimization/base.py:Optimizer.num_objectives", "nevergrad/optimization/base.py:Optimizer.tell"]}
{"id": "C06", "title": "Point statistics equal the statistics of the told values", "statement": "For any sequence of evaluations of one point (re-evaluations within +-1e10), count is their number, mean their arithmetic mean, the minimum estimate their minimum, the square their mean square, and variance is non-negative and zero iff the re-evaluated values are all equal; optimistic <= average <= pessimistic always.", "quantifier": "all finite sequences of evaluations", "why_tests_cant": "incremental formulas must agree with the batch definition for every length and value", "anchors": ["nevergrad/optimization/utils.py:MultiValue.__init__", "nevergrad/optimization/utils.py:MultiValue.add_evaluation", "nevergrad/optimization/utils.py:MultiValue.get_estimation"]}
{"id": "C07", "title": "Deterministic recommendation is the best told point", "statement": "For a deterministic problem and finite losses within +-1e10, after any history of tells of distinct candidate objects the recommendation is a told candidate whose loss is the minimum of all told losses, whatever pruning did in between. Beyond 1e10 this is false (finding).", "quantifier": "all histories of tells (arbitrary points, repetitions, losses), all pruning decisions", "why_tests_cant": "history of any length, with repetition, ties and pruning", "anchors": ["nevergrad/optimization/base.py:Optimizer._update_archive_and_bests", "nevergrad/optimization/base.py:Optimizer.recommend", "nevergrad/optimization/utils.py:MultiValue.add_evaluation"]}
{"id": "C08", "title": "Each current best minimises its criterion over the archive", "statement": "After any history, for each of the four criteria the estimate of the current best is <= the estimate of every point in the archive, for any estimate function of the statistics and any pruning.", "quantifier": "all histories, all four criteria (indeed all estimate functions), all prunings", "why_tests_cant": "needs the interaction of re-evaluation (which can worsen the best) with ties and pruning", "anchors": ["nevergrad/optimization/base.py:Optimizer._update_archive_and_bests", "nevergrad/optimization/utils.py:MultiValue.get_estimation"]}
{"id": "C09", "title": "The archive is exact without pruning", "statement": "As long as pruning is not triggered, the archive contains exactly the told points, once each, in first-told order, each with the statistics of all losses told for that point, and the candidate kept for a point is one with the smallest loss told for that point.", "quantifier": "all histories of tells", "why_tests_cant": "refinement over all histories", "anchors": ["nevergrad/optimization/base.py:Optimizer._update_archive_and_bests", "nevergrad/optimization/utils.py:Archive"]}
{"id": "C10", "title": "Pruning keeps the best and never invents", "statement": "Pruning returns the archive itself below max_len; otherwise it returns a sub-archive in the same order with unchanged entries, of at most 3*min_len entries, in which every entry strictly better than the (min_len+1)-th order statistic in one of the three criteria is kept and every other is dropped; with no ties at the threshold exactly the min_len best of each criterion are kept.", "quantifier": "all archives, all min_len/max_len, all estimates including ties", "why_tests_cant": "quantile index arithmetic and ties over all sizes", "anchors": ["nevergrad/optimization/utils.py:Pruning.__call__", "nevergrad/optimization/utils.py:Pruning._prune"]}
{"id": "C11", "title": "The archive length is bounded", "statement": "With the default pruning, after any history the archive has fewer than max_len points or at most 3*min_len, and max_len >= 3*min_len >= 300 for every num_workers and dimension; so its length never exceeds max_len.", "quantifier": "all histories, all num_workers >= 1, dimension >= 1", "why_tests_cant": "bound must hold at every point of every history", "anchors": ["nevergrad/optimization/utils.py:Pruning.sensible_default", "nevergrad/optimization/base.py:Optimizer._update_archive_and_bests"]}
{"id": "C12", "title": "A rejected tell leaves the optimizer unchanged", "statement": "A tell that raises because of a bad loss type, a non-parameter candidate, or a wrong number of objectives leaves counters, archive, bests, outstanding set unchanged. The learning curve and the number of objectives may have changed (finding).", "quantifier": "all states, all rejected tells", "why_tests_cant": "failure atomicity over all states", "anchors": ["nevergrad/optimization/base.py:Optimizer.tell"]}
{"id": "C13", "title": "Points violating constraints never reach the archive or the recommendation", "statement": "A tell of a candidate violating a registered constraint (with a budget) or with positive constraint violation is counted and forwarded with a loss not below the told one, but changes neither archive nor current bests. With a tabu list the same happens to feasible candidates (finding).", "quantifier": "all histories, all constraint functions", "why_tests_cant": "must hold for all candidates and all penalty parameters", "anchors": ["nevergrad/optimization/base.py:Optimizer.tell", "nevergrad/optimization/utils.py:ConstraintManager.penalty"]}
{"id": "C14", "title": "minimize evaluates and tells exactly the budget", "statement": "For any executor schedule, if minimize starts with num_ask <= budget and returns without early stopping or timeout, exactly budget - num_ask new jobs were submitted, and every job submitted, or pending from an earlier call, has been told exactly once, with its own candidate.", "quantifier": "all executors (arbitrary completion order), budgets, worker counts, batch or steady mode, resumed states", "why_tests_cant": "schedules are unbounded and nondeterministic", "anchors": ["nevergrad/optimization/base.py:Optimizer.minimize"]}
{"id": "C15", "title": "Parallelism limit", "statement": "At every moment of minimize the number of submitted and not yet finished-and-told jobs started by it never exceeds num_workers pending at once (running jobs <= max(num_workers, initially running)); in batch mode new jobs are only submitted when no job is running.", "quantifier": "all schedules and all moments", "why_tests_cant": "safety invariant over all schedules", "anchors": ["nevergrad/optimization/base.py:Optimizer.minimize"]}
{"id": "C16", "title": "Interrupting minimize loses no job", "statement": "If minimize is interrupted at any point (objective raising, tell raising), every job submitted so far is either told or still in the running/finished lists, and calling minimize again tells the rest; no told job is told again, except one interrupted between its tell and its removal.", "quantifier": "all interruption points of all schedules", "why_tests_cant": "crash points are unbounded", "anchors": ["nevergrad/optimization/base.py:Optimizer.minimize", "nevergrad/optimization/base.py:Optimizer._finished_jobs"]}
{"id": "C17", "title": "minimize terminates when jobs terminate", "statement": "With num_workers >= 1, num_ask <= budget and an executor where every poll of pending jobs eventually finishes one, the loop terminates. It does not terminate when num_ask > budget at entry or num_workers <= 0 (findings).", "quantifier": "all fair schedules", "why_tests_cant": "liveness", "anchors": ["nevergrad/optimization/base.py:Optimizer.minimize"]}
{"id": "C18", "title": "Early stopping stops asking and still tells everything", "statement": "After an ask raises NevergradEarlyStopping, minimize asks nothing more, and returns only after all jobs already submitted have been told.", "quantifier": "all schedules and all stopping points", "why_tests_cant": "any stopping point in any schedule", "anchors": ["nevergrad/optimization/base.py:Optimizer.minimize", "nevergrad/optimization/callbacks.py:EarlyStopping"]}
{"id": "C19", "title": "UidQueue never loses or duplicates an individual and is fair", "statement": "Starting from an empty queue, for any sequence of tell/ask/discard in which discards are of present uids, the set of uids present is exactly those told minus those discarded; ask returns the oldest told one when there is one, else the one asked least recently; ask fails iff the queue is empty; repeated asks without tells cycle through all individuals.", "quantifier": "all operation sequences", "why_tests_cant": "fairness and conservation over all sequences", "anchors": ["nevergrad/optimization/utils.py:UidQueue", "nevergrad/common/tools.py:OrderedSet"]}
{"id": "C20", "title": "OrderedSet is a set iterated by last insertion", "statement": "For any sequence of add/discard/popright, membership is that of a mathematical set, iteration visits each member once in order of last insertion, popright removes the last inserted, len is the number of members.", "quantifier": "all operation sequences", "why_tests_cant": "all histories", "anchors": ["nevergrad/common/tools.py:OrderedSet"]}
{"id": "C21", "title": "ES populations: bounded, elitist, consistent with the queue", "statement": "For any sequence of asks and tells of asked candidates the population never exceeds popsize; for any history the queue contains exactly the population members and ask never raises (one objective, accepted configuration); when a generation completes, the survivors are chosen among the waiting candidates and, in (mu+lambda) mode, the old population, each survivor at least as good as each dropped choice, and there are popsize of them whenever the choices are distinct; before that only the waiting list grows; in DE-like mode a lineage never disappears and its loss never increases. Findings: choices need not be distinct, so the population can shrink below popsize; a point injected during initialization makes it exceed popsize.", "quantifier": "all ask/tell histories, popsizes, offspring counts, rankings", "why_tests_cant": "generation boundaries in all interleavings", "anchors": ["nevergrad/optimization/es.py:_EvolutionStrategy"]}
{"id": "C22", "title": "DE: population bounded, every individual's loss never increases", "statement": "For any ask/tell history of differential evolution the population never exceeds llambda. With one objective, tells never raise; an individual is replaced by its child if and only if the child's loss is at most its own; an injected (non-asked) point replaces the worst individual only if strictly better; some individual is always at least as good as any loss told so far. If fewer than llambda candidates are outstanding at each ask, no call ever raises and the queue holds each individual exactly once. Findings: with more outstanding candidates an ask can raise KeyError, and so can a multiobjective tell of a non-asked point.", "quantifier": "all histories including out-of-order tells, rejections and injected points", "why_tests_cant": "asynchronous interleavings", "anchors": ["nevergrad/optimization/differentialevolution.py:_DE"]}
{"id": "C23", "title": "The Pareto front contains no dominated point", "statement": "After any sequence of tells and pareto_front() calls, pareto_front() is exactly the list, in order, of the points stored so far that no stored point dominates; a call never changes the result of later ones; a limited size returns only points of the front, that many, with the best score of the drawn subsets. (Findings: subsets are drawn with replacement; subset EPS gives all subsets the same score.)", "quantifier": "all finite sets of loss vectors of any dimension", "why_tests_cant": "all inputs", "anchors": ["nevergrad/optimization/multiobjective/core.py:ParetoFront._filter_pareto_front", "nevergrad/optimization/multiobjective/core.py:ParetoFront.get_front"]}
{"id": "C24", "title": "Every stored point is on the front or dominated by a front point", "statement": "For every point ever stored there is a point of the returned front that is <= on every objective; a point equal to or not dominated by any other is present.", "quantifier": "all finite sets of loss vectors", "why_tests_cant": "needs well-foundedness of dominance over arbitrary sets", "anchors": ["nevergrad/optimization/multiobjective/core.py:ParetoFront._filter_pareto_front"]}
{"id": "C25", "title": "Hypervolume is the measure of the dominated region", "statement": "HypervolumeIndicator.compute of points nowhere worse than the reference equals the volume of the union of the boxes between the points and the reference: always with up to three objectives, hence independent of order, of duplicates and of dominated points, monotone, and strictly larger when a new point is strictly below the reference and not dominated. With four objectives or more this holds when the points have no tie in the third to last but one objectives; with ties the result can be smaller than the volume of one of the points (finding). No points is an error with two objectives or more; points beyond the reference falsify the result.", "quantifier": "all reference points, numbers of objectives and lists of points", "why_tests_cant": "geometric identity over all point sets", "anchors": ["nevergrad/optimization/multiobjective/hypervolume.py:HypervolumeIndicator"]}
{"id": "C26", "title": "The multiobjective single loss is minus the hypervolume for improving points", "statement": "For any history of additions and front requests with known upper bounds, whose first point is within the bounds: a point increasing the dominated volume gets minus the new volume as loss and joins the front; the best volume is the volume dominated by all points added within the bounds, and never decreases; a later non-improving point leaves the front unchanged and gets a loss >= minus the volume (finite when strictly better than the bounds); a point beyond the bounds gets its total excess, a positive loss, and changes nothing. The front dominates the same volume as all the points. Automatic bounds are the largest losses of the retained points. A first point beyond the bounds corrupts the later volumes (finding).", "quantifier": "all histories of additions and front requests, all bounds", "why_tests_cant": "stateful over histories", "anchors": ["nevergrad/optimization/multiobjective/core.py:HypervolumePareto.add", "nevergrad/optimization/multiobjective/core.py:HypervolumePareto._calc_hypervolume"]}
{"id": "C27", "title": "NSGA-II ranking sorts by dominance", "statement": "For two objectives, compare is Pareto dominance; the computed fronts partition the candidates, each front member is undominated among members of the same and later fronts, and each later-front member is dominated by someone in the previous front; selection keeps min(n, n_selected). For three or more objectives compare is a majority vote that may cycle, so candidates can be dropped (finding).", "quantifier": "all populations and loss vectors", "why_tests_cant": "all populations", "anchors": ["nevergrad/optimization/multiobjective/nsga2.py:FastNonDominatedRanking", "nevergrad/optimization/multiobjective/nsga2.py:rank"]}
{"id": "C28", "title": "Standardized data round-trips", "statement": "For any parametrization tree of arrays, scalars, constants, tuples, dicts: set_standardized_data(d, reference=r) then get_standardized_data(reference=r) returns d; get then set restores the values; get with reference self is the zero vector.", "quantifier": "all trees, references with nonzero sigmas, data vectors", "why_tests_cant": "all tree shapes", "anchors": ["nevergrad/parametrization/core.py:Parameter.get_standardized_data", "nevergrad/parametrization/container.py:Container", "nevergrad/parametrization/data.py:Data"]}
{"id": "C29", "title": "dimension is the size of the standardized data, wrong sizes are rejected unchanged", "statement": "For any tree, dimension equals the length of its standardized data; set_standardized_data with any other length raises and leaves the tree unchanged.", "quantifier": "all trees and all vectors", "why_tests_cant": "all tree shapes", "anchors": ["nevergrad/parametrization/container.py:Container._internal_set_standardized_data", "nevergrad/parametrization/data.py:Data.dimension"]}
{"id": "C30", "title": "Frozen parameters do not change", "statement": "After freeze, every value/standardized-data/mutate/recombine modification of the parameter or of any of its subparameters raises and no value changes; freezing never unfreezes; a spawned child is unfrozen at every level.", "quantifier": "all trees, all sequences of operations", "why_tests_cant": "all trees and operation sequences", "anchors": ["nevergrad/parametrization/core.py:Parameter.freeze", "nevergrad/parametrization/core.py:Parameter._check_frozen", "nevergrad/parametrization/core.py:Parameter.copy"]}
{"id": "C31", "title": "spawn_child and copy are independent of the original and record heritage", "statement": "A child has the parent's value, generation + 1, parents_uids [parent.uid], the parent's lineage, no loss, a new uid; sample resets generation and lineage. Modifications of the child do not change the parent.", "quantifier": "all trees and modifications", "why_tests_cant": "aliasing across all trees", "anchors": ["nevergrad/parametrization/core.py:Parameter.spawn_child", "nevergrad/parametrization/core.py:Parameter.copy", "nevergrad/parametrization/core.py:Parameter._set_parenthood"]}
{"id": "C32", "title": "Container values round-trip and key mismatches are rejected", "statement": "Setting a Dict/Tuple/Instrumentation value with matching structure and reading it returns that value; setting with different keys/length raises and changes nothing.", "quantifier": "all container trees and values", "why_tests_cant": "all structures", "anchors": ["nevergrad/parametrization/container.py:Dict", "nevergrad/parametrization/container.py:Tuple"]}
{"id": "C33", "title": "Layers are always ordered by level, insertion order within a level", "statement": "After any sequence of add_layer calls, layers are sorted by level, the root first, equal levels in insertion order, each layer's stored index is its position; copying preserves the sequence.", "quantifier": "all add_layer sequences", "why_tests_cant": "all sequences", "anchors": ["nevergrad/parametrization/_layering.py:Layered.add_layer", "nevergrad/parametrization/_layering.py:Layered.copy"]}
{"id": "C34", "title": "Bounded values are within bounds", "statement": "For clipping and bouncing bounds (one or both bounds, per-coordinate), the value read is always within the bounds, equal to the raw value when that is within, clipping is the nearest point, and transform is idempotent; backward accepts exactly the in-bounds values.", "quantifier": "all reals (all finite arrays), all bounds", "why_tests_cant": "all inputs", "anchors": ["nevergrad/parametrization/transforms.py:Clipping", "nevergrad/parametrization/utils.py:BoundChecker"]}
{"id": "C35", "title": "arctan/tanh/cdf bounds map into the bounds and invert", "statement": "forward maps every real strictly inside (a_min, a_max), is strictly increasing, and backward inverts it on the open interval.", "quantifier": "all reals, all a_min < a_max", "why_tests_cant": "continuum of inputs", "anchors": ["nevergrad/parametrization/transforms.py:TanhBound", "nevergrad/parametrization/transforms.py:ArctanBound", "nevergrad/parametrization/transforms.py:CumulativeDensity"]}
{"id": "C36", "title": "Affine, Add, Multiply, Exponent and Power are inverted by their backward", "statement": "backward(forward x) = x and forward(backward y) = y for nonzero scale; Reverted swaps both; chains of layers round-trip: setting a value through layers and reading it gives it back.", "quantifier": "all inputs and all stacks of invertible layers", "why_tests_cant": "all stacks", "anchors": ["nevergrad/parametrization/transforms.py:Affine", "nevergrad/parametrization/_datalayers.py:Add", "nevergrad/parametrization/_datalayers.py:Multiply", "nevergrad/parametrization/_datalayers.py:Exponent"]}
{"id": "C37", "title": "Integer casting is within bounds and nearest", "statement": "For bounds that contain an integer, the integer value read is within the bounds and is the nearest integer of the raw value or the extreme integer in the bounds; without a contained integer it can be out of bounds (finding).", "quantifier": "all values and bounds", "why_tests_cant": "rounding at all boundaries", "anchors": ["nevergrad/parametrization/_layering.py:Int._layered_get_value"]}
{"id": "C38", "title": "Modulo layer", "statement": "The value read lies in [0, m) for every raw value and m>0; setting an in-range value v and reading gives v (m itself reads back 0), and moves the raw value by less than m.", "quantifier": "all values and moduli", "why_tests_cant": "all reals", "anchors": ["nevergrad/parametrization/_datalayers.py:Modulo"]}
{"id": "C39", "title": "Choice returns one of its options", "statement": "For any weights (NaN and infinities included) and any random draw, the chosen index is a valid option index; deterministic choice is the first largest weight ignoring NaN; setting index i then deterministic reading gives i.", "quantifier": "all weight matrices and random draws", "why_tests_cant": "all floats", "anchors": ["nevergrad/parametrization/discretization.py:Encoder", "nevergrad/parametrization/_datalayers.py:SoftmaxSampling", "nevergrad/parametrization/choice.py:BaseChoice"]}
{"id": "C40", "title": "Tabu list remembers exactly the last tabu_length accepted values", "statement": "After any sequence of constraint checks against a reference with tabu length n, the tabu set equals the last n accepted values; a value is refused iff among those (and fewer than 30 fails).", "quantifier": "all sequences of checks", "why_tests_cant": "history dependent ring buffer", "anchors": ["nevergrad/parametrization/core.py:Parameter.satisfies_constraints"]}
{"id": "C41", "title": "Latin hypercube: one point per cell in each coordinate", "statement": "The budget points of the LHS sampler have, for each coordinate, exactly one point in each of the budget equal cells of [0,1); sampling beyond the budget fails; reinitialize replays the same points.", "quantifier": "all dimensions, budgets, permutations and in-cell offsets", "why_tests_cant": "all random draws", "anchors": ["nevergrad/optimization/sequences.py:LHSSampler"]}
{"id": "C42", "title": "Halton/van der Corput points are in [0,1), pairwise distinct and equidistributed", "statement": "For each prime base b and each digit permutation fixing 0, the values lie in [0,1), are pairwise distinct, and among the first b^k values each interval [j/b^k,(j+1)/b^k) contains exactly one.", "quantifier": "all bases >= 2, all indices, all permutations", "why_tests_cant": "all lengths", "anchors": ["nevergrad/optimization/sequences.py:HaltonSampler"]}
{"id": "C43", "title": "The prime table is the first primes in order", "statement": "_get_first_primes(n) returns the first n primes in increasing order for every n whose sieve bound is an upper bound of the n-th prime.", "quantifier": "all n", "why_tests_cant": "all n", "anchors": ["nevergrad/optimization/sequences.py:_get_first_primes"]}
{"id": "C44", "title": "Rescaler maps the sample into the open unit cube", "statement": "After fitting on points of the open cube with non-constant coordinates, every point of the fit set is mapped in [eps,1-eps] with min mapped to eps and max to 1-eps, order preserved.", "quantifier": "all point sets", "why_tests_cant": "all point sets", "anchors": ["nevergrad/optimization/sequences.py:Rescaler"]}
{"id": "C45", "title": "Splitting a benchmark partitions the experiments", "statement": "For any number of splits, nested arbitrarily, each experiment index of the original chunk belongs to exactly one part, and len of each part equals the number of its experiments.", "quantifier": "all totals, split counts and nestings", "why_tests_cant": "all nestings", "anchors": ["nevergrad/benchmark/core.py:Moduler", "nevergrad/benchmark/core.py:BenchmarkChunk"]}
{"id": "C46", "title": "Interrupted benchmark computations resume without loss or repetition", "statement": "Whatever the crash points, repeatedly calling compute until success yields the list of summaries of each selected experiment exactly once in order.", "quantifier": "all crash sequences", "why_tests_cant": "crash points unbounded", "anchors": ["nevergrad/benchmark/core.py:BenchmarkChunk.compute"]}
{"id": "C47", "title": "Mocked executor delivers in simulated time order", "statement": "In steady mode at most one job is done at any time, jobs are delivered by non-decreasing release time with ties by submission order, simulated time never decreases, and every submitted job is delivered once.", "quantifier": "all schedules of submissions and delays", "why_tests_cant": "all schedules", "anchors": ["nevergrad/benchmark/execution.py:MockedTimedExecutor"]}
{"id": "C48", "title": "Pickled sequential recast optimizers replay to the same state", "statement": "Restoring a pickled recast optimizer that replays a deterministic thread reaches a state that produces the same subsequent asks as the original, for any history of asks followed by their tells without penalty at pickling time; a thread asking for other points is detected: restoring raises. Findings: this fails for penalised or refused candidates, candidates told again, a candidate pending after the thread returned, and a thread still alive just after returning.", "quantifier": "all histories and deterministic threads", "why_tests_cant": "all histories", "anchors": ["nevergrad/optimization/recaster.py:SequentialRecastOptimizer"]}
{"id": "C49", "title": "Batch recast sends each batch its own losses, once, in position order", "statement": "For any order of tells, the batch is answered once all its points are told, with the i-th loss being that told for the i-th point; asking raises exactly when every point was handed out and some are not told. Findings: an empty batch blocks, and a candidate refused by constraints is never told, so that its batch is never answered.", "quantifier": "all tell orders", "why_tests_cant": "permutations of all sizes", "anchors": ["nevergrad/optimization/recaster.py:BatchRecastOptimizer"]}
{"id": "C50", "title": "Iteration helpers", "statement": "pairwise, grouper and roundrobin produce exactly the documented sequences: roundrobin is a merge that keeps every element once and takes the k-th elements of all inputs before any (k+1)-th.", "quantifier": "all finite iterables", "why_tests_cant": "all inputs", "anchors": ["nevergrad/common/tools.py:pairwise", "nevergrad/common/tools.py:grouper", "nevergrad/common/tools.py:roundrobin"]}
{"id": "C51", "title": "set_env restores the environment", "statement": "After the with block (normal or exceptional exit), all environment variables named are as before, others as left by the body; a lower-case name raises and changes nothing. If the body deletes a variable, exit raises (finding).", "quantifier": "all environments and bodies", "why_tests_cant": "all environments", "anchors": ["nevergrad/common/tools.py:set_env"]}
{"id": "C52", "title": "Registry never overwrites", "statement": "register of an existing name raises and changes nothing; lookups return the object last registered under the name; unregister removes it; stale info survives an unregister (finding).", "quantifier": "all operation sequences", "why_tests_cant": "all histories", "anchors": ["nevergrad/common/decorators.py:Registry"]}
{"id": "C53", "title": "DE crossovers mix two vectors coordinatewise", "statement": "For every crossover mode and random draw, each coordinate of the result is the donor's or the individual's at that coordinate; with dimension >= 2 the one and two points crossovers keep at least one coordinate from each.", "quantifier": "all vectors, dimensions, draws", "why_tests_cant": "all random draws", "anchors": ["nevergrad/optimization/differentialevolution.py:Crossover"]}
{"id": "C54", "title": "Jumping and Translation permute the array", "statement": "The mutated array is a permutation of the original (a rotation for Translation), whatever the random draws; crossover recombination takes a contiguous block from the second parent and the rest from the first.", "quantifier": "all arrays and draws", "why_tests_cant": "all draws", "anchors": ["nevergrad/parametrization/mutation.py:Jumping", "nevergrad/parametrization/mutation.py:Translation", "nevergrad/parametrization/mutation.py:_make_slices"]}
{"id": "C55", "title": "Symmetrised test functions are permuted copies", "statement": "Each symmetry index in [0,2^d) yields a sign pattern, distinct indices yield distinct patterns, applying the symmetry twice is the identity.", "quantifier": "all dimensions and indices", "why_tests_cant": "all dimensions", "anchors": ["nevergrad/functions/base.py:ArrayExperimentFunction"]}
{"id": "C56", "title": "Early stopping criteria", "statement": "The duration/no-improvement criteria stop exactly when specified: no_improvement stops at the first ask after more than window consecutive tells... without strict improvement beyond tolerance.", "quantifier": "all loss histories", "why_tests_cant": "histories", "anchors": ["nevergrad/optimization/callbacks.py:_LossImprovementToleranceCriterion", "nevergrad/optimization/callbacks.py:EarlyStopping"]}
{"id": "C57", "title": "Template instantiation replaces each placeholder once", "statement": "Instantiating a text with placeholders replaces each by its value, fails when a value is missing, unused or duplicated, and leaves other text unchanged.", "quantifier": "all texts and value maps", "why_tests_cant": "all texts", "anchors": ["nevergrad/parametrization/instantiate.py:Placeholder.sub", "nevergrad/parametrization/instantiate.py:FileTextFunction"]}
{"id": "C58", "title": "Sleeper advice is within its limits", "statement": "The advised sleep duration always lies in [min, max], and equals the clipped tenth of the mean of the last recorded durations.", "quantifier": "all timer histories", "why_tests_cant": "histories", "anchors": ["nevergrad/common/tools.py:Sleeper"]}
{"id": "C59", "title": "Constraint penalties are non-negative and zero exactly on feasible values", "statement": "The penalty of a value is non-negative, zero iff all constraints are satisfied, and non-decreasing in num_ask; update with exponent <1 raises (but keeps the bad exponent: finding).", "quantifier": "all constraint outputs", "why_tests_cant": "all outputs", "anchors": ["nevergrad/optimization/utils.py:ConstraintManager", "nevergrad/parametrization/utils.py:float_penalty"]}
{"id": "C60", "title": "flatten keeps every leaf under its dotted path", "statement": "flatten of a nested dict/list keeps exactly one entry per leaf, keyed by the dotted path.", "quantifier": "all nested structures", "why_tests_cant": "all structures", "anchors": ["nevergrad/common/tools.py:flatten"]}
{"id": "C61", "title": "Progress callbacks print when announced", "statement": "The progress printer and logger print (log) at the first call after each announced interval of tells or seconds: the seconds clause holds for every history; the tells clause fails (it prints at every tell once started, or never when registered late: findings).", "quantifier": "all histories of calls and clocks", "why_tests_cant": "histories", "anchors": ["nevergrad/optimization/callbacks.py:OptimizationPrinter", "nevergrad/optimization/callbacks.py:OptimizationLogger"]}
{"id": "C62", "title": "Angles", "statement": "An Angles parameter always reads an angle in (-pi, pi]; setting an angle of this range and reading gives it back; the distance of the raw coordinates to the origin does not matter.", "quantifier": "all raw coordinates and angles", "why_tests_cant": "continuum of inputs", "anchors": ["nevergrad/parametrization/_datalayers.py:AngleOp", "nevergrad/parametrization/_datalayers.py:Angles"]}
{"id": "C63", "title": "Discretization by thresholds", "statement": "Discretizing any float (NaN and infinities included) with arity n gives an integer of [0, n-1]; the (noisy) inverse of an index is discretized to this index, for the same arity.", "quantifier": "all floats, arities and indices", "why_tests_cant": "all floats", "anchors": ["nevergrad/parametrization/discretization.py:threshold_discretization", "nevergrad/parametrization/discretization.py:inverse_threshold_discretization", "nevergrad/parametrization/discretization.py:noisy_inverse_threshold_discretization"]}
{"id": "C64", "title": "Transition choices", "statement": "The index of a TransitionChoice is always that of an option; options have equal shares of a centered normal; setting an index (or a value among constants) reads it back; a mutation moves each index by a number of steps drawn in proportion to the transition weights, up or down, stopping at the ends.", "quantifier": "all raw data, weights, draws, numbers of options", "why_tests_cant": "all draws and histories", "anchors": ["nevergrad/parametrization/choice.py:TransitionChoice", "nevergrad/parametrization/choice.py:BaseChoice"]}
{"id": "C65", "title": "Discrete mutations change bins, and only where drawn", "statement": "Each discrete mutation of the (1+1) optimizers (discrete, portfolio, RLS, FastGA, crossover, coordinatewise) returns a point of the same dimension whose chosen coordinates are in another discretization bin and whose other coordinates are untouched; at least one coordinate is chosen (exactly one for RLS); the roulette returns the archived point with the smallest pessimistic bound among distinct drawn points.", "quantifier": "all parents, bin functions, arities, intensities, archives and all sequences of random draws (rejected draws included)", "why_tests_cant": "Mutations redraw until acceptance: what holds for every sequence of draws, of any length, cannot be sampled; seeded tests look at one sequence.", "anchors": ["nevergrad/optimization/mutations.py:Mutator"]}
{"id": "C66", "title": "Self-adaptation of the (1+1) optimizers", "statement": "Without noise, the step size of the (1+1) optimizer is two to the number of record losses times 0.84 to the number of losses above the record; the adaptive, discreteBSO, lengler and log-normal mutation rates stay in their ranges (at least one coordinate, at most all); the log-normal rate is that of the best tell of the last complete window; annealing restarts from told points only; the doerr mutation always uses one of its rates and prefers the most rewarded one.", "quantifier": "all histories of told losses, draws, dimensions, arities, memory sizes and budgets", "why_tests_cant": "The adaptation compounds over the whole history: ranges and closed forms must hold after any number of tells in any order, which examples of a few tells cannot show.", "anchors": ["nevergrad/optimization/optimizerlib.py:_OnePlusOne", "nevergrad/optimization/optimizerlib.py:_OnePlusOne._internal_tell", "nevergrad/optimization/optimizerlib.py:_OnePlusOne._internal_ask_candidate"]}
{"id": "C67", "title": "Population sizes and generations of TBPSA and EDA", "statement": "The population of TBPSA and of the estimation of distribution algorithms always has at least as many children as workers and at least four times as many children as parents, never fewer parents than min(initial size, dimension), and grows at most linearly with the number of tells; with one worker the number of parents doubles, or shrinks by 16%, every five generations according to a test of two standard errors. Each generation ends with as parents exactly the best children and as centre (the recommendation) their mean; the covariance of EDA stays symmetric positive semi-definite; the step size stays positive unless a point told without asking is the current centre.", "quantifier": "all sequences of told losses, asks, tells in any order, injected points, dimensions, initial sizes and numbers of workers", "why_tests_cant": "The sizes adapt over the whole history and generations overlap with resizing and with pending candidates; a test fixes one history, while a wrong size at any point (fewer children than parents) would silently corrupt the mean.", "anchors": ["nevergrad/optimization/optimizerlib.py:_PopulationSizeController", "nevergrad/optimization/optimizerlib.py:_TBPSA", "nevergrad/optimization/optimizerlib.py:EDA"]}
{"id": "C68", "title": "Particle swarm: the swarm, its best points and its moves", "statement": "With PSO (any variant and popsize), whatever the history the swarm never has more than popsize particles and no tell raises; no ask raises either when each candidate is told once and fewer than popsize candidates are outstanding. The point attracting the whole swarm is a told candidate of least loss; telling an asked candidate moves its particle there and touches no other; a point told without being asked replaces a particle of greatest loss unless it is worse; the personal best of a particle is the best among all its past positions. Moves of the bounded variants stay in the box of their transform. Exceptions found: penalties are forgotten for the best point, particles told without being asked are not their own best, more workers than particles can raise KeyError, the default arctan transform can be sent to its pole.", "quantifier": "every population size, every interleaving of asks, tells, suggested points and repeated tells, all losses, all speeds, positions and random weights", "why_tests_cant": "the swarm depends on the whole history of tells through uids, lineages and inherited personal bests; tests run a few short sequential optimizations", "anchors": ["nevergrad/optimization/optimizerlib.py:_PSO", "nevergrad/optimization/optimizerlib.py:ConfPSO", "nevergrad/optimization/utils.py:UidQueue"]}
{"id": "C69", "title": "A chain of optimizers uses each one for its budget and feeds it with what happened before", "statement": "Chaining(optimizers, budgets): each named budget (half, third, sqrt, equal...) means what it says, the last optimizer has the rest of the budget (at least 4) and the budgets sum to max(budget, earlier + 4). Every ask goes to the optimizer in charge of that number of asks and to no other; without suggestion nor refused candidate the number of asks of each optimizer is exactly its share. Each optimizer is told, in order, the first tells up to the sum of the budgets up to its own, the last one is told everything; so an optimizer which is asked has been told everything told so far. With no_crossing, within the budget, an optimizer is only told candidates it proposed, and each loss goes to the optimizer which proposed the candidate if it arrives early enough. Refuted: sums equal to the budget; tell accepted when a sub-optimizer refuses foreign points (half of them are told, and again on retry); no_crossing beyond the budget and for suggestions (nobody is told); nested chains with no_crossing (the label is shared).", "quantifier": "all sub-optimizers (any state and any ask/tell functions), all lists of budgets, all histories of asks (with refused candidates), suggestions and tells", "why_tests_cant": "the optimizer in charge depends on the whole sequence of asks and tells, and the results may arrive in any order; tests run one short sequential minimize", "anchors": ["nevergrad/optimization/optimizerlib.py:_Chain", "nevergrad/optimization/optimizerlib.py:Chaining", "nevergrad/optimization/base.py:Optimizer.ask"]}
{"id": "C70", "title": "A portfolio asks its optimizers in turn, tells all of them, and keeps the best one after the warm-up", "statement": "ConfPortfolio(optimizers, warmup_ratio) with num_workers and budget: non-parallelizable optimizers get one worker, the others an equal number of workers, and the turns give each optimizer its number of workers. Until a choice is made the optimizers are asked in this rotation, so among the last pending candidates an optimizer never has more than its workers. Each loss is told to every remaining optimizer, and the tell is refused (without being counted) if and only if all of them refuse the candidate. After the warm-up the optimizer which proposed the current best candidate is kept, alone and for ever, provided it can use the workers. Within the budget no optimizer is asked more than the sub-budget it was created with (no more workers than optimizers and no warm-up, or sequential with warm-up). An optimizer starts from a random sample only if it is the third or a later one and knows nothing. Refuted: as many turns as workers when warmup_ratio=1; sub-budget with more workers than optimizers; a choice is made after the warm-up when there are several workers each used by one optimizer (it never is); a candidate asked before the choice can be told afterwards; all optimizers but the first start from a sample (only from the third on), and then the tell of that sample is refused by optimizers refusing unasked points; creation with only non-parallelizable optimizers and more workers (ZeroDivisionError).", "quantifier": "all numbers of optimizers, workers, budgets and warm-up ratios, all sub-optimizers (any state and ask/tell functions), all histories of asks and tells", "why_tests_cant": "turns, counts and the choice depend on the number of workers, the budget and the whole history of asks and tells", "anchors": ["nevergrad/optimization/optimizerlib.py:ConfPortfolio", "nevergrad/optimization/optimizerlib.py:Portfolio"]}
{"id": "C71", "title": "A split optimizer partitions the variables and each sub-optimizer sees exactly its own group", "statement": "ConfSplitOptimizer: whatever the configuration, the groups of variables are non-empty and cover the dimension exactly; num_optims gives that many groups (no more than variables) of sizes equal up to one, num_vars is respected if positive and summing to the dimension and refused if it does not, max_num_vars gives full groups and a last one, by default one group per array of the parametrization. Each ask asks each sub-optimizer once and the candidate is the concatenation of their points. Telling a candidate tells each sub-optimizer its own proposal, once; any other point is told as its coordinates of the group. With progressive, a group is left at the centre until its time comes, the first one is never left, and all are used after half the budget. Refuted: num_vars with trailing zeros is silently changed; a tell refused by one sub-optimizer has been made to the others, and retrying fails with a KeyError; the tell of a candidate repaired by the constraint solver fails with a KeyError.", "quantifier": "all configurations and dimensions, all sub-optimizers (any state and ask/tell functions of the right dimension), all histories of asks and tells", "why_tests_cant": "the groups depend on arithmetic over all dimensions and options; the routing of losses depends on the whole history of pending candidates", "anchors": ["nevergrad/optimization/optimizerlib.py:SplitOptimizer", "nevergrad/optimization/optimizerlib.py:ConfSplitOptimizer"]}
{"id": "C72", "title": "A rescaled optimizer works on the rescaled function", "statement": "Rescaled(base_optimizer, scale): candidates are the points proposed by the base optimizer multiplied by the scale; every loss the base optimizer is told for a point is a loss told for that point at the scale, whether the candidate was asked or not; what it is told as its own it proposed; each tell reaches it once as long as none failed. The default scale is positive when the budget is at least 2. Refuted: with a budget of 1 the default scale is 0 and the creation fails; with a shift, told points are not translated back.", "quantifier": "all base optimizers, scales, points and histories of asks and tells", "why_tests_cant": "quantifies over all points, scales and histories; tests only run a few iterations and look at nothing but the absence of errors", "anchors": ["nevergrad/optimization/optimizerlib.py:_Rescaled", "nevergrad/optimization/optimizerlib.py:Rescaled"]}
{"id": "C73", "title": "Recombination is the mean, mutation adds the noise drawn", "statement": "After a recombination, at every position of a parametrization without bounds, the standardized data for any reference are the mean of those of the parameter and of all the others; a mutation of an array changes its standardized data by exactly the numbers drawn (scaled by the mutated sigma); with no other parameter, nothing changes. Containers do not satisfy the second part: their parts move by two draws.", "quantifier": "every reachable parametrization, every list of other parametrizations of the same structure, every position in it, every reference and every sequence of random draws", "why_tests_cant": "the result combines nested structures of any depth, sigmas which may themselves be recombined, and any number of parents; tests recombine one or two fixed parameters", "anchors": ["nevergrad/parametrization/core.py:Parameter.recombine", "nevergrad/parametrization/core.py:Parameter.mutate", "nevergrad/parametrization/data.py:Data._layered_recombine", "nevergrad/parametrization/container.py:Container._layered_recombine"]}
{"id": "C74", "title": "NGOpt always finds an optimizer which can run the problem", "statement": "For every problem with a budget (any dimension, number of workers, kind of variables, noise, bounds, number of objectives), every optimizer of the NGOpt family chooses optimizers which can be created: creation never fails, no part gets more workers than were asked for, and optimizers which work one point at a time never get several workers. Without noise and with one variable NGOpt never relies on CMA-ES; with noise it includes an optimizer which evaluates points again. The exact cases in which NGOpt works without a budget are given.", "quantifier": "all eighteen variants, all dimensions, budgets, numbers of workers, parametrization and function flags, all sub-budgets and sub-workers of nested portfolios and chains", "why_tests_cant": "The choice depends on a dozen interacting thresholds and the choice is applied again inside portfolios, with other budgets and numbers of workers; a test fixes one combination, and a bad combination (a sequential optimizer with two workers) fails only there.", "anchors": ["nevergrad/optimization/optimizerlib.py:NGOptBase._select_optimizer_cls", "nevergrad/optimization/optimizerlib.py:NGOpt39._select_optimizer_cls", "nevergrad/optimization/optimizerlib.py:NGOpt8._select_optimizer_cls", "nevergrad/optimization/optimizerlib.py:MetaCMA._select_optimizer_cls", "nevergrad/optimization/optimizerlib.py:Portfolio.__init__", "nevergrad/optimization/base.py:Optimizer.__init__"]}
{"id": "C75", "title": "The compact genetic algorithm keeps proper distributions moved only by comparisons", "statement": "After any sequence of tells of cGA, each variable has a probability distribution over its values in which no value has probability below 1/(llambda + arity + 1). The distributions are exactly those produced from the uniform ones by comparing the told candidates two by two in order (the first wins ties; an unpaired last one waits): in each variable where they differ, 1/llambda goes from the loser's value to the winner's, no probability is left below 1/llambda, and the result is normalised. A winner at least as probable as another value becomes strictly more probable. A draw u gives value v exactly on an interval whose length is the probability of v. With more values than llambda (the default arity is 500, llambda 40) no probability ever exceeds 1/(arity - llambda): nothing can be learnt.", "quantifier": "every dimension, arity, llambda, sequence of told candidates and losses, every draw", "why_tests_cant": "distributions depend on the whole history of comparisons; tests run a few asks and check that nothing raises, so they cannot see a distribution drifting below its minimum, or that nothing is ever learnt with the default arity", "anchors": ["nevergrad/optimization/optimizerlib.py: cGA.__init__", "nevergrad/optimization/optimizerlib.py: cGA._internal_ask_candidate", "nevergrad/optimization/optimizerlib.py: cGA._internal_tell_candidate"]}
{"id": "C76", "title": "SPSA evaluates symmetric pairs, moves against the estimated slope and recommends the mean of its centres", "statement": "With asks and tells one after the other, SPSA's candidates come by pairs on both sides of a centre, at the same distance c_j along the drawn direction. The centre starts at the reference and moves after each pair by -a_{j+1} (loss of the second - loss of the first) / (2 c_{j+1}) along that direction. The recommendation is the mean of all the centres so far. On a linear function neither the centres nor the recommendation ever go up. Violated otherwise: a point told (or suggested) before the first ask makes all later candidates NaN, and asking again without telling moves the centre again with the old losses.", "quantifier": "every dimension, gain sequences, number of rounds, directions and losses; every history after an early tell", "why_tests_cant": "the centre depends on all rounds so far and the recommendation on all centres; tests compare a final loss with a threshold on one function, with asks and tells in strict alternation and no suggestion", "anchors": ["nevergrad/optimization/optimizerlib.py: SPSA._internal_ask", "nevergrad/optimization/optimizerlib.py: SPSA._internal_tell", "nevergrad/optimization/optimizerlib.py: SPSA._internal_provide_recommendation"]}
{"id": "C77", "title": "CMA hands out its strategy's points in order and reports every evaluation once", "statement": "For any interleaving of asks and tells, with restarts of the evolution strategy and with points told but not asked: the strategy's points are returned one by one in order, each once, and it is asked for more only when all have been returned; every told candidate reaches a strategy exactly once, in the order of the tells, with its loss, in batches of exactly the population size, the last ones waiting; new candidates descend from the best half of the last accepted batch; nothing is raised. Violated: the strategy is told the losses before constraint penalties, and a candidate told twice appears twice with its last loss.", "quantifier": "every evolution strategy (as arbitrary functions), population size, and interleaving of asks and tells", "why_tests_cant": "the interleavings of asks, tells, restarts and foreign points are unbounded; tests run one sequential history with one strategy", "anchors": ["nevergrad/optimization/optimizerlib.py: _CMA._internal_ask_candidate", "nevergrad/optimization/optimizerlib.py: _CMA._internal_tell_candidate", "nevergrad/optimization/optimizerlib.py: _CMA.es"]}
{"id": "C78", "title": "A metamodel proposes points only near the best points, when it ranks them correctly, and not too often", "statement": "With a metamodel added to an optimizer: the metamodel is consulted only when the archive has enough points, and at most once every max(13, workers, dimension) asks; if it proposes nothing, the candidate is the optimizer's and asking does not fail. A proposal is within the ball centred at the mean of the k best points whose radius is the distance between the best and the worst of them (plus 1e-15); it is made only if the regression ranks these points exactly as their losses do, and predicts for the proposal at most the normalised loss of the first one. With degree 1 in dimension 1 it never proposes anything.", "quantifier": "every archive, dimension, number of workers, regression and minimisation (as arbitrary functions), and number of asks", "why_tests_cant": "the safeguards matter for regressions and archives which tests never produce; tests only run a metamodel on the sphere and compare final losses", "anchors": ["nevergrad/optimization/optimizerlib.py: _MetaModel._internal_ask_candidate", "nevergrad/optimization/metamodel.py: learn_on_k_best"]}
{"id": "C79", "title": "EMNA is centred on the mean of the best candidates of the last generation", "statement": "Told candidates count in generations of fixed size. Between two generations the distribution asked from does not change; at the end of one it is centred on the mean of the mu candidates with the smallest losses and its scale is that of their deviations from the mean. The generation size never exceeds the budget. What is not as documented: with isotropic=True there is a scale for each coordinate and with isotropic=False (separable) a single one; a budget of at most 3 makes the last tell raise ZeroDivisionError; mu equal best candidates freeze the search at that point.", "quantifier": "every dimension, population sizes, budget, number of workers, every sequence of told candidates and losses, every draw", "why_tests_cant": "The centre and scale depend on all the told losses of a generation, including ties, and the swapped scales are only visible by comparing the coordinates of the candidates over many draws.", "anchors": ["nevergrad/optimization/optimizerlib.py:_EMNA"]}
{"id": "C80", "title": "NoisyBandit's exploration schedule", "statement": "At every ask, NoisyBandit draws a new point exactly when 20 times the number of asks already made is at least the cube of the number of distinct points told so far; otherwise it asks again a point already told, either an arbitrary one of them or one whose optimistic estimate, computed from all its losses, is the smallest of all. Asking never fails. With at most w drawn points waiting for their first evaluation, the number of drawn points exceeds the cube root of 20(asks - 1) by at most w; with one worker the number of arms after n evaluations is n up to five and then the smallest number whose cube exceeds 20(n - 1). Points told from outside count as arms and delay the draws.", "quantifier": "every interleaving of asks, tells and tells of points that were not asked, every losses, every random draw, every number of rounds and of pending points", "why_tests_cant": "The growth law is a statement about all lengths of history and all interleavings, and the choice of the most promising arm depends on all losses told; tests run one optimizer for a few hundred steps and compare the final loss.", "anchors": ["nevergrad/optimization/optimizerlib.py:NoisyBandit._internal_ask", "nevergrad/optimization/base.py:Optimizer.ask", "nevergrad/optimization/base.py:Optimizer._update_archive_and_bests", "nevergrad/optimization/utils.py:MultiValue.optimistic_confidence_bound"]}
{"id": "C81", "title": "An NGOpt optimizer uses the optimizer it selects exactly as a user would", "statement": "After any history of asks, suggestions and tells of an optimizer of the NGOpt family with one objective, the optimizer it selected is in the state obtained by creating it and making, in order, the asks and tells addressed to it; it is not created before the first one. Without constraints the selected optimizer lives exactly the history of the user (same calls, candidates and errors) without the suggestions. Consequences of using the public interface: a loss of a candidate violating a constraint is penalised twice; if no candidate satisfies the constraints one ask makes the product of the two numbers of trials of calls of the algorithm; at the first multi-objective loss (NGOpt8 and later) the selected optimizer is dropped and a new DE is told a candidate it never asked; when the selection raises AssertionError (no budget) asks raise it, except that with a registered constraint they succeed and return the initial point, and no tell ever succeeds.", "quantifier": "every selected optimizer (any algorithm, constraints, callbacks, archive), every history of asks, suggestions and tells including those raising errors, every state", "why_tests_cant": "Equality with the direct use of the selected optimizer concerns all histories of two optimizers, each with its own retries, penalties, counters and errors; a test follows one selected optimizer on one short history.", "anchors": ["nevergrad/optimization/optimizerlib.py: NGOptBase.optim, NGOptBase._internal_ask_candidate, NGOptBase._internal_tell_candidate, NGOptBase._internal_tell_not_asked, NGOpt8._num_objectives_set_callback", "nevergrad/optimization/base.py: Optimizer.ask, Optimizer.tell, Optimizer.num_objectives"]}
{"id": "C82", "title": "One-shot optimizers follow a fixed design within their budget", "statement": "For one-shot optimizers (random search, quasi-random sampling, Latin hypercube, with or without middle point and opposition), the k-th candidate that is not a suggestion is the k-th point of a design which does not depend on anything told: the origin first if the middle point is requested and the first candidate returned is not a suggestion, then the sampler's points in order, each followed by its opposite (times a factor in [0,1], equal to 1 for 'opposite') in opposition mode. As long as fewer asks than the budget have returned, ask succeeds; once the sampler is used up it raises AssertionError. The averaging recommendations are means of the k best points of the archive, with k between 1 and the archive size. Not so with constraints: rejected points use up the sampler and ask then returns children of the initial parametrization.", "quantifier": "all configurations, samplers, random factors, budgets, and all histories of asks, suggestions and tells with any losses; all archives", "why_tests_cant": "The design must be followed after every interleaving of asks, suggestions and (possibly refused) tells, for every sampler and budget; tests run a few fixed configurations in a loop ask/tell.", "anchors": ["nevergrad/optimization/oneshot.py:_RandomSearch", "nevergrad/optimization/oneshot.py:_SamplingSearch", "nevergrad/optimization/oneshot.py:avg_of_k_best", "nevergrad/optimization/base.py:Optimizer.ask"]}
{"id": "C83", "title": "Where the optima of the test functions are", "statement": "For the artificial test functions offered for benchmarking (sphere and translated spheres, cigars, ellipsoids, Rastrigin, Ackley, Griewank, Schwefel, Rosenbrock, Lunacek, multipeak, Gaussian peak, deceptive path and multimodal functions, discrete onemax, leadingones, jump), in each dimension for which the function is defined, the value is a number for each vector, never below the documented minimum, and equal to it at the documented optimum only. Step functions keep the order and stay within a factor e of the function they discretise. Discrete functions round to the nearest integer, ties to even, count wrong coordinates, the suffix after the correct prefix, and jump has its minimum -(n/4) at the target only, with a valley of points worse than all others next to it. Cases where this fails are stated: deceptiveillcond, hm, slope, linear, and the corner peak have no minimum, bentcigar tends to its minimum far from the optimum, Styblinski-Tang takes negative values.", "quantifier": "all dimensions and all real (or rational, for discrete functions) vectors", "why_tests_cant": "The claim is about the minimum over an uncountable set in every dimension; tests evaluate a few points, usually the optimum itself.", "anchors": ["nevergrad/functions/corefuncs.py: sphere, cigar, altcigar, discus, bentcigar, multipeak, ellipsoid, altellipsoid, stepellipsoid, rastrigin, bucherastrigin, doublelinearslope, hm, rosenbrock, ackley, schwefel_1_2, griewank, deceptiveillcond, deceptivepath, deceptivemultimodal, lunacek, genzcornerpeak, minusgenzgaussianpeakintegral, slope, linear, st0, DiscreteFunction"]}
{"id": "C84", "title": "Artificial functions keep the optimum of the core function", "statement": "An artificial benchmark function applies its core function to disjoint blocks of randomly drawn variables, after a translation and possibly a rotation, and aggregates the values. Whatever the draws: there are num_blocks blocks of block_dimension distinct variables, no variable is in two blocks, other variables have no influence, and with split each array is a block; if the core function has its minimum at one point only, the minimum of the artificial function is the same value (times the number of blocks for the sum), it exists and is reached exactly where each block is the translation plus the inverse rotation of that point; without noise level, calls and evaluations agree whatever the generator returns; the noise is the level times a normal number times the change at a random neighbour, hence centred, and none on one side if dissymmetric. Refuted: zero_pen moves the optimum; hashing with more than one variable cannot be called.", "quantifier": "all core functions, dimensions, numbers of blocks and of useless variables, draws of variables, translations and orthogonal matrices, all inputs and noise draws", "why_tests_cant": "The claim quantifies over all random draws and all inputs; tests use one seed and a few points.", "anchors": ["nevergrad/functions/functionlib.py: ArtificialVariable, ArtificialFunction, _noisy_call, FarOptimumFunction", "nevergrad/functions/utils.py: Transform", "nevergrad/common/tools.py: grouper"]}
{"id": "C85", "title": "Copies of benchmark functions are equivalent to the original, or are refused", "statement": "Copying an ExperimentFunction gives an equivalent function: same class, same arguments, same descriptors, same name of parametrization, same flags, same constraint checkers and same upper bounds; this also holds for copies of copies, however long the chain. A copy is refused with the copy error exactly if a function newly made with the same arguments has a descriptor whose value differs from the original's, or a descriptor was added under one of the two reserved names; descriptors added under new names are kept by copies. Equivalence of functions and equality of experiments are equivalence relations. A MultiExperiment gives the losses of its functions in order, or the first error. Finding: a parametrization replaced by another with the same name is silently lost in copies, so the copy can have another dimension.", "quantifier": "all classes of functions and arguments, all descriptors added afterwards, all chains of copies, all lists of functions", "why_tests_cant": "tests copy a few built-in functions with unchanged descriptors once", "anchors": ["nevergrad/functions/base.py:ExperimentFunction.copy", "nevergrad/functions/base.py:ExperimentFunction.equivalent_to", "nevergrad/functions/base.py:MultiExperiment", "nevergrad/benchmark/xpbase.py:Experiment.__eq__"]}
{"id": "C86", "title": "The result of an experiment says what happened", "statement": "Running an experiment raises only the errors for copies and for unsupported experiments, and always lets these through. On a new experiment the error is empty exactly if the optimizer could be created, the optimization ended normally, its recommendation and constraints could be evaluated and at most the budget was used. Whenever the optimization was reached, the loss is the one of the recommendation, with 10^9 added exactly if a constraint is violated and penalties are on, and the elapsed budget is the number of asks, even if the optimization stopped on an error or used too much budget; otherwise loss and budget keep their values. An error of the final evaluation hides the error of the optimization. Finding: an error is never cleared, so an experiment which is resumed and ends well still reports the old error.", "quantifier": "all outcomes of copy, instantiation, minimization, evaluation and constraint checks, all budgets, all previous results", "why_tests_cant": "each combination of failures is a different path through nested exception handlers; tests exercise two", "anchors": ["nevergrad/benchmark/xpbase.py:Experiment.run", "nevergrad/benchmark/xpbase.py:Experiment._log_results", "nevergrad/benchmark/xpbase.py:Experiment._run_with_error"]}
{"id": "C87", "title": "Arrays, scalars and log-scalars start, stay, read back and sample as documented", "statement": "Scalar(init, lower, upper) and Array(init|shape, lower, upper) are created exactly when the bounds are in order and the initial value (given, or the middle of two bounds, or 0) is within them, with a standard deviation of a sixth of the range; Log(init, exponent, lower, upper) starts from the given value or the geometric mean, with the two bounds at three standard deviations in log space. Whatever number mutation, recombination or an optimizer writes as data, the value read is within the bounds (and positive for Log), it is the data itself when that is within the bounds and bounces once otherwise, reading twice gives the same, and a value that is accepted is the value read back; out-of-bounds values raise ValueError. A scalar made of two bounds only is sampled uniformly over the whole range, a Log log-uniformly. set_bounds and set_mutation(exponent) commute. Refuted: Array(shape, lower, upper) never samples over its range although documented; an exponent below 1 cannot be combined with bounds; calling set_bounds twice raises AttributeError and drops the bounds; Log accepts bounds given in the wrong order.", "quantifier": "all optional initial values, bounds, exponents, bounding methods, all real data and all draws of the samplers", "why_tests_cant": "the claims range over all real data, values and draws, and over both orders of the configuration calls; a test can only try a few numbers and compare means of samples", "anchors": ["nevergrad/parametrization/data.py:Data.__init__", "nevergrad/parametrization/data.py:Data.set_bounds", "nevergrad/parametrization/data.py:Data.set_mutation", "nevergrad/parametrization/data.py:_fix_legacy", "nevergrad/parametrization/data.py:Scalar", "nevergrad/parametrization/data.py:Log", "nevergrad/parametrization/_datalayers.py:BoundLayer", "nevergrad/parametrization/_datalayers.py:Bound"]}
{"id": "C88", "title": "Card games end, keep the cards and declare the right winner", "statement": "For every shuffled pack, every pair of policies of the advertised size and every draw, a game of war, batawaf, guess who or flip ends with player 1, player 2 or a draw, without reading a policy out of bounds; war and batawaf keep the pack, stop in favour of the larger hand and treat both seats alike; flip plays the best legal move that improves on waiting; the loss of a vector lies in [0, 1] and is 0 exactly when both of its halves win. Guess who answers yes for one secret too many, flip matches cards in one direction only and never declares the second seat the winner for having played every card.", "quantifier": "all packs, policies, shuffles, draws and seats", "why_tests_cant": "a game is a long random history through a table of thousands of entries; tests play a few games with random policies and cannot reach every situation or compare both seats", "anchors": ["nevergrad/functions/games/game.py:_Game.war_play_game", "nevergrad/functions/games/game.py:_Game.war_decide", "nevergrad/functions/games/game.py:_Game.guesswho_play_game", "nevergrad/functions/games/game.py:_Game.flip_play_game_nosym", "nevergrad/functions/games/game.py:_Game.flip_value", "nevergrad/functions/games/game.py:Game._simulate_game"]}
{"id": "C89", "title": "Mapping the unit cube to a parameter, deterministic sampling and analysis", "statement": "Mapping a vector of fractions to the data of a parameter gives each number with two bounds the value at that fraction of its range (on the logarithmic scale for logarithmic numbers) and each other number the quantile of a Cauchy law; mapping back returns the fractions and never leaves the unit cube. In a block of deterministic sampling, the values of data that is set do not depend on random draws, and the settings come back after the block, also after an exception. The analysis of a parameter tells exactly whether it draws at random, whether it is ordered and how many options it has. It fails for arrays with two dimensions (a part is transformed twice), for bounds checked as constraints (fractions out of [0,1]), for values read before the block (they stay random), and for random options (said to be continuous).", "quantifier": "all parameters made of bounded, logarithmic and unbounded numbers, all vectors, all blocks and all places where they raise, all random draws, all lists of layers", "why_tests_cant": "tests map a few vectors of one parameter with one-dimensional arrays; the vectors, the stacks of layers and the exceptions in the block cannot be enumerated", "anchors": ["nevergrad/parametrization/helpers.py: Normalizer, _fully_bounded_layers, deterministic_sampling, analyze", "nevergrad/parametrization/_datalayers.py: BoundLayer.set_normalized_value, BoundLayer.get_normalized_value"]}
{"id": "C90", "title": "A parameter's random state: one generator, shared and never repeated", "statement": "Once `parametrization.random_state` is seeded, numpy's global generator has no effect on any later mutation, sample, child, copy or added element, and is not advanced; the parameter, its sub-parameters, children, samples, copies and added elements all share that one generator, and whatever they draw comes from its stream in order with no number given twice. Without a seed, exactly one seed is drawn from the global generator, on the first read. The random-state-free copy made for an experiment gets its own new generator and leaves the original's alone. Two limits: seeding a sub-parameter before the root is read is lost, and a standard deviation replaced by a parameter after seeding draws from the global generator.", "quantifier": "all parameter trees, all programs of reads, seeds, draws, mutations, spawns, samples, copies and insertions, all generators", "why_tests_cant": "Reproducibility must hold for every sequence of operations and every state of the global generator; a test seeds both generators and compares one sequence.", "anchors": ["nevergrad/parametrization/core.py: Parameter.random_state, _set_random_state, spawn_child, copy, _check_frozen", "nevergrad/parametrization/container.py: Container.__setitem__", "nevergrad/parametrization/data.py: Data.set_mutation", "nevergrad/functions/base.py: _reset_copy"]}
{"id": "C91", "title": "How far a mutation or a sample goes, by depth", "statement": "Sampling moves every coordinate of an array by one number of the generator times its standard deviation, at whatever depth the array is, and leaves the parameter unchanged. Mutation moves it by one such number per level: an array within n containers gets n + 1 different numbers of the stream, so that the standard deviation of its mutations depends on how deep it is nested.", "quantifier": "all trees of constants, arrays with fixed standard deviation and containers, all depths, paths and coordinates, all generators", "why_tests_cant": "The number of steps depends on the nesting depth, which is unbounded; tests of mutation look at a bare parameter or only check that the value changed.", "anchors": ["nevergrad/parametrization/core.py: Parameter.mutate, _layered_mutate, sample", "nevergrad/parametrization/container.py: Container._layered_sample, _internal_set_standardized_data", "nevergrad/parametrization/data.py: Data._layered_mutate, Data._layered_sample"]}
{"id": "C92", "title": "HyperOpt hands out what the package draws and records what it is told", "statement": "When HyperOpt makes a search space from an instrumentation (bounded scalars, integer scalars and log-scalars, choices, constants, nested instrumentations), then for every draw of the package from that space the candidate handed out has the drawn configuration as its value, provided no integer scalar is inside a choice; and a candidate told without having been asked is recorded as a legal draw of the space whose configuration is the candidate's value. Recording then drawing the same gives the same value. Refuted: scalars without both bounds make the creation raise; the upper bound of an integer is never handed out; constant arguments cannot be recorded; a choice inside a choice is recorded wrongly; an instrumentation inside a choice can repeat labels, and then creation raises; a draw meant for a log-scalar may be rounded by an integer option.", "quantifier": "all instrumentations (any nesting), all draws of the space, all candidates", "why_tests_cant": "the parametrizations, nestings and draws are unbounded, and the failures show only for particular combinations of options", "anchors": ["nevergrad/optimization/externalbo.py: _hp_parametrization_to_dict, _hp_dict_to_parametrization, _get_search_space, _HyperOpt.__init__, _internal_ask_candidate, _internal_tell_not_asked", "nevergrad/parametrization/choice.py: Choice"]}
{"id": "C93", "title": "Reading a constrained parameter searches for a value satisfying the constraint, and keeps it", "statement": "Reading the value of a parameter with a Constraint layer returns the value itself, after one evaluation, when the constraint is met. Otherwise the points proposed by the layer's optimizer are evaluated in order until one meets the constraint or the budget is spent, and the value read is the evaluated point missing the constraint the least (an undominated one with several constraints and a budget of at most 15): it meets the constraint exactly when one evaluated point does. The same value is read again without evaluation, until another one is assigned; a copy of a satisfied parameter reads the same. Not guaranteed: with optimizers recommending a point of their own every search of two or more points raises; a frozen parameter not read before raises, and a refused assignment loses the value found; the value may be worse than the one replaced; with several constraints a satisfying point beyond the 15th may be ignored; the sign convention is the opposite of the one of a constraint which is not a layer.", "quantifier": "every type of points, constraint function (numbers, nan, vectors of any length, booleans, exceptions), proposal rule of the optimizer, budget, initial point and sequence of reads, assignments, copies and freezes", "why_tests_cant": "The one test reads a constraint on one and three scalars with the default optimizer and checks a fraction of the components; a test cannot range over optimizers, constraint functions, budgets and histories of reads and assignments, and passes although the search raises for a whole family of optimizers", "anchors": ["nevergrad/ops/constraints.py:Constraint", "nevergrad/parametrization/core.py:register_cheap_constraint", "nevergrad/optimization/base.py:pareto_front", "nevergrad/optimization/callbacks.py:EarlyStopping"]}
{"id": "C94", "title": "Win rates count each case once and rank optimizers by their mean rate", "statement": "The table of a fight plot gives, for every pair of optimizers, the points of the first against the second (one for a lower mean loss over the runs of a case, half for the same mean) divided by the number of cases in which the second has a run. Each combination of values of the categories present in the data is one case, whatever the order of runs and categories. Rates are between 0 and 1, one half on the diagonal, and add to one for optimizers with runs in the same cases; each optimizer is ranked once, by decreasing mean rate, with its right number of cases, and one with the lowest mean in every case is first. With complete_runs_only exactly the optimizers with runs in every case are kept, if there are any. Not guaranteed: that an optimizer beating each other one in most cases is first, that rates add to one, that the optimizers kept have run on all settings when none has, and anything about optimizers with only infinite losses.", "quantifier": "every set of runs (optimizers, descriptors, finite losses), list of categories, order of the runs", "why_tests_cant": "Tests check three small dataframes; the counts are over all combinations of descriptors with missing runs, ties and repetitions, for which only the recursion over the categories gives the total", "anchors": ["nevergrad/benchmark/plotting.py:_make_winners_df", "nevergrad/benchmark/plotting.py:aggregate_winners", "nevergrad/benchmark/plotting.py:_make_sorted_winrates_df", "nevergrad/benchmark/plotting.py:FightPlotter.winrates_from_selection"]}
{"id": "C95", "title": "A registered portfolio runs the optimizers it announces", "statement": "An optimizer of the registry documented as a portfolio of given optimizers, once created, is made of these optimizers, each of them is asked in its turn, no ask fails, and the budgets and workers given to them are their share. (True of the default Portfolio; refuted for the 26 portfolios of local searches such as SQPCMA, MultiBFGS or SqrtBFGSCMAPlus, whose list is rebuilt by a second initialisation; for Carola3, unless it has 1, 3 or 4 workers; for MultiDiscrete with less than 12 evaluations per worker; and for the budget given by CM.)", "quantifier": "all registered portfolios of local searches, competence-map portfolios, Carola3 and MultiDiscrete, all budgets (or none), numbers of workers and dimensions, and all ask indices", "why_tests_cant": "A test that creates and runs such a portfolio sees a working optimizer whichever its members are; the failing combinations depend on the budget and on the number of workers, of which tests run a few values only.", "anchors": ["nevergrad/optimization/optimizerlib.py:Portfolio.__init__", "nevergrad/optimization/optimizerlib.py:SQPCMA", "nevergrad/optimization/optimizerlib.py:MultiBFGS", "nevergrad/optimization/optimizerlib.py:Carola3", "nevergrad/optimization/optimizerlib.py:MultiDiscrete", "nevergrad/optimization/optimizerlib.py:CM", "nevergrad/optimization/optimizerlib.py:CMandAS2", "nevergrad/optimization/optimizerlib.py:CMandAS3"]}
{"id": "C96", "title": "The runs of a multiple single-objective run have their own weights", "statement": "MultipleSingleRuns tells each of its copies the losses combined with random weights which are drawn once and are those of the copy, so that the copies minimise different combinations of the objectives. (Refuted: the weights multiply the single loss that tell has already computed from the hypervolume, so that all copies are told proportional losses and rank all candidates in the same way; also, a copy refusing a candidate prevents the next ones from being told, and the loss attribute of the candidate is overwritten.)", "quantifier": "all base optimizers, numbers of copies and objectives, positive weights, and sequences of tells", "why_tests_cant": "The copies do receive finite losses and the optimizer does produce a Pareto front, so a run shows nothing; that the rankings coincide is a statement about all sequences of losses and all draws of weights.", "anchors": ["nevergrad/optimization/optimizerlib.py:_MSR", "nevergrad/optimization/optimizerlib.py:MultipleSingleRuns", "nevergrad/optimization/base.py:Optimizer.tell", "nevergrad/optimization/multiobjective/core.py:HypervolumePareto.add"]}
{"id": "C97", "title": "NgIohTuned and the NgIoh family choose optimizers which can be created, and which ones", "statement": "For every problem with a budget, at least one variable and one worker, each optimizer of the NgIoh, NgDS and CSEC families (NgIohTuned is CSEC11) creates at its first ask a list of working optimizers without an error: none gets more workers than the problem, and each method which works one point at a time gets one worker. The exceptions are exactly CSEC10, CSEC11 and NgIohTuned on continuous noise-free problems marked real_world and hptuning with a budget of at least 12 times the dimension, where the first ask raises TypeError. Without a budget NgIohTuned always raises AssertionError. For one worker, 2 to 49 variables and at least 30 evaluations per variable the chosen methods are given by a table; a noisy continuous function always gets TBPSA with all workers; NgDS2 uses direct search only for one worker, 31 to 49 variables and at most as many evaluations as variables. The documented claims that a meta-model always wraps OnePlusOne in dimension 1, and that NgIohTuned delegates to DE for multi-objective functions, are false for NgIohTuned; the second holds for the optimizers deriving from NGOpt8.", "quantifier": "all 29 optimizers of the families, all budgets, numbers of workers, dimensions, marks and kinds of parametrizations, and all roundings of the logarithms used as thresholds", "why_tests_cant": "The choices are nested tests on five numbers and ten flags, with products of the dimension as thresholds: the tests of the repository create each optimizer on a handful of problems, none of which is marked as hyper-parameter tuning, and a wrong branch shows only as a worse result.", "anchors": ["nevergrad/optimization/optimizerlib.py:NgIohTuned", "nevergrad/optimization/optimizerlib.py:CSEC11", "nevergrad/optimization/optimizerlib.py:CSEC10", "nevergrad/optimization/optimizerlib.py:CSEC", "nevergrad/optimization/optimizerlib.py:NgIoh11", "nevergrad/optimization/optimizerlib.py:NgIoh21", "nevergrad/optimization/optimizerlib.py:NgDS2", "nevergrad/optimization/optimizerlib.py:NGDSRW", "nevergrad/optimization/optimizerlib.py:NgIoh4"]}
{"id": "C98", "title": "Table-driven selection takes the nearest benchmark entry", "statement": "NGOptF, NGOptF2, NGOptF3 and NGOptF5, asked to solve a continuous problem without noise, use the entry of their table which is nearest to the dimension and to the budget per variable (the first one written, among ties). With several workers they never choose a sequential optimizer, and fall back on SQPCMA when nothing else is left. NGOptF mixes all the names of the entry; the others run one of the most frequent names, and which one does not depend on the process if and only if that name is unique: for many problems it is not, so that the same seed can give different runs. Without a budget they raise a TypeError. The GeneticDE/PSO/NGOpt39 portfolio which they mention is never used.", "quantifier": "every dimension, budget, number of workers, order of iteration of sets of strings", "why_tests_cant": "the choice is a function of two unbounded integers, and the dependence on the hash seed of the process cannot be seen within one process", "anchors": ["nevergrad/optimization/optimizerlib.py:NGOptF", "nevergrad/optimization/optimizerlib.py:NGOptF2", "nevergrad/optimization/optimizerlib.py:NGOptF3", "nevergrad/optimization/optimizerlib.py:NGOptF5"]}
{"id": "C99", "title": "Bayesian optimizers hand each point and each loss to their package exactly once", "statement": "For the optimizers built on the package bayes_optim (BayesOptimBO, PCABO...): whatever the asks, suggestions and tells, every point of every batch proposed by the package is given to the user exactly once, and every accepted loss reaches the package, or is still held, exactly once, with its own point and in the order of the tells; a user who tells each loss before the next ask has each batch told as a whole before the next one is requested. The first batch has the announced share of the budget from a budget of 10 on. Losses of suggested points are always refused, batches are told in pieces when several points are evaluated in parallel, and the first batch exceeds budgets under 5. For the optimizers built on bayes_opt (BO...): the variables keep their order for every dimension, the k-th ask gives the k-th point of the initial design and then what the package suggests from the first loss of each point told, no ask or tell fails when there is a budget, and the recommendation is the point with the smallest first loss; a later loss for a known point is ignored. Without a budget or a size for the design the first call fails, and a first call which is a tell makes all later tells fail.", "quantifier": "every package (proposals and internal state), every sequence of asks, suggestions and tells, every dimension, budget, design size and loss", "why_tests_cant": "the batches, the interleavings of asks and tells and the dimension (names are compared as strings) are unbounded, and the tests run these optimizers on one or two problems with one budget", "anchors": ["nevergrad/optimization/optimizerlib.py:_BayesOptim", "nevergrad/optimization/optimizerlib.py:_BO", "nevergrad/optimization/optimizerlib.py:_FakeFunction", "nevergrad/optimization/base.py:Optimizer.tell"]}
{"id": "C100", "title": "Every LSGO function is zero at its announced optimum and positive everywhere else", "statement": "For every function of the LSGO testbed except the 14th, and for all data with positive weights and rotations: the attribute optimum has the dimension of the function, the function is exactly zero there and positive at every other point. The groups of variables have the announced sizes, cover every variable, and consecutive groups share exactly the announced number of variables. The 14th function announces no optimum: its value is zero exactly at the points which agree with all the groups, and there may be none. Numbers other than 1 to 15 are refused.", "quantifier": "all fifteen functions, every optimum, permutation, group sizes, overlap, weights and rotations, every point", "why_tests_cant": "the claim is about the minimum over a continuous space of any dimension; tests evaluate some points of the shipped data", "anchors": ["nevergrad/functions/lsgo/_funcs.py:make_function", "nevergrad/functions/lsgo/_funcs.py:_MultiPartFunction", "nevergrad/functions/lsgo/_funcs.py:ConflictingSchwefel", "nevergrad/functions/lsgo/_core.py:split", "nevergrad/functions/lsgo/_core.py:irregularity"]}
{"id": "C101", "title": "The legends of a plot are put at the best places which do not overlap", "statement": "For every sorted list of positions and every minimal distance, compute_best_placements ends without error and returns as many positions, in the same order, each at least the minimal distance above the one before; no other list which respects this distance has a smaller sum of squared moves, and the one returned is the only one which reaches it. Legends which are already far enough are not moved, and the mean of all the positions is kept. Positions which are not sorted are refused. Integer positions are truncated and may overlap (a defect).", "quantifier": "all lists of positions and all minimal distances (any length, any sequence of merges of the groups)", "why_tests_cant": "The note in the code says the function is 'probably not optimal': tests compare a few lists with expected values, they cannot show that no better placement exists, nor that the loop which merges groups always ends without hitting one of its assertions.", "anchors": ["nevergrad/benchmark/plotting.py:LegendGroup", "nevergrad/benchmark/plotting.py:compute_best_placements"]}
{"id": "C102", "title": "The tables of results are cleaned, normalized and relabelled without mixing results", "statement": "In a table with a column of errors and distinct labels, remove_errors keeps exactly the rows whose loss is not nan, in order, and never fails. normalized_losses maps each loss, within its case (same values of the descriptors), to (loss - min)/(max - min), where max is the largest loss below the limit: losses below the limit end in [0, 1], the order within a case is kept, nothing else changes and the order in which cases are visited does not matter. merge_optimizer_name_pattern renames exactly the optimizers which have several variants, drops the merged columns and keeps everything else. Shown false: rows vanish or appear twice when labels are not distinct; an infinite loss becomes as good as the best one when the losses below the limit are equal; two different optimizers may end with the same name; a case with no loss below the limit makes the whole table fail.", "quantifier": "all tables, descriptors, limits, patterns, and all orders in which a set of cases may be visited", "why_tests_cant": "The behaviour depends on the whole content of the table (labels, ties, infinite losses, the iteration order of a set); tests look at a couple of small tables.", "anchors": ["nevergrad/benchmark/plotting.py:remove_errors", "nevergrad/benchmark/plotting.py:normalized_losses", "nevergrad/benchmark/plotting.py:merge_optimizer_name_pattern", "nevergrad/benchmark/utils.py:Selector.select", "nevergrad/benchmark/utils.py:Selector.unique"]}
{"id": "C103", "title": "Learning from comparisons", "statement": "After any history of tells and comparisons, a comparison (`compare(winners, losers)`) makes the optimizer hold each winner as better than the next ones and than every loser it knows; what was known about a winner is forgotten, nothing changes for the other points, and losers which are not known stay unknown. If the winners are new and the best point so far is not better than the losers, the first winner is then recommended for a deterministic function. This fails when a winner was evaluated before: the recommendation may stay on a point which the archive now ranks below the first winner.", "quantifier": "all histories of tells and comparisons, all lists of distinct winners, all lists of losers, all pruning procedures which only remove points", "why_tests_cant": "The values written depend on everything which was told before; the interplay between the archive and the current bests needs an invariant over all the histories.", "anchors": ["nevergrad/optimization/base.py: Optimizer.compare, Optimizer._internal_tell_candidate, Optimizer._update_archive_and_bests", "nevergrad/optimization/utils.py: MultiValue"]}
{"id": "C104", "title": "Search for a point satisfying the constraints", "statement": "When the candidates of an optimizer keep violating the constraints of its parametrization, `ask` runs an inner search of limited budget. The constraints are checked on at most that many points and on none after the first point which satisfies them. If one of the tried points satisfies the constraints, that point is the one used; otherwise it is the tried point with the smallest total violation plus distance to the original candidate. For a function declared as not deterministic, the first part fails if the inner search tries a point twice: a point violating the constraints may be used although one satisfying them was found.", "quantifier": "all constraints, all proposals of the inner optimizer (whatever it was told), all budgets, all pruning procedures", "why_tests_cant": "The inner search is random and its recommendation depends on everything it was told; the failure needs repeated points, which random tests on continuous variables never produce.", "anchors": ["nevergrad/optimization/base.py: _constraint_solver, Optimizer.ask, Optimizer.recommend", "nevergrad/parametrization/utils.py: float_penalty"]}
{"id": "C105", "title": "Recommendation of the optimizers which restart a library", "statement": "The optimizers which run a minimization function of a library (scipy, BOBYQA, NLOPT, direct searches, CMA's fmin...) run it again until the budget is spent. When the last run ends, `recommend` gives one of the evaluated points with the smallest loss for the methods of scipy, BOBYQA and CmaFmin2 on a fully bounded parameter, for direct searches which evaluate their starting point, and for NLOPT, AX and SMAC3 if there was a single run; provided each run of the library returns its own best point. The library is not left before the budget is spent and no run starts afterwards; without a budget it never ends. It fails for NLOPT and AX when they are restarted (a better point of a previous run is forgotten), for pysot (a point of the unit cube is recommended as if it were in the space of the parameter), and for CmaFmin2 when the parameter is not fully bounded (the recommendation was never evaluated).", "quantifier": "all libraries (any evaluated points, any number of runs), all losses, all budgets and numbers of told losses", "why_tests_cant": "The restarts depend on when the library converges, which tests with small budgets rarely reach; the failures need a run which ends, and the recommendation looks like an ordinary point.", "anchors": ["nevergrad/optimization/recastlib.py: _NonObjectMinimizeBase._optimization_function", "nevergrad/optimization/recaster.py: RecastOptimizer._internal_provide_recommendation"]}
{"id": "C106", "title": "The graphs explored by causal discovery", "statement": "CausalDiscovery turns every value of its parametrization into a graph whose nodes are exactly those of the true graph. An arrow is never in both directions nor from a node to itself. For nodes other than the first of the list, each pair has a link of its own which alone decides whether there is an arrow and its direction, and all combinations are reachable. The first node can never have an arrow, so that a true graph in which it has one is out of reach (refuted), and the last n - 1 links of the parametrization have no effect.", "quantifier": "all lists of distinct nodes, all values of the links, all true graphs", "why_tests_cant": "A unit test checks the graph of a few link vectors for one data set; that no vector among 3^(n(n-1)/2) reaches the true graph is a statement on all of them, and it makes the optimum unreachable without any error.", "anchors": ["nevergrad/functions/causaldiscovery/core.py: CausalDiscovery.choices_to_graph, CausalDiscovery.add_missing_nodes, CausalDiscovery.__init__"]}
{"id": "C107", "title": "Wrapping of Pyomo models", "statement": "The parameter built for a Pyomo variable takes exactly the values of its range when the ends are closed or infinite. Open ends are left out without losing any other representable number when the lower one is below 1 and the upper one above -1; otherwise the parameter may take a value out of the range (refuted). Whatever was evaluated before, the objective is that of the values given in the call, negated for a maximization, and a constraint answers for the values given in the call. Items indexed by integers and strings have different parameters. A variable indexed by tuples with strings makes every evaluation fail (refuted).", "quantifier": "all ranges of step 0 or 1, all histories of evaluations of the objective and of the constraints, all arguments, all indices", "why_tests_cant": "The tests use a handful of models with bounds around 0 and 2 and plain indices; which values a parameter may take and the independence from previous assignments to the shared model concern all ranges and all histories.", "anchors": ["nevergrad/functions/pyomo/core.py: _make_pyomo_range_set_to_parametrization, _convert_to_ng_name, Pyomo._pyomo_value_assignment, Pyomo._pyomo_obj_function_wrapper, Pyomo._pyomo_constraint_wrapper"]}
{"id": "C108", "title": "The 007 game and its runner", "statement": "In the 007 game every round with valid actions is accepted, observations and rewards are those of the documented rules given all the actions played (a player wins by shooting at a reloading player or when the other one alone protects more than 4 times in a row), at most one player wins, and the game stops when one wins or at the hundredth round. The players have symmetric rules. The runner ends with at most one winner per game, mean rewards in [0, 1], within max_step. Playing against a fixed agent is the same as playing it in the runner, except that the fixed agent is never reset between games (refuted). Agent007 only plays valid actions and never protects from an unarmed player.", "quantifier": "all sequences of actions, all agents (with any internal state), all limits on the number of steps and all numbers of repetitions", "why_tests_cant": "Tests play a few games with random agents; the rules on consecutive protections and ammunition concern all action sequences, and the missing reset only shows with agents having a memory over several games.", "anchors": ["nevergrad/functions/rl/envs.py: DoubleOSeven.step, JamesBond.update_with_action", "nevergrad/functions/rl/base.py: EnvironmentRunner.run, PartialMultiAgentEnv, SingleAgentEnv", "nevergrad/functions/rl/agents.py: Agent007.act"]}
{"id": "C109", "title": "Population based training", "statement": "Every evaluation of the PBT function is the value of one training step from the checkpoint of the first worker of least distance (or fitness), and the target worker keeps it; other workers are left as they were unless they hold the same array as a target which is its own source. A worker trained on an array of its own has for ever the fitness of its checkpoint. Since all workers start with one shared array, a worker may otherwise have a fitness which is not that of its checkpoint (refuted). A training step adds to all coordinates of a block the same noise, centred on the dimension of the block, so that optima are left even without noise (refuted).", "quantifier": "all numbers of workers, dimensions, functions and gradients, all histories of evaluations and all random choices of source and target", "why_tests_cant": "Aliasing between workers only shows for particular sequences of random choices and does not raise; tests run one evaluation.", "anchors": ["nevergrad/functions/pbt.py: PBT.__init__, PBT._func, PBT.evolve, PBT.unflatten, PBT.value"]}
{"id": "C110", "title": "Planning problems: what the penalties mean, and seas which never empty below zero", "statement": "The loss of a unit commitment plan is at least its running cost and equals it exactly when the plan meets all demands and the limits of the generators; with one generator, or with three (the default) and a demand between two thirds and four fifths of the largest, no plan is feasible and all of them pay a penalty, whereas five generators or more always admit a feasible plan for demands within a factor two of one another. The fishing problem never fails its assertion: for any list of efforts the loss is at most 0 and at least minus a tenth of the total effort, the populations remain in [0, 1], and negative efforts count as none.", "quantifier": "all numbers of times and generators, demands, costs, positive weights and plans; all lists of efforts", "why_tests_cant": "A feasible plan has to be found or excluded among infinitely many plans for each random draw of the demands, and the assertion has to hold for efforts over any number of days.", "anchors": ["nevergrad/functions/unitcommitment/core.py UnitCommitmentProblem.unit_commitment_obj_with_penalization", "nevergrad/functions/fishing/core.py _compute_total_fishing"]}
{"id": "C111", "title": "Tours, clusters, maps and landscapes: what the losses measure", "statement": "For the travelling salesman problem the loss of a vector is the length of a closed tour through all cities once each in the order of the coordinates; all tours are reached, the loss depends only on the order of distinct coordinates, and turning or reversing the tour leaves it unchanged (except with the complex term). The clustering loss is the cost of the best assignment of points to centers, never increases with more centers, and vanishes exactly when each point is at a center. The Sammon loss vanishes exactly when all distances equal the given proximities. The landscape loss is that of the nearest pixel, infinite outside, never negative and 0 at the highest pixel.", "quantifier": "all numbers of cities, symmetric distances, sorting algorithms and vectors; all points and centers; all matrices; all images and coordinates", "why_tests_cant": "There are factorially many tours and exponentially many assignments, the behaviour on ties depends on the sort, and the border of the image on exact half integers.", "anchors": ["nevergrad/functions/stsp/core.py STSP._simulate_stsp", "nevergrad/functions/mlda/problems.py _kmeans_distance, SammonMapping._compute_distance, Landscape._get_pixel_value"]}
{"id": "C112", "title": "A configured optimizer makes the optimizer it wraps, under its own name", "statement": "Whatever a program does with configured optimizers (creating, wrapping, renaming, registering, modifying dicts), calling one makes an instance of the optimizer class at the end of the chain of configured optimizers, with the configuration of the last one of the chain, bearing the name of the one that was called. A new one is named after its class and the parameters that differ from the defaults, in alphabetical order; creating it raises RuntimeError exactly when the keys of the configuration are not the parameters. config() returns a copy that can be modified without effect. Two are equal exactly when class and configuration are; the registry gives under a name what was registered when the name was free. Refuted: a refused registration renames the object all the same; an object registered twice bears one name only; equal ones can make different optimizers; modifying the dict given at creation changes what optimizers receive and not the name.", "quantifier": "every sequence of operations on configured optimizers, every class, signature, configuration and depth of wrapping", "why_tests_cant": "The effects depend on the history of the objects and dicts shared by a program, and on wrapping of any depth; tests look at one object of each class", "anchors": ["nevergrad/optimization/base.py:ConfiguredOptimizer", "nevergrad/common/tools.py:different_from_defaults"]}
{"id": "C113", "title": "A folder turned into a function leaves the folder as it was and returns the last number printed", "statement": "Instantiating a folder with the values of its placeholders writes each file with placeholders, filled, in the new folder, links the other files to the originals (a file already there is kept) and modifies nothing of the instrumented folder; with other values it raises and does nothing. Calling the function runs the command in such a folder, which disappears whatever happens; the instrumented folder is unchanged if the command writes in no file without placeholders. The result is the number on the last line that is not blank; a non-zero exit code or undecodable output raises FailedJobError, no output ValueError, several blank lines IndexError. The command line is the command, the arguments, then the keyword arguments. Refuted: a command writing in a file without placeholders modifies the original; a stale file without placeholders is kept when instantiating in an existing folder.", "quantifier": "every folder, set of values, file system, command with its writes and its output", "why_tests_cant": "Depends on all the contents of the folders, links and outputs; tests run one command in one folder", "anchors": ["nevergrad/parametrization/instantiate.py:symlink_folder_tree", "nevergrad/parametrization/instantiate.py:FolderInstantiator.instantiate_to_folder", "nevergrad/parametrization/instantiate.py:FolderFunction.__call__", "nevergrad/parametrization/utils.py:CommandFunction"]}
{"id": "C114", "title": "A power system dispatches its plants at least cost and never loses water", "statement": "In every hour of the power system test function the productions of the plants respect their capacities (for a dam, the water it holds), together with the part not served they equal the consumption, cheaper plants are at full power before dearer ones are used, and no other feasible dispatch costs less at the given prices; stocks never become negative (the assertion never fires), the water that fell equals what was produced plus what is left, the loss grows by exactly the thermal productions at their prices plus the failure cost of what is not served, and never exceeds the cost of serving nothing. The consumption is nonnegative and bounded. The weights of an agent fill its layers exactly. The documented meaning of depth and width is not respected: width is the number of layers, hidden layers always have 14 neurons and depth is the number of outputs.", "quantifier": "all numbers of dams and thermal plants, all capacities, prices, rains, consumptions and agents, all numbers of hours; all alternative dispatches", "why_tests_cant": "A simulation runs 8760 hours with random rain, prices and agents: a test sees one trajectory, not the optimality against every other dispatch nor the conservation of water for every history.", "anchors": ["nevergrad/functions/powersystems/core.py:Agent", "nevergrad/functions/powersystems/core.py:PowerSystem._simulate_power_system"]}
{"id": "C115", "title": "An anti-reflective coating's loss is a physical reflection", "statement": "The loss of a coating design is refused with the wrong number of slabs, infinite as soon as a permittivity leaves [1, 9], and otherwise an average reflection in [0, 100) computed without a division by zero; slabs made of the medium in front of the coating or of the medium behind it do not change the reflection, so that designs made only of these have exactly the loss of the bare boundary (25 percent). Slabs thinner than 10 nanometers are refused.", "quantifier": "all numbers and widths of slabs, all designs, all wavelengths, all positive permittivities in front and behind, all values of the tangents", "why_tests_cant": "The reflection is a long composition of complex fractions: tests evaluate a few designs and cannot show that no design divides by zero or reflects more than it receives.", "anchors": ["nevergrad/functions/arcoating/core.py:impedance_pix", "nevergrad/functions/arcoating/core.py:ARCoating._get_minimum_average_reflexion"]}
{"id": "C116", "title": "Smoothing a candidate keeps it within the range of its values", "statement": "The smoothed copies suggested by the smooth variants of OnePlusOne replace some cells of the best candidate's array by the mean of the cells around them (the array being reflected at its borders) and keep the others: every cell stays between the smallest and the largest value of the array, whatever the radii, the replaced cells, the shape and the number of axes; constant arrays are kept; away from the borders a replaced cell is exactly the mean of its neighbours, and smoothing a whole axis with an odd radius keeps the sum, even when the radius exceeds the array.", "quantifier": "all shapes, radii, arrays and sets of replaced cells", "why_tests_cant": "Radii and cells are drawn at random and the array can have any shape: a test sees a few draws, and border effects appear only for particular sizes and radii.", "anchors": ["nevergrad/optimization/optimizerlib.py:smooth_copy"]}
{"id": "C117", "title": "The leaderboard keeps the best result of each problem", "statement": "After any sequence of evaluations the leaderboard file has one line per problem for which something was submitted, sorted by problem, with the smallest loss submitted (to 12 decimals) and the array of the last submission which reached it, and a submission never touches the other problems. This holds for problems without NaN losses only: a NaN replaces the best loss and the next loss replaces the NaN however bad it is, so that only submissions after the last NaN count.", "quantifier": "all sequences of submissions, for all problems, losses (infinite and NaN included) and arrays", "why_tests_cant": "The file's content depends on the whole history of submissions; tests submit one or two results.", "anchors": ["nevergrad/functions/base.py:update_leaderboard"]}
{"id": "C118", "title": "Result tables keep every result, and selections keep exactly the matching rows", "statement": "Saving results to a file keeps the rows it had, in order and with the same contents, and adds the new ones (a column which a row did not have is missing); other files are untouched. Repeating an experiment puts, in the requested file or in the one named after the experiment when the former cannot be written, the results for the seeds s, s+1, ... after what the file had; results are lost only when neither file can be written. Selecting rows of a table keeps exactly those which satisfy all the criteria, in order, selecting and dropping removes the columns of the criteria only, and two tables are declared equivalent iff they are equal up to the order of rows and columns.", "quantifier": "all tables, file contents, criteria, numbers of repetitions and seeds, and all sets of files which can be written", "why_tests_cant": "Columns and contents of the file depend on all the results saved before; tests append once and select on a few rows.", "anchors": ["nevergrad/benchmark/utils.py:Selector.select", "nevergrad/benchmark/utils.py:Selector.select_and_drop", "nevergrad/benchmark/utils.py:Selector.unique", "nevergrad/benchmark/utils.py:Selector.assert_equivalent", "nevergrad/benchmark/core.py:save_or_append_to_csv", "nevergrad/benchmark/__main__.py:launch", "nevergrad/benchmark/__main__.py:repeated_launch"]}
{"id": "C119", "title": "Cross-validation evaluates on a function which was not optimized", "statement": "Creating cross-validation experiments from functions gives, for each method of subset selection and each function, one experiment which is evaluated on this function and optimized on all the others and those for training only, never on the function itself; the bounds of several objectives are their losses at the initial value of the evaluated one. The score of recommendations is the smallest evaluation over all of them when there are no more than the limit, and otherwise over a selection among them of at most as many as the limit, hence never better than the best. The created experiments do not take over the bounds: with the hypervolume method, recommendations more numerous than the limit but not more than 15 make the evaluation fail (refuted).", "quantifier": "all lists of functions, methods, limits, recommendations and random selections", "why_tests_cant": "The experiments depend on identities in lists of any length, and the failure on the number of recommendations of a whole optimization, which tests with the random method only (the environment variable set by tests forces it) never see.", "anchors": ["nevergrad/functions/helpers.py:SpecialEvaluationExperiment", "nevergrad/functions/helpers.py:SpecialEvaluationExperiment.create_crossvalidation_experiments", "nevergrad/functions/helpers.py:SpecialEvaluationExperiment.evaluation_function"]}
{"id": "C120", "title": "Sampling the most tried points follows the numbers of trials; delayed jobs compute once", "statement": "The empirical distribution over tried points consists of the points tried at least the square root of the largest number of trials, provided the square of this number is over the number of all trials, and of the recommendation alone otherwise; points are sampled with probabilities proportional to their numbers of trials. The documented threshold, the fourth root, is not the one in use (refuted). A job of the sequential executor calls its function only when its result is requested, again if it raised, and never after it returned.", "quantifier": "all archives, numbers of trials and draws; all functions and numbers of requests", "why_tests_cant": "The distribution depends on all the counts; tests use one archive and one draw. The number of calls depends on the history of failures.", "anchors": ["nevergrad/optimization/utils.py:_get_nash", "nevergrad/optimization/utils.py:sample_nash", "nevergrad/optimization/utils.py:DelayedJob", "nevergrad/optimization/utils.py:SequentialExecutor"]}
{"id": "C121", "title": "Stratified points on the sphere are balanced over the classes", "statement": "When a stratified draw of n points (by classes of points) returns, it returns exactly n of the points it drew, and each of the K classes it met contributes n/K of them, rounded down, or one more for exactly n mod K of the classes; it returns at once when the first draws already hold enough points of each class they meet. Violated beyond this: the least number of points of a class never grows again in the loop, so a single rare class among the first draws makes it run forever whatever is drawn afterwards, and the default number of blocks is lost in a misspelt name so that calling without blocks raises.", "quantifier": "every number of points, every sequence of draws, every classification of the points, any number of turns of the loop", "why_tests_cant": "The loop's end depends on the whole sequence of random draws; a test with a lucky seed ends, and no finite run can show that another one never does.", "anchors": ["nevergrad/common/sphere.py: jittered, get_class, reduced_jittered"]}
{"id": "C122", "title": "Training a module with the torch helper tells each candidate its own loss", "statement": "In the documented training loop of TorchOptimizer, with any optimizer and any batches, the optimizer is told exactly once about each candidate but the last, in the order they were asked, and each loss is the one of the module holding that candidate (clipped to the bounds, in 32 bits); the module keeps its shapes and stays within the bounds, and a module which starts beyond them is refused. Violated: the first candidate is never put in the module, so unless it is the initial value it gets the loss of another point; the module ends with a candidate that was never evaluated; and a bound which 32 bits round up is exceeded.", "quantifier": "every optimizer, every module shape and initial weights, every sequence of batches of any length, every bound and rounding", "why_tests_cant": "The mismatch only shows with optimizers whose first candidate is not the initial value and is silent: a test which trains with one optimizer still sees a decreasing loss.", "anchors": ["nevergrad/optimization/helpers.py: TorchOptimizer.__init__, step, _set_candidate"]}
{"id": "C123", "title": "What logging callbacks leave behind", "statement": "The log file of a ParametersLogger holds, after what it held before, one record for each call whose data json can write, in order, and a logger created with append=False discards what was there; a record shows every parameter under its name with its sigma and the fields about the run unless names collide, and nothing else; the order argument is not honoured. load_flattened splits every list into its first elements, each under a key of its own, and loses a value only when a parameter has the name of such a key. The progress bar shows the number of calls, also across dump and load. An optimizer dumped on tell lacks the tell in progress.", "quantifier": "all sequences of loggers and calls on one file, all records, all nested lists and limits, all sequences of calls and reloads", "why_tests_cant": "tests log one short run; records for every history of loggers sharing a file, and collisions of keys, need a proof over all of them", "anchors": ["nevergrad/optimization/callbacks.py:ParametersLogger", "nevergrad/optimization/callbacks.py:OptimizerDump", "nevergrad/optimization/callbacks.py:ProgressBar"]}
{"id": "C124", "title": "Pymoo wrappers", "statement": "With the number of objectives known, the wrappers of Pymoo answer exactly as the optimizer running pymoo; otherwise asks give the current value of the parametrization until a first tell, and once these candidates are told the optimizer is as new, their losses being lost. Asked one at a time, pymoo receives exactly the losses of the points it asked for, in order. Telling one of the first candidates after a new ask raises KeyError; penalties for violated constraints do not reach pymoo, and a point violating a cheap constraint makes ask raise. Every point of the search space is reachable from inside the box given to pymoo.", "quantifier": "all underlying algorithms, all interleavings of asks and tells by several workers, all losses", "why_tests_cant": "tests run a few algorithms sequentially; the warm-up of several workers and constraint violations depend on the interleaving of calls", "anchors": ["nevergrad/optimization/recastlib.py:_PymooMinimizeBase", "nevergrad/optimization/recastlib.py:_PymooBatchMinimizeBase", "nevergrad/optimization/recastlib.py:_create_pymoo_problem"]}
{"id": "C125", "title": "Ax platform wrapper", "statement": "Without suggestions and refused candidates, telling an asked candidate gives its loss to Ax for the trial the candidate was made from, in any order of asks and tells. After a refused candidate losses go to other trials, after a suggestion tells raise, and ask raises when Ax has no trial to give. The coordinates of Ax are mapped in order to finite coordinates, inverse to the sigmoid up to 1e-15.", "quantifier": "all sequences of asks, tells, suggestions and refusals, all coordinates in [0,1]", "why_tests_cant": "depends on the interleaving of asks, refusals and tells; Ax is optional and not run in tests", "anchors": ["nevergrad/optimization/optimizerlib.py:AXP"]}
{"id": "C126", "title": "Curves, best performances and titles of experiment plots", "statement": "For every table of results, the data of a plot has one curve per optimizer, with exactly the budgets of that optimizer's rows in increasing order; each point is the median (the mean when limits are off) of the losses that are not NaN at that optimizer and budget, with their number and unbiased variance (NaN below two values). The text summary has one line per budget, with the smallest loss and the first optimizer that reached it strictly before the others, or 'none' when all are NaN. At most 35 optimizers: all are drawn by decreasing final loss; more: the worst one and the 35 best ones, and none left out is better. A long title is only changed by a line break after the comma closest to its middle.", "quantifier": "all tables of results, orders of optimizers, curves, numbers of optimizers and titles", "why_tests_cant": "the groups depend on which optimizer, budget and NaN combinations are present, ties depend on the order of a set and the truncation on the number of optimizers; tests plot one small table", "anchors": ["nevergrad/benchmark/plotting.py:XpPlotter.make_data", "nevergrad/benchmark/plotting.py:XpPlotter.save_txt", "nevergrad/benchmark/plotting.py:XpPlotter.__init__", "nevergrad/benchmark/plotting.py:split_long_title"]}
{"id": "C127", "title": "The team pursuit simulation", "statement": "For every transition and pacing strategy and whatever the physics of each time step, the cycling benchmark never fails for lack of a leader or of a drafting coefficient: riders still in the race always hold the positions 1 to k (k at least 3) when a segment starts, also after one of the four drops out, and their fatigue is bounded. A simulation either finishes (whole distance done, time = time of the segments at their velocities plus 0.12 s per transition) or has infinite time, a missing velocity and an incomplete distance. It does not depend on earlier simulations. Strategies of wrong length or power outside 200-1200 W raise ValueError, and values of the six parametrizations are always accepted; their cost is the time, capped at 10000. The energy of a leader never increases, but that of a follower can (refuted for followers).", "quantifier": "all strategies, states of the team, step dynamics and numbers of steps", "why_tests_cant": "which rider drops out and when depends on the whole history of energies; tests run one strategy per event", "anchors": ["nevergrad/functions/cycling/mensteampursuit.py:mensteampursuit.simulate", "nevergrad/functions/cycling/womensteampursuit.py:womensteampursuit.simulate", "nevergrad/functions/cycling/teampursuit.py:teampursuit.transition", "nevergrad/functions/cycling/cyclist.py:Cyclist", "nevergrad/functions/cycling/cycling.py:team_pursuit_simulation"]}
{"id": "C128", "title": "Gym benchmarks score an episode by its rewards, whatever the environment", "statement": "The loss of a policy in a gym environment is minus the sum of the rewards until the episode ends or the step limit is reached; an illegal action after i legal ones costs 1e20/(1+i), so that later failures are preferred. For a sequence of actions it is minus the sum of the rewards, each multiplied by gamma once per later step (the policies ignore gamma). A call averages the seeds 0..6 (seed 0 only for sequences, one drawn seed when randomized). The weights of a policy are exactly the concatenation of its layers. Discrete actions are in range. The archive keeps the mean of all finished episodes, never the same episode twice, and asking it never fails; but it forgets the episodes better than the mean, its suggestions only come from episodes ending with two equal observations, and with stacking the loss depends on earlier evaluations. A weight limit costs nothing below the limit and (1+|loss|) per further weight, is not applied when the recommendation is evaluated, and is unusable with two-dimensional weights.", "quantifier": "every environment, policy, discount, number of steps, seed, history of episodes, weights and sizes, arities", "why_tests_cant": "the environment is arbitrary code and the archive depends on the whole history of episodes; tests run a few environments for a few steps", "anchors": ["nevergrad/functions/gym/multigym.py:GymMulti", "nevergrad/functions/gym/multigym.py:GymMulti.gym_simulate", "nevergrad/functions/gym/multigym.py:GymMulti.gym_conformant", "nevergrad/functions/gym/multigym.py:GymMulti.heuristic", "nevergrad/functions/gym/multigym.py:GymMulti.sparse_gym_multi_function", "nevergrad/functions/gym/multigym.py:GymMulti.neural"]}
{"id": "C129", "title": "The rocket benchmark redistributes the thrust of the engine without changing its impulse", "statement": "The 24 variables of the rocket benchmark (any other number is refused) change the thrusts but, whatever they are, the thrusts stay non-negative and their impulse is that of the engine; the null point is the engine as it is; adding a constant to all variables changes nothing, nor does the first variable. The mass never increases while the engine fires and no internal check fails; the loss is never worse than staying on the ground. Not true: the impulse given to the rocket is constant (the last thrust is never used), the mass at the end is that of the empty engine (it is always lower, and jumps up), the rocket moves for as long as the firing lasts (positions use the time since the launch, 16.823 s instead of 1.847 s).", "quantifier": "every vector of variables, every model of gravity and drag, rounding, launch point and direction", "why_tests_cant": "the invariances and conservation hold for all real vectors and force models; tests evaluate the null point and a random one", "anchors": ["nevergrad/functions/rocket/rocket.py:rocket", "nevergrad/functions/rocket/rocket.py:Rocket"]}
{"id": "C130", "title": "Tables exported in latex", "statement": "Exporting a table with row names, column names and a text per cell writes a latex file in which every row of the table is one line, holding the name of the row and then the cells in order, for every name and cell without ampersand and line break, and whose declaration has one column more than there are column names. A cell shows what comes before the first opening parenthesis of its text, without underscores and with a backslash before each percent. Rows of data without a name are left out; if a named row has no data, the call raises IndexError and leaves a truncated file. Different texts may be shown the same, ampersands add columns, a percent after a backslash becomes a comment, and names are not escaped.", "quantifier": "all lists of row names, of column names and of rows of cells, of any lengths, and all texts", "why_tests_cant": "The texts are names of optimizers and values of descriptors, which are arbitrary strings; a test exports one table of fixed size and cannot tell which characters break the rows of another.", "anchors": ["nevergrad/benchmark/exporttable.py:remove_parens", "nevergrad/benchmark/exporttable.py:export_table"]}
{"id": "C131", "title": "Tuning of learning algorithms: data, loss and evaluation", "statement": "Artificial data has 120 training points and a test set, cut into 10 folds whose validation parts partition the points; it is made once, at the first call. A dimension which does not divide 60000 makes the first call raise ValueError, after which losses are computed and evaluations raise AttributeError; an unknown artificial name raises KeyError at each call. The loss of a candidate is the mean over the folds of the error of the learner with the values of the candidate, 5e20 for each fold where the error raises ValueError, for learners whose fit forgets the past. The recommendation is evaluated on the test set with the learner of its loss, fitted on all the training data, and with the loss itself for overfitters - except for decision trees, whose criterion and ratio are replaced in the evaluation. The labels of the whole training data are sums of sines whatever the dataset, and a learner which goes on from its state has learnt the validation points of a fold in the earlier ones.", "quantifier": "all regressors, dimensions, datasets, candidates, shuffles, learners and error functions, and all sequences of losses and evaluations", "why_tests_cant": "Tests compare a few losses with recorded numbers: they neither say that the folds partition the data for all shuffles, nor which values reach the evaluated learner, nor what is left after a failed first call.", "anchors": ["nevergrad/functions/ml/mlfunctionlib.py:MLTuning", "nevergrad/functions/ml/mlfunctionlib.py:MLTuning._ml_parametrization", "nevergrad/functions/ml/mlfunctionlib.py:MLTuning.evaluation_function", "nevergrad/functions/ml/mlfunctionlib.py:MLTuning.make_dataset"]}
{"id": "C132", "title": "Control policies", "statement": "Without noise, the loss of a policy is the opposite of the mean over the rollouts of the total reward of an episode, from a reset to the first step which is done, NaN without rollouts; with a seed it is the same at every evaluation, and simulations which are not deterministic are seeded by the random state of the parametrization. A policy of one layer is linear, each further layer is applied to the activation of the action plus a thousandth, and the layers built from the shape of the policy always give an action of the expected size. Normalization makes the action independent of the units of the states, and noise leaves zeros unchanged. Unknown activations raise NotImplementedError when there are two layers. Layers without a coefficient are ignored, and the default simulation, said to be deterministic, is seeded with None.", "quantifier": "all environments, policies, shapes, coefficients, activations, seeds, noise levels and states of the random generators", "why_tests_cant": "The environments need MuJoCo and are skipped or run on one policy by the tests; which steps count, and what too few coefficients do, must hold for every environment and shape.", "anchors": ["nevergrad/functions/control/core.py:BaseFunction", "nevergrad/functions/control/core.py:BaseFunction._simulate", "nevergrad/functions/control/mujoco.py:GenericMujocoEnv"]}
{"id": "C133", "title": "Groups of optimizers and seeds of plans are reproducible", "statement": "get_optimizers returns exactly the optimizers which belong to one of the named groups, each once, in the order in which the groups first give them when there is no seed, and permuted when there is one; an unknown group raises KeyError and nothing else fails; naming a group again changes nothing. The stream of seeds of an experiment plan is None forever without initial seed, and otherwise its k-th value depends only on the initial seed and k.", "quantifier": "all registries of groups, all lists of group names, all seeds, all shuffles which permute, all ranks in the stream of seeds", "why_tests_cant": "tests compare a file of the groups of the day and a few seeds; they cannot range over all registries, overlaps between groups and ranks", "anchors": ["nevergrad/benchmark/optgroups.py:get_optimizers", "nevergrad/benchmark/xpbase.py:create_seed_generator"]}
{"id": "C134", "title": "Point sets on the sphere have the advertised size, norm and symmetries", "statement": "pure_random(n) gives n points of the unit sphere, each in the direction of its draw. antithetic_pm(n) gives n points, the second half opposite to the first one, all on the sphere for an even n; for an odd n the last point is an unnormalized draw, so the claim that all are on the sphere is refuted. antithetic_order ends with n points of the sphere, each made of the slices of a normalized draw in some order, with signs only if asked, and the first points without signs are the permutations of the first draw in order.", "quantifier": "all numbers of points, all streams of draws with at most one zero draw, all shapes along the axis, all lists of permutations and of shuffled signs", "why_tests_cant": "the draws are continuous random arrays and the symmetric structure must hold for every number of points and every stream", "anchors": ["nevergrad/common/sphere.py:normalize", "nevergrad/common/sphere.py:pure_random", "nevergrad/common/sphere.py:antithetic_pm", "nevergrad/common/sphere.py:antithetic_order"]}
{"id": "C135", "title": "Dispersed points are chosen far apart and never get closer", "statement": "greedy_dispersion(n) gives max(1, n) points (so the claim of n points is refuted for 0); each further point is the farthest from the previous ones in the last batch drawn for it, not among all the candidates (refuted); without any batch in time the second point fails and later ones repeat the previous point. dispersion keeps the number of points, replaces each point by the farthest from the others among itself and the draws, and any distance separating all the points before the replacements still separates them after; it fails for a single point.", "quantifier": "all numbers of points, all symmetric distances, all draws of the threads, all clocks (numbers of batches and of replacements)", "why_tests_cant": "the result depends on the clock and on concurrent random draws, so a test sees one schedule and one set of draws", "anchors": ["nevergrad/common/sphere.py:greedy_dispersion", "nevergrad/common/sphere.py:dispersion"]}
{"id": "C136", "title": "Image losses vanish exactly on the reference", "statement": "A reference image is accepted exactly when it has three axes, values between 0 and 256 and one above 3. The sums of absolute and of squared differences are the sums over all the values, never negative, and zero exactly on the reference; another shape raises AssertionError, no reference raises AttributeError. The claim that the histogram loss is not negative and zero only for the same histogram is refuted: for all images of three channels it equals the difference between the sums of the two images.", "quantifier": "all shapes, all references, all images", "why_tests_cant": "an optimizer evaluates the losses on images which no test lists, and the histogram loss only fails to be a distance on particular pairs of images", "anchors": ["nevergrad/functions/images/imagelosses.py:ImageLoss", "nevergrad/functions/images/imagelosses.py:SumAbsoluteDifferences", "nevergrad/functions/images/imagelosses.py:SumSquareDifferences", "nevergrad/functions/images/imagelosses.py:HistogramDifference"]}
