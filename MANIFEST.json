{
 "claims": [
  {
   "property": "C01",
   "status": "proved",
   "theorems": [
    "C01_counters",
    "C01_retries_not_counted",
    "C01_raising_ask_counted_refuted"
   ],
   "note": "num_tell and num_tell_not_asked exact for all histories; num_ask exact when no ask raised or no constraint is violated, and the retries of an ask that returns are not counted. The clause that raising calls change nothing is false for num_ask (C01_raising_ask_counted_refuted)."
  },
  {
   "property": "C02",
   "status": "proved",
   "theorems": [
    "C02_outstanding",
    "C02_second_tell_not_asked"
   ],
   "note": ""
  },
  {
   "property": "C03",
   "status": "proved",
   "theorems": [
    "C03_last_in_first_out",
    "C03_each_exactly_once",
    "C03_rejected_suggestion_lost_refuted"
   ],
   "note": "Proved without violated constraints, as stated; the last clause is C03_rejected_suggestion_lost_refuted."
  },
  {
   "property": "C04",
   "status": "proved",
   "theorems": [
    "C04_recorded_loss",
    "C04_forwarded_loss",
    "C04_list_of_one_refuted"
   ],
   "note": "All scalar losses; the bypass by one-element lists is C04_list_of_one_refuted."
  },
  {
   "property": "C05",
   "status": "proved",
   "theorems": [
    "C05_same_number",
    "C05_other_number_rejected",
    "C05_same_number_accepted"
   ],
   "note": ""
  },
  {
   "property": "C06",
   "status": "proved",
   "theorems": [
    "C06_statistics_exact",
    "C06_clipping_exact",
    "C06_variance_exact",
    "C06_variance_zero_iff_constant",
    "C06_bounds_ordered",
    "C06_variance_nonneg",
    "C06_clipped_minimum_refuted"
   ],
   "note": "Exact rational arithmetic; the clipping at 1e10 is C06_clipped_minimum_refuted."
  },
  {
   "property": "C07",
   "status": "proved",
   "theorems": [
    "C07_recommendation_is_best_told",
    "C07_default_pruning_applies",
    "C07_out_of_range_refuted",
    "C07_recommendation_full_interface"
   ],
   "note": "Model of the archive, and of the whole ask/tell interface on top of it. Out of range: C07_out_of_range_refuted."
  },
  {
   "property": "C08",
   "status": "proved",
   "theorems": [
    "C08_best_minimises_criterion",
    "C08_identifiers_valid",
    "C08_best_may_leave_archive_refuted"
   ],
   "note": "The current best may have left the archive: C08_best_may_leave_archive_refuted."
  },
  {
   "property": "C09",
   "status": "proved",
   "theorems": [
    "C09_archive_exact",
    "C09_default_pruning_applies"
   ],
   "note": ""
  },
  {
   "property": "C10",
   "status": "proved",
   "theorems": [
    "C10_below_max_len_unchanged",
    "C10_keeps_exactly_the_best",
    "C10_no_ties_exact_number",
    "C10_never_invents",
    "C10_ties_may_empty_refuted"
   ],
   "note": "Ties may empty the archive: C10_ties_may_empty_refuted."
  },
  {
   "property": "C11",
   "status": "proved",
   "theorems": [
    "C11_archive_bounded",
    "C11_pruning_never_fails",
    "C11_default_thresholds"
   ],
   "note": ""
  },
  {
   "property": "C12",
   "status": "proved",
   "theorems": [
    "C12_rejected_tell_no_effect",
    "C12_curve_changed_refuted",
    "C12_reference_fixes_objectives_refuted"
   ],
   "note": "The two exceptions of the statement are the two refuted theorems."
  },
  {
   "property": "C13",
   "status": "proved",
   "theorems": [
    "C13_violating_scalar",
    "C13_violating_never_archived",
    "C13_no_budget_refuted",
    "C13_zero_penalty_refuted",
    "C13_tabu_asked_never_archived_refuted"
   ],
   "note": "As stated (budget or explicit violation); without budget, with a tabu list, or with non-positive losses early on: the refuted theorems."
  },
  {
   "property": "C14",
   "status": "proved",
   "theorems": [
    "C14_evaluations"
   ],
   "note": "For every executor, completion order and failure (arbitrary world)."
  },
  {
   "property": "C15",
   "status": "proved",
   "theorems": [
    "C15_parallelism",
    "C15_pairing"
   ],
   "note": "Every prefix of the log, whatever ends the call."
  },
  {
   "property": "C16",
   "status": "proved",
   "theorems": [
    "C16_no_job_lost",
    "C16_resume",
    "C16_resume_timeout",
    "C16_interrupted",
    "C16_interruption_loses_job_refuted",
    "C16_refused_candidate_lost_refuted"
   ],
   "note": "Proved for exceptions raised by any call; asynchronous interruptions between two statements are characterised by C16_interrupted, and the losses they cause are the refuted theorems."
  },
  {
   "property": "C17",
   "status": "proved",
   "theorems": [
    "C17_terminates",
    "C17_fuel_irrelevant",
    "C17_never_returns"
   ],
   "note": "Fuel is only the bound on the number of iterations; C17_fuel_irrelevant. The two divergences are C17_never_returns."
  },
  {
   "property": "C18",
   "status": "proved",
   "theorems": [
    "C18_early_stopping"
   ],
   "note": ""
  },
  {
   "property": "C19",
   "status": "proved",
   "theorems": [
    "C19_ask_takes_oldest",
    "C19_contents_exact",
    "C19_discard_exact",
    "C19_asks_cycle",
    "C19_double_tell_duplicates_refuted"
   ],
   "note": ""
  },
  {
   "property": "C20",
   "status": "proved",
   "theorems": [
    "C20_ordered_set_refines_list"
   ],
   "note": ""
  },
  {
   "property": "C21",
   "status": "proved",
   "theorems": [
    "C21_size",
    "C21_queue",
    "C21_ask_succeeds",
    "C21_selection",
    "C21_waiting",
    "C21_lineage_improves",
    "C21_population_shrinks_refuted",
    "C21_injection_exceeds_popsize_refuted"
   ],
   "note": "All histories; the exceptions are C21_population_shrinks_refuted and C21_injection_exceeds_popsize_refuted."
  },
  {
   "property": "C22",
   "status": "proved",
   "theorems": [
    "C22_size",
    "C22_child_replaces_parent",
    "C22_injected_replaces_worst",
    "C22_told_covered",
    "C22_covered_stays",
    "C22_no_failure",
    "C22_queue",
    "C22_ask_key_error_refuted",
    "C22_multiobjective_key_error_refuted"
   ],
   "note": "All histories; the failures are C22_ask_key_error_refuted and C22_multiobjective_key_error_refuted."
  },
  {
   "property": "C23",
   "status": "proved",
   "theorems": [
    "C23_front",
    "C23_mutually_undominated",
    "C23_requests_do_not_matter",
    "C23_subset",
    "C23_best_tentative",
    "C23_eps_is_random",
    "C23_subset_distinct_refuted"
   ],
   "note": "Losses are rationals, all vectors of one length (C05). Subsets may repeat points (C23_subset_distinct_refuted) and subset='EPS' is random (C23_eps_is_random)."
  },
  {
   "property": "C24",
   "status": "proved",
   "theorems": [
    "C24_covered",
    "C24_undominated_present"
   ],
   "note": "Losses are rationals, all vectors of one length (C05)."
  },
  {
   "property": "C25",
   "status": "proved",
   "theorems": [
    "C25_exact",
    "C25_cells",
    "C25_set_only",
    "C25_dominated_ignored",
    "C25_monotone",
    "C25_contribution",
    "C25_single",
    "C25_no_points",
    "C25_ties_refuted",
    "C25_undominated_ties_refuted",
    "C25_beyond_refuted"
   ],
   "note": "The sweep, its bounds, cached areas and domination flags are modelled and proved exact by induction on the number of objectives. Proved for up to three objectives without condition, and beyond when no two points agree in the third to last but one objectives and all but the last objective are strictly better than the reference; C25_ties_refuted gives a tied four objective case where the result is wrong."
  },
  {
   "property": "C26",
   "status": "proved",
   "theorems": [
    "C26_given_bounds",
    "C26_automatic_bounds",
    "C26_automatic_loss",
    "C26_best_volume",
    "C26_improving",
    "C26_not_improving",
    "C26_not_improving_finite",
    "C26_beyond",
    "C26_front",
    "C26_best_never_decreases",
    "C26_no_hypervolume",
    "C26_beyond_first_refuted",
    "C26_on_bounds_refuted",
    "C26_first_after_automatic_refuted"
   ],
   "note": "Uses the modelled hypervolume algorithm itself (C25_exact), hence the no-tie condition with four objectives or more. The case of a first point beyond the bounds is refuted (C26_beyond_first_refuted)."
  },
  {
   "property": "C27",
   "status": "proved",
   "theorems": [
    "C27_compare",
    "C27_majority_refuted",
    "C27_fronts",
    "C27_two_objectives",
    "C27_cycle_refuted",
    "C27_trimmed",
    "C27_selection",
    "C27_all_ranked"
   ],
   "note": "compute_ranking, compute_distance and rank of nsga2.py over exact rational losses, for every population. Fronts characterised for any number of objectives (by won comparisons) and, with at most two objectives, by Pareto dominance with every candidate ranked. Crowding distances specified by sorted orders and neighbour gaps; selection with and without n_selected. Findings: with three objectives a candidate may win without dominating (C27_majority_refuted) and comparisons may cycle, leaving all candidates unranked (C27_cycle_refuted). Not modelled: NaN or None losses."
  },
  {
   "property": "C28",
   "status": "proved",
   "theorems": [
    "C28_set_then_get",
    "C28_get_then_set",
    "C28_self_is_zero",
    "C28_get_changes_nothing",
    "C28_bounded_set_then_get_refuted"
   ],
   "note": "All trees of constants, arrays, scalars, dicts and tuples after any history; setting then getting needs unbounded data (C28_bounded_set_then_get_refuted)."
  },
  {
   "property": "C29",
   "status": "proved",
   "theorems": [
    "C29_dimension",
    "C29_dimension_never_changes",
    "C29_children_have_same_dimension",
    "C29_wrong_size_rejected",
    "C29_wrong_size_is_ValueError",
    "C29_wrong_size_rejected_array",
    "C29_one_number_for_an_array_refuted",
    "C29_other_structure_breaks_sizes_refuted",
    "C29_replaced_subparameter_breaks_sizes_refuted"
   ],
   "note": "Containers: any wrong size is refused and nothing changes. Arrays: except single numbers, which numpy broadcasts (C29_one_number_for_an_array_refuted)."
  },
  {
   "property": "C30",
   "status": "proved",
   "theorems": [
    "C30_frozen_array_never_changes",
    "C30_frozen_never_changes",
    "C30_freeze_keeps_values",
    "C30_frozen_refuses",
    "C30_frozen_refuses_values",
    "C30_frozen_below_refuses",
    "C30_children_not_frozen",
    "C30_constant_child_is_frozen_refuted"
   ],
   "note": "Trees after any history, any operations at any level; one array under any layers (Props/Layers.v). In-place changes of arrays: C31_given_arrays_are_shared_refuted. Root constants: the refuted theorem."
  },
  {
   "property": "C31",
   "status": "proved",
   "theorems": [
    "C31_spawn_succeeds",
    "C31_child_heritage",
    "C31_child_value",
    "C31_child_new_value",
    "C31_copy",
    "C31_sample",
    "C31_child_changes_keep_parent",
    "C31_parent_changes_keep_child",
    "C31_child_values",
    "C31_child_fields",
    "C31_copy_changes_keep_original",
    "C31_given_arrays_are_shared_refuted",
    "C31_wrapped_objects_are_shared_refuted",
    "C31_sample_changes_and_shares_constants_refuted"
   ],
   "note": "Heritage and values on trees (Props/Param.v); independence on a heap of objects and arrays, including in-place changes (Props/Sharing.v). Exceptions: the refuted theorems."
  },
  {
   "property": "C32",
   "status": "proved",
   "theorems": [
    "C32_set_then_get",
    "C32_accepted_values",
    "C32_other_keys_refused",
    "C32_other_length_refused",
    "C32_other_kind_refused",
    "C32_failed_set_changes_value_refuted"
   ],
   "note": "Accepted values are exactly those of the same structure (C32_accepted_values). A mismatch deeper than the container is found after other entries were set: C32_failed_set_changes_value_refuted."
  },
  {
   "property": "C33",
   "status": "proved",
   "theorems": [
    "C33_layers_sorted",
    "C33_add_keeps_order",
    "C33_copy_same_layers",
    "C33_attached_layer_refused"
   ],
   "note": ""
  },
  {
   "property": "C34",
   "status": "proved",
   "theorems": [
    "C34_value_within_bounds",
    "C34_reading_is_stable",
    "C34_inside_is_kept",
    "C34_clipping_nearest",
    "C34_bouncing_reflects",
    "C34_transform_idempotent",
    "C34_set_accepts_exactly_in_bounds",
    "C34_set_bounds",
    "C34_failed_set_bounds_changes_the_value_refuted",
    "C34_nested_bounds_can_raise_refuted",
    "C34_negative_multiplier_bounds_refuted"
   ],
   "note": "Any history of reads, sets, raw updates and freezes; supported stacks: below a bound layer only additions, products and constraint bounds; positive multipliers for the announced bounds. Exceptions: the refuted theorems."
  },
  {
   "property": "C35",
   "status": "proved",
   "theorems": [
    "C35_new",
    "C35_inside",
    "C35_increasing",
    "C35_forward_backward",
    "C35_backward_forward",
    "C35_outside",
    "C35_tanh_bounds",
    "C35_cauchy",
    "C35_margin_refuted"
   ],
   "note": "Arrays of any size over exact reals. The gaussian cdf of scipy is any density (increasing bijection from R to (0,1)); the Cauchy one is defined. With the margin eps values in the margin are not recovered: C35_margin_refuted."
  },
  {
   "property": "C36",
   "status": "proved",
   "theorems": [
    "C36_set_then_get",
    "C36_get_then_set",
    "C36_affine_inverse",
    "C36_exponentiate",
    "C36_affine",
    "C36_reverted",
    "C36_partly_zero_refuted",
    "C36_stack_set_get",
    "C36_stack_get_set",
    "C36_negative_power_refuted",
    "C36_nonpositive_exponent_refuted",
    "C36_base_one_refuted"
   ],
   "note": "Stacks with caches, bounds and histories over exact rationals (Props/Layers.v); Exponent, Power, Exponentiate, Reverted and stacks of all operations over the reals (Props/RTransforms.v). Partly zero factors, base 1, negative numbers: the refuted theorems."
  },
  {
   "property": "C37",
   "status": "proved",
   "theorems": [
    "C37_integer_nearest",
    "C37_integer_bounds_exact",
    "C37_no_integer_in_bounds_refuted",
    "C37_negated_integer_is_constant_refuted"
   ],
   "note": "Exact rationals with the code's 1e-12 margin; exactly within integer bounds (C37_integer_bounds_exact). Exceptions: the refuted theorems."
  },
  {
   "property": "C38",
   "status": "proved",
   "theorems": [
    "C38_modulo",
    "C38_set_moves_little"
   ],
   "note": "The raw value moves by at most m (exactly m when m is set over a multiple of m)."
  },
  {
   "property": "C39",
   "status": "proved",
   "theorems": [
    "C39_history",
    "C39_kept",
    "C39_set_get_parameter",
    "C39_frozen",
    "C39_set_get",
    "C39_refused",
    "C39_repetitions_refuted",
    "C39_refused_set_changes_refuted",
    "C39_wrong_length_refuted",
    "C39_valid",
    "C39_deterministic",
    "C39_probabilities",
    "C39_sample",
    "C39_positive",
    "C39_zero_draw_refuted",
    "C39_reset",
    "C39_reset_probability"
   ],
   "note": "Exact reals with infinities and nan; all weights and draws; any history of a choice among constants or parameters. The draw 0 may select an option of probability zero: C39_zero_draw_refuted. Other findings: the refuted theorems on repetitions and refused sets."
  },
  {
   "property": "C40",
   "status": "proved",
   "theorems": [
    "C40_tabu",
    "C40_bounded",
    "C40_violating_recorded_refuted",
    "C40_not_idempotent_refuted",
    "C40_shorter_refuted"
   ],
   "note": "Any history of checks and length changes. Findings: violating values are recorded, a check is not idempotent, and shrinking the length leaves values tabu: the refuted theorems."
  },
  {
   "property": "C41",
   "status": "proved",
   "theorems": [
    "C41_cells",
    "C41_history"
   ],
   "note": "Exact rationals; permutations and uniform draws are any."
  },
  {
   "property": "C42",
   "status": "proved",
   "theorems": [
    "C42_range",
    "C42_distinct",
    "C42_equidistributed",
    "C42_permutations",
    "C42_hammersley"
   ],
   "note": "Exact rationals; bases of any pairwise coprime lengths; boxes of any levels, any block of consecutive points."
  },
  {
   "property": "C43",
   "status": "proved",
   "theorems": [
    "C43_first",
    "C43_enough"
   ],
   "note": "The sieve bound is any size of at least 4; that int(1 + n (log log n + log n)) exceeds the n-th prime (Rosser) is not proved: C43_enough says an error is raised otherwise."
  },
  {
   "property": "C44",
   "status": "proved",
   "theorems": [
    "C44_accepted",
    "C44_rescaled",
    "C44_constant_refuted"
   ],
   "note": "Exact rationals. A coordinate where all points agree divides by zero: C44_constant_refuted."
  },
  {
   "property": "C45",
   "status": "proved",
   "theorems": [
    "C45_partition",
    "C45_disjoint",
    "C45_split_succeeds",
    "C45_length",
    "C45_seeded_length_refuted",
    "C45_zero_parts_refuted",
    "C45_negative_index_refuted"
   ],
   "note": "Python generators as lists; the experiments of the maker are any list. Findings: a seeded moduler's length, zero parts, and a negative index: the refuted theorems."
  },
  {
   "property": "C46",
   "status": "proved",
   "theorems": [
    "C46_summaries",
    "C46_resumed",
    "C46_outcome",
    "C46_workers",
    "C46_process_refuted",
    "C46_not_recognized_refuted"
   ],
   "note": "A chunk is interrupted at any point and resumed any number of times; the experiments' results are any. Findings: a process function that raises reruns the experiment, and an unrecognised one restarts everything: the refuted theorems."
  },
  {
   "property": "C47",
   "status": "proved",
   "theorems": [
    "C47_order",
    "C47_earliest",
    "C47_time",
    "C47_one_done",
    "C47_progress",
    "C47_evaluated_once",
    "C47_read_twice_refuted",
    "C47_batch",
    "C47_raising_refuted"
   ],
   "note": "Exact rational times; jobs' outputs and pseudo-times are any. The heap is a sorted list. Findings: a result can be read once only, a raising job blocks the others: the refuted theorems."
  },
  {
   "property": "C48",
   "status": "proved",
   "theorems": [
    "C48_running",
    "C48_finished",
    "C48_mismatch",
    "C48_late_exit_refuted",
    "C48_late_exit_blocks_refuted",
    "C48_pending_refuted",
    "C48_penalty_refuted",
    "C48_refused_candidate_refuted",
    "C48_told_again_refuted"
   ],
   "note": "The library is any deterministic function of the losses it received; that a thread may outlive its function is a scheduling choice. Queues are lists. Five findings: the refuted theorems."
  },
  {
   "property": "C49",
   "status": "proved",
   "theorems": [
    "C49_losses",
    "C49_once",
    "C49_answered",
    "C49_too_many",
    "C49_can_ask_finished",
    "C49_empty_batch_refuted",
    "C49_refused_candidate_refuted"
   ],
   "note": "The library is any function of the arrays it received; any interleaving of asks, refused candidates and tells."
  },
  {
   "property": "C50",
   "status": "proved",
   "theorems": [
    "C50_pairwise",
    "C50_grouper",
    "C50_grouper_zero_refuted",
    "C50_roundrobin"
   ],
   "note": "grouper with n=0 loses everything: C50_grouper_zero_refuted."
  },
  {
   "property": "C51",
   "status": "proved",
   "theorems": [
    "C51_lower_case",
    "C51_restored",
    "C51_removed_raises_refuted"
   ],
   "note": "Any body, raising or not, that does not delete a variable set; otherwise C51_removed_raises_refuted."
  },
  {
   "property": "C52",
   "status": "proved",
   "theorems": [
    "C52_lookup",
    "C52_register",
    "C52_info",
    "C52_stale_info_refuted"
   ],
   "note": ""
  },
  {
   "property": "C53",
   "status": "proved",
   "theorems": [
    "C53_variablewise",
    "C53_onepoint",
    "C53_twopoints",
    "C53_rotated",
    "C53_voronoi",
    "C53_apply",
    "C53_rotated_refuted",
    "C53_voronoi_one_refuted",
    "C53_mix",
    "C53_max_min_swapped_refuted",
    "C53_mix_rotation_refuted"
   ],
   "note": "All modes, draws and dimensions; rotated two points is a rotation, not coordinatewise (C53_rotated_refuted). Exceptions: the refuted theorems."
  },
  {
   "property": "C54",
   "status": "proved",
   "theorems": [
    "C54_translation",
    "C54_jump",
    "C54_jumping",
    "C54_jumping_legal",
    "C54_jumping_size_one_refuted",
    "C54_jumping_whole_refuted",
    "C54_crossover",
    "C54_negative_axis_refuted",
    "C54_axis_one_refuted"
   ],
   "note": "Tensors of any shape; the chunks and windows that raise are the refuted theorems."
  },
  {
   "property": "C55",
   "status": "proved",
   "theorems": [
    "C55_pattern",
    "C55_distinct",
    "C55_all_patterns",
    "C55_involution",
    "C55_domain",
    "C55_other_bounds_refuted",
    "C55_range"
   ],
   "note": "All dimensions and indices; only the bounds of the first coordinate are checked: C55_other_bounds_refuted."
  },
  {
   "property": "C56",
   "status": "proved",
   "theorems": [
    "C56_no_improvement",
    "C56_no_loss",
    "C56_window_refuted",
    "C56_several_objectives_refuted",
    "C56_timer",
    "C56_timer_first",
    "C56_callback"
   ],
   "note": "All loss histories; the window is one tell longer than documented (C56_window_refuted) and multi-objective losses raise (C56_several_objectives_refuted)."
  },
  {
   "property": "C57",
   "status": "proved",
   "theorems": [
    "C57_finditer",
    "C57_sub",
    "C57_convert",
    "C57_file_init",
    "C57_file_call",
    "C57_uncomment",
    "C57_uncomment_clean",
    "C57_file_lines",
    "C57_folder",
    "C57_shared_names_refuted",
    "C57_upper_case_refuted",
    "C57_last_newline_refuted"
   ],
   "note": "ASCII texts; the regular expression is specified as a language (Spec/Instantiate.v). Findings: the refuted theorems."
  },
  {
   "property": "C58",
   "status": "proved",
   "theorems": [
    "C58_advice",
    "C58_bounds",
    "C58_clip"
   ],
   "note": ""
  },
  {
   "property": "C59",
   "status": "proved",
   "theorems": [
    "C59_penalty",
    "C59_monotone",
    "C59_unsupported",
    "C59_update",
    "C59_refused_kept_refuted",
    "C59_nested_refuted",
    "C59_nan_refuted"
   ],
   "note": "Over the reals, for every outputs, positive factor; constraints of sub-parameters and nan are ignored (refuted theorems)."
  },
  {
   "property": "C60",
   "status": "proved",
   "theorems": [
    "C60_flatten",
    "C60_clean",
    "C60_collision_refuted",
    "C60_empty_refuted"
   ],
   "note": "Dict/list trees with distinct dotted paths; collisions and empty containers are the refuted theorems."
  },
  {
   "property": "C61",
   "status": "proved",
   "theorems": [
    "C61_prints_each_tell_refuted",
    "C61_late_silent_refuted",
    "C61_seconds",
    "C61_exact"
   ],
   "note": "The seconds interval holds for every history; the tells interval is refuted."
  },
  {
   "property": "C62",
   "status": "proved",
   "theorems": [
    "C62_range",
    "C62_set_get"
   ],
   "note": "Exact reals (no signed zeros)."
  },
  {
   "property": "C63",
   "status": "proved",
   "theorems": [
    "C63_range",
    "C63_inverse",
    "C63_noisy_inverse",
    "C63_default_arity_refuted"
   ],
   "note": "The normal cdf is any density with median 0. The inverse without the arity (as called by the coordinatewise mutation) is not an inverse: C63_default_arity_refuted."
  },
  {
   "property": "C64",
   "status": "proved",
   "theorems": [
    "C64_index",
    "C64_uniform",
    "C64_boundary",
    "C64_increasing",
    "C64_set_get_index",
    "C64_refused_index",
    "C64_mutate",
    "C64_move_probability",
    "C64_binned",
    "C64_binning_refuted",
    "C64_unordered_refuted",
    "C64_unordered"
   ],
   "note": "Exact reals, the normal distribution being any density; at most 5e8 options (margin 1e-9 of the transform). Among parameters, setting data falls back on the first option (C64_binning_refuted), and unordered choices cannot mutate (C64_unordered_refuted)."
  },
  {
   "property": "C65",
   "status": "proved",
   "theorems": [
    "C65_discrete",
    "C65_portfolio",
    "C65_portfolio_default",
    "C65_rls",
    "C65_doubledoerr",
    "C65_doerr",
    "C65_doerr_small",
    "C65_doerr_small_refuted",
    "C65_discrete_kept",
    "C65_high_arity_refuted",
    "C65_rls_reaches",
    "C65_discrete_reaches",
    "C65_low_arity",
    "C65_dimension_one_refuted",
    "C65_no_error",
    "C65_empty",
    "C65_crossover",
    "C65_coordinatewise",
    "C65_coordinatewise_refuted",
    "C65_roulette",
    "C65_roulette_all",
    "C65_roulette_empty",
    "C65_roulette_zero",
    "C65_default_num"
   ],
   "note": "For every list of draws. Counterexamples: FastGA (doerr) drops the arity below dimension 5; RLS and portfolio redraw without bin check in dimension 1; above 499 bins a redraw may give the same point; coordinatewise mutation inverts with two bins whatever the arity, sending untouched coordinates to the last bin. Coordinates are abstract, with an arbitrary bin function."
  },
  {
   "property": "C66",
   "status": "proved",
   "theorems": [
    "C66_lognormal_rate",
    "C66_lognormal_odds",
    "C66_lengler",
    "C66_sigma",
    "C66_sigma_positive",
    "C66_adaptive",
    "C66_adaptive_step",
    "C66_velocity",
    "C66_velocities_alike",
    "C66_lognormal",
    "C66_annealing",
    "C66_annealing_step",
    "C66_no_error",
    "C66_bso",
    "C66_doerr_rates",
    "C66_doerr_sequence",
    "C66_doerr_greedy",
    "C66_doerr_twice_refuted",
    "C66_doerr_dimension_one_refuted"
   ],
   "note": "Counterexamples: the doerr mutation fails (AssertionError) when asked twice before a tell, e.g. after a refused candidate, and divides by zero in dimension 1; the velocities of the coordinatewise mutation are all updated alike. Not modelled: smoothing, Pareto sampling, sparsity, noise handling."
  },
  {
   "property": "C67",
   "status": "proved",
   "theorems": [
    "C67_sizes",
    "C67_growth",
    "C67_test",
    "C67_constant_losses",
    "C67_minimal_refuted",
    "C67_no_error_at_ask",
    "C67_generation",
    "C67_moving",
    "C67_frozen_refuted",
    "C67_solver_refuted",
    "C67_covariance",
    "C67_eda_generation",
    "C67_eda_stuck_refuted"
   ],
   "note": "Counterexamples: initial_popsize is not minimal when above the dimension; telling (or suggesting) the current centre may set the TBPSA step size to zero for ever, all later candidates being the same point; a candidate repaired by the constraint solver has no step size and makes tell raise a KeyError, at every later tell for EDA. int(mu*0.84) is exact; the normal draws are arbitrary."
  },
  {
   "property": "C68",
   "status": "proved",
   "theorems": [
    "C68_size",
    "C68_tell_accepted",
    "C68_ask_accepted",
    "C68_global_best",
    "C68_particle_moves",
    "C68_injected",
    "C68_personal_best",
    "C68_asked_inherits",
    "C68_best_penalty_refuted",
    "C68_personal_best_injected_refuted",
    "C68_ask_key_error_refuted",
    "C68_in_box",
    "C68_attraction",
    "C68_rest",
    "C68_arctan_pole_refuted"
   ],
   "note": "Population, queue, best and personal bests of _PSO over arbitrary histories; the move of one coordinate over R. Quasi-opposite initialisation (qo/sqo/so) and the cache of boxed data are not modelled. Refuted parts: penalty forgotten for the best point, injected particle not its own best, KeyError with more workers than particles, arctan pole."
  },
  {
   "property": "C69",
   "status": "proved",
   "theorems": [
    "C69_budgets",
    "C69_budgets_sum_refuted",
    "C69_ask",
    "C69_share",
    "C69_fed",
    "C69_fed_before",
    "C69_own",
    "C69_no_crossing",
    "C69_tell_accepted_refuted",
    "C69_over_budget_refuted",
    "C69_suggestion_refuted",
    "C69_nested_refuted",
    "C69_rejected_refuted"
   ],
   "note": "Sub-optimizers are arbitrary state machines whose ask does not raise; tells of refused candidates (penalize_cheap_violations) are not modelled. Refuted parts: sum of the budgets, tell raising half-way when a sub-optimizer refuses foreign points, no_crossing beyond the budget, for suggestions and for nested chains."
  },
  {
   "property": "C70",
   "status": "proved",
   "theorems": [
    "C70_setup",
    "C70_setup_errors",
    "C70_turns_refuted",
    "C70_ask",
    "C70_rotation",
    "C70_workers",
    "C70_tell",
    "C70_chosen",
    "C70_chooses",
    "C70_focus",
    "C70_sub_budget",
    "C70_sub_budget_warmup",
    "C70_sampled",
    "C70_never_chosen",
    "C70_sub_budget_parallel_refuted",
    "C70_choice_parallel_refuted",
    "C70_late_tell_refuted",
    "C70_second_sampled_refuted",
    "C70_asked_accepted_refuted"
   ],
   "note": "Sub-optimizers are arbitrary state machines whose ask does not raise; optimizers are given as classes (not instances), budgets and ratios are exact rationals. Refuted parts: number of turns with warmup_ratio=1, sub-budget with more workers than optimizers, the choice with several workers, tells of discarded optimizers' candidates, sampling of the second optimizer, refused first tell of the third one."
  },
  {
   "property": "C71",
   "status": "proved",
   "theorems": [
    "C71_sizes",
    "C71_num_optims",
    "C71_num_vars",
    "C71_max_num_vars",
    "C71_default",
    "C71_num_vars_refuted",
    "C71_ask",
    "C71_progressive",
    "C71_tell",
    "C71_tell_new",
    "C71_retry_refuted",
    "C71_solved_refuted"
   ],
   "note": "Sub-optimizers are arbitrary state machines of the right dimension whose ask does not raise; the progressive comparison is exact (no float rounding). Refuted parts: num_vars with zeros dropped, retry after a refused tell, tell of a constraint-solver candidate. list_data's order is not modelled here."
  },
  {
   "property": "C72",
   "status": "proved",
   "theorems": [
    "C72_ask",
    "C72_function",
    "C72_own",
    "C72_tell",
    "C72_default_scale",
    "C72_shift_refuted"
   ],
   "note": "Exact rationals for points and scale; default_scale over the reals (standard library axioms for Reals). Refuted: the shift is not undone for points told without being asked."
  },
  {
   "property": "C73",
   "status": "proved",
   "theorems": [
    "C73_recombination",
    "C73_recombination_alone",
    "C73_mutation",
    "C73_container_noise_refuted"
   ],
   "note": "C73_recombination (any depth, sigmas included, any number of others), C73_recombination_alone, C73_mutation for data; C73_container_noise_refuted shows that the parts of a container move by two draws."
  },
  {
   "property": "C74",
   "status": "proved",
   "theorems": [
    "C74_selection",
    "C74_one_variable",
    "C74_one_variable_refuted",
    "C74_metacma",
    "C74_no_budget",
    "C74_no_budget_refuted",
    "C74_noise",
    "C74_noise_refuted"
   ],
   "note": "All variants of the competence maps (MetaCMA, NGOptBase, NGOptDSBase, Shiwa, NGOpt4-39, NGOptRW, NGOpt, Wiz) and CMandAS2, with creation of the nested chains, portfolios, meta-models and rescalings. cma_vars (4+int(3 log d)) is arbitrary. Not modelled: NGOptF and the variants after Wiz (NgIoh and others, optimizerlib.py:4396-4808, 4915-6700). Refuted: without a budget; CMA-ES in dimension 1 with noise or in NGOpt8; noise-aware optimizer for noisy integer problems."
  },
  {
   "property": "C75",
   "status": "proved",
   "theorems": [
    "C75_distribution",
    "C75_pairs",
    "C75_winner_ahead",
    "C75_exact_step",
    "C75_draw",
    "C75_asked",
    "C75_flat",
    "C75_learning_refuted"
   ],
   "note": "exact arithmetic; a candidate is its list of values after threshold_discretization; C75_learning_refuted: with the default arity 500 and at most 40 workers every probability stays in [1/541, 1/460] for ever"
  },
  {
   "property": "C76",
   "status": "proved",
   "theorems": [
    "C76_rounds",
    "C76_recommendation",
    "C76_linear",
    "C76_suggestion_refuted",
    "C76_asked_again_refuted"
   ],
   "note": "exact arithmetic; the gain sequences are arbitrary functions of k // 2. Refuted: an early tell or suggestion gives NaN for ever; asking twice repeats the move"
  },
  {
   "property": "C77",
   "status": "proved",
   "theorems": [
    "C77_given",
    "C77_learnt",
    "C77_batches",
    "C77_parents",
    "C77_penalties_refuted",
    "C77_told_twice_refuted"
   ],
   "note": "the evolution strategy (library cma or fcmaes) is an arbitrary state machine; its numerical behaviour is not modelled. Refuted: penalties do not reach the strategy; losses of a candidate told twice"
  },
  {
   "property": "C78",
   "status": "proved",
   "theorems": [
    "C78_trust_region",
    "C78_ranked",
    "C78_schedule",
    "C78_ask",
    "C78_degree_one_refuted"
   ],
   "note": "algorithms other than image and voxelize; regression, minimisation and square root are arbitrary functions; exact arithmetic. C78_degree_one_refuted: never a proposal in dimension 1 with degree 1"
  },
  {
   "property": "C79",
   "status": "proved",
   "theorems": [
    "C79_generations",
    "C79_isotropic_refuted",
    "C79_collapse",
    "C79_sizes",
    "C79_small_budget_refuted"
   ],
   "note": "population_size_adaptation=False; the square root is an arbitrary function, exact arithmetic. Refuted: isotropic and separable scales are exchanged; budgets below 4 raise"
  },
  {
   "property": "C80",
   "status": "proved",
   "theorems": [
    "C80_asks",
    "C80_never_fails",
    "C80_exploration_bounded",
    "C80_one_worker",
    "C80_known_points_delay_draws"
   ],
   "note": "Model in Model/NoisyBandit.v on top of Model/Archive.v: every interleaving of asks, tells and outside tells. C80_never_fails holds for any pruning keeping a sub-archive; the schedule is proved with the archive unpruned (the default pruning acts above max_len points, i.e. after at least max_len^3/20 asks with one worker)."
  },
  {
   "property": "C81",
   "status": "proved",
   "theorems": [
    "C81_interface",
    "C81_transparent",
    "C81_penalised_twice",
    "C81_retries_multiply",
    "C81_several_objectives",
    "C81_failing_selection",
    "C81_failing_selection_tell"
   ],
   "note": "Both optimizers are instances of the model of Model/Optimizer.v (C01-C06): the algorithm of the outer one is the inner one. Transparency is for histories of plain asks, suggestions and tells of real losses, with no violated constraint. Which optimizer is selected is C74; recommend is C07."
  },
  {
   "property": "C82",
   "status": "proved",
   "theorems": [
    "C82_design_determined",
    "C82_design",
    "C82_capacity",
    "C82_within_budget",
    "C82_pairs",
    "C82_average",
    "C82_ignored_rules",
    "C82_rejected_refuted"
   ],
   "note": "The points of the sampler (after rescaling) and the random factors are arbitrary sequences; convex_limit and the stupid recommendation are not modelled. Findings: a suggestion asked first loses the middle point; random search with middle point and opposition asks the origin twice; SamplingSearch ignores two of the three averaging rules; with constraints rejected points use up the sampler (C82_rejected_refuted)."
  },
  {
   "property": "C83",
   "status": "proved",
   "theorems": [
    "C83_sphere",
    "C83_ill_conditioned",
    "C83_conditioning",
    "C83_multimodal",
    "C83_sphere_from",
    "C83_rosenbrock",
    "C83_lunacek",
    "C83_multipeak",
    "C83_gaussian_peak",
    "C83_deceptive",
    "C83_illcond_minimum_refuted",
    "C83_step",
    "C83_stepellipsoid",
    "C83_rosenbrock_one_variable_refuted",
    "C83_bentcigar_far_refuted",
    "C83_hm_minimum_refuted",
    "C83_doublelinearslope",
    "C83_slope_minimum_refuted",
    "C83_linear_minimum_refuted",
    "C83_corner_peak",
    "C83_styblinski_tang_positive_refuted",
    "C83_onemax",
    "C83_leadingones",
    "C83_jump",
    "C83_jump_valley"
   ],
   "note": "Exact real arithmetic; maxdeceptive, sumdeceptive, the Bonnans functions and noisy variants are not modelled."
  },
  {
   "property": "C84",
   "status": "proved",
   "theorems": [
    "C84_settings",
    "C84_blocks",
    "C84_split",
    "C84_useless",
    "C84_optimum",
    "C84_optimum_untransformed",
    "C84_noise_free",
    "C84_noise",
    "C84_noise_centred",
    "C84_noise_dissymmetric",
    "C84_penalty",
    "C84_zero_pen_optimum_refuted",
    "C84_hashing_refuted",
    "C84_far_optimum"
   ],
   "note": "Exact reals; exponents are non-negative integers; random draws are arguments with the contract of numpy (choice without replacement, orthogonal factor)."
  },
  {
   "property": "C85",
   "status": "proved",
   "theorems": [
    "C85_copy",
    "C85_copy_iff",
    "C85_copy_error",
    "C85_copies",
    "C85_added",
    "C85_changed_raises",
    "C85_reserved_raises",
    "C85_parametrization",
    "C85_same_name_refuted",
    "C85_equivalence",
    "C85_experiments",
    "C85_multi",
    "C85_multi_check"
   ],
   "note": "Names, descriptor values and classes are numbers; the constructor is any function which records its class and arguments. Random states of copied parameters are not modelled. C85_same_name_refuted: an overridden parametrization with the same name is lost."
  },
  {
   "property": "C86",
   "status": "proved",
   "theorems": [
    "C86_raises",
    "C86_let_through",
    "C86_loss",
    "C86_success",
    "C86_not_reached",
    "C86_which",
    "C86_sticky",
    "C86_sticky_refuted"
   ],
   "note": "The copy, the creation of the optimizer, the minimization and the evaluations are arbitrary outcomes. Times and optimizer info are not modelled. C86_sticky_refuted: errors are never cleared."
  },
  {
   "property": "C87",
   "status": "proved",
   "theorems": [
    "C87_set_get",
    "C87_get_again",
    "C87_construct",
    "C87_bounded",
    "C87_set",
    "C87_set_bounds",
    "C87_bounce",
    "C87_log",
    "C87_log_bounded",
    "C87_log_set",
    "C87_log_scale",
    "C87_sample_scalar",
    "C87_sample_log",
    "C87_sample_around",
    "C87_array_sampling_refuted",
    "C87_either_order",
    "C87_small_exponent_refuted",
    "C87_bounds_twice_refuted",
    "C87_log_disorder_refuted"
   ],
   "note": "One coordinate over exact reals; numbers that are not finite stop the model. Methods clipping, bouncing, arctan, tanh and constraint; the gaussian method is in C35. Refuted: full-range sampling of arrays, exponents below 1 with bounds, bounds set twice, Log with bounds in the wrong order."
  },
  {
   "property": "C88",
   "status": "proved",
   "theorems": [
    "C88_war_ends",
    "C88_war_size",
    "C88_war_cards",
    "C88_war_winner",
    "C88_war_takes",
    "C88_war_fair",
    "C88_war_expressive",
    "C88_guesswho_progress",
    "C88_guesswho_ends",
    "C88_guesswho_odds_refuted",
    "C88_flip_move",
    "C88_flip_greedy",
    "C88_flip_ends",
    "C88_flip_match_refuted",
    "C88_flip_second_seat",
    "C88_flip_empty_hand_refuted",
    "C88_war_loss",
    "C88_guesswho_loss",
    "C88_flip_loss"
   ],
   "note": "war, batawaf, guess who, flip and the loss of Game; three refuted expectations (odds of guess who, one-sided match, empty hand of the second seat of flip). The hash of a seed are not modelled."
  },
  {
   "property": "C89",
   "status": "proved",
   "theorems": [
    "C89_backward",
    "C89_roundtrip",
    "C89_forward_inside",
    "C89_forward_inside_refuted",
    "C89_two_dimensions_refuted",
    "C89_unworkable",
    "C89_fully_bounded",
    "C89_settings_restored",
    "C89_deterministic",
    "C89_deterministic_refuted",
    "C89_analyze",
    "C89_continuous_refuted",
    "C89_continuous"
   ],
   "note": "The arrays of a parameter are given as a list of leaves (list_data is not modelled); real numbers; the made relation ranges over the numbers built by Scalar, Array, Log and set_bounds. C89_two_dimensions_refuted, C89_forward_inside_refuted, C89_deterministic_refuted and C89_continuous_refuted are the cases where the documented behaviour fails."
  },
  {
   "property": "C90",
   "status": "proved",
   "theorems": [
    "C90_seeded",
    "C90_one_seed",
    "C90_synchronised",
    "C90_stream",
    "C90_reset_copy",
    "C90_apart",
    "C90_sub_seed_refuted",
    "C90_sigma_refuted"
   ],
   "note": "Generators are streams indexed by seed and position, shared by handle; the global generator is an arbitrary stream of seeds. Programs are arbitrary lists of operations. Two refuted readings (seed of a sub-parameter, sigma replaced by a parameter)."
  },
  {
   "property": "C91",
   "status": "proved",
   "theorems": [
    "C91_mutation_steps",
    "C91_sampling_steps",
    "C91_nested",
    "C91_sigma_refuted"
   ],
   "note": "Normal numbers are arbitrary integers of a stream, so only which numbers are added is stated, not their distribution. C91_sigma_refuted: the depth changes the strength of mutations."
  },
  {
   "property": "C92",
   "status": "proved",
   "theorems": [
    "C92_asked",
    "C92_recorded",
    "C92_round_trip",
    "C92_scales",
    "C92_unbounded_refuted",
    "C92_upper_bound_refuted",
    "C92_constant_refuted",
    "C92_nested_choice_refuted",
    "C92_labels_refuted",
    "C92_rounded_refuted"
   ],
   "note": "The package hyperopt is represented by what it documents: legal draws, evaluation of a space, refusal of repeated labels. Numbers are exact (log bounds are taken as the interval of the exponentials)."
  },
  {
   "property": "C93",
   "status": "proved",
   "theorems": [
    "C93_satisfied",
    "C93_search",
    "C93_many",
    "C93_stable",
    "C93_assign",
    "C93_bool",
    "C93_own_refuted",
    "C93_frozen_refuted",
    "C93_worse_refuted",
    "C93_refused_refuted",
    "C93_many_refuted",
    "C93_sign_refuted"
   ],
   "note": "Points, constraint function and optimizer are arbitrary; the optimizer is any proposal rule, with the recommendation C07 establishes for those without one of their own. Losses exact; parallelism absent (minimize is called with one worker). The limits are refuted theorems."
  },
  {
   "property": "C94",
   "status": "proved",
   "theorems": [
    "C94_aggregate",
    "C94_order",
    "C94_table",
    "C94_rates",
    "C94_best",
    "C94_kept",
    "C94_complete",
    "C94_majority_refuted",
    "C94_add_refuted",
    "C94_complete_refuted",
    "C94_infinite_refuted"
   ],
   "note": "Exact rational means and rates; ties of the ranking in the order of the optimizers (pandas leaves it open). The cut to a number of rows and columns and the labels are not modelled."
  },
  {
   "property": "C95",
   "status": "proved",
   "theorems": [
    "C95_portfolio",
    "C95_named",
    "C95_announced_refuted",
    "C95_built",
    "C95_sqrt_refuted",
    "C95_carola3",
    "C95_carola3_pair_refuted",
    "C95_multi_discrete",
    "C95_cm",
    "C95_cm_budget_refuted",
    "C95_cm_and_as"
   ],
   "note": "Members, budgets, workers and turns of the registered portfolios as their constructors leave them. Refuted for the 26 portfolios of local searches (second super().__init__ call), Carola3, MultiDiscrete with small budgets, and the doubled budget of CM."
  },
  {
   "property": "C96",
   "status": "proved",
   "theorems": [
    "C96_single",
    "C96_hypervolume",
    "C96_same_ranking",
    "C96_first",
    "C96_stop",
    "C96_weighted_refuted",
    "C96_candidate_refuted",
    "C96_own_refuted"
   ],
   "note": "The tells of MultipleSingleRuns on top of the hypervolume model. The copies are told proportional losses (same ranking), so the documented weighting of the objectives is refuted."
  },
  {
   "property": "C97",
   "status": "proved",
   "theorems": [
    "C97_selection",
    "C97_unlucky",
    "C97_tuned_refuted",
    "C97_no_budget",
    "C97_one_worker",
    "C97_one_worker8",
    "C97_restarts",
    "C97_noise",
    "C97_direct_search",
    "C97_one_variable_refuted",
    "C97_multiobjective",
    "C97_multiobjective_refuted"
   ],
   "note": "Proved for all 29 variants. Refuted: NgIohTuned works for every problem with a budget (TypeError from a zero-argument super() with another self); meta-model uses OnePlusOne in dimension 1; NgIohTuned delegates to DE for several objectives. Not modelled: the scales of the restarts, drawn from the global numpy random state, and what the chosen methods then do."
  },
  {
   "property": "C98",
   "status": "proved",
   "theorems": [
    "C98_nearest",
    "C98_closest_unique",
    "C98_parallel",
    "C98_reproducible",
    "C98_reproducible_refuted",
    "C98_F_reproducible",
    "C98_no_budget",
    "C98_never_used",
    "C98_many_variables"
   ],
   "note": "The reproducibility part is refuted for NGOptF2/F3/F5 (C98_reproducible_refuted) and characterised exactly (C98_reproducible). Table ratios and the budget per variable are exact rationals; whether the names are registered is not modelled."
  },
  {
   "property": "C99",
   "status": "proved",
   "theorems": [
    "C99_exactly_once",
    "C99_points",
    "C99_by_batches",
    "C99_suggested_refuted",
    "C99_batches_refuted",
    "C99_doe",
    "C99_doe_refuted",
    "C99_keys",
    "C99_bo_ask",
    "C99_design",
    "C99_bo_recommend",
    "C99_bo_latest_refuted",
    "C99_no_budget"
   ],
   "note": "Packages are arbitrary functions over an arbitrary state; the parts of bayes_opt that the code relies on (queue, cache of values, sorted keys) are written out from the comments of the code and its use. Constraints on the parametrization are left out. The _refuted theorems record refused losses of suggestions, split batches, an initial design larger than the budget, ignored later losses."
  },
  {
   "property": "C100",
   "status": "proved",
   "theorems": [
    "C100_optimum",
    "C100_numbers",
    "C100_split",
    "C100_conflicting",
    "C100_irregularity",
    "C100_asymmetry",
    "C100_conditioning",
    "C100_indexing",
    "C100_conflicting_no_zero",
    "C100_groups"
   ],
   "note": "Exact reals (stdlib axioms of the reals). The sizes 1000/700/905/5/25/50/100 are parameters; the files of data are arbitrary data meeting data_ok. numpy broadcasting of arrays of size one is left out."
  },
  {
   "property": "C101",
   "status": "proved",
   "theorems": [
    "C101_best",
    "C101_unique",
    "C101_unchanged",
    "C101_mean",
    "C101_unsorted",
    "C101_integers_refuted"
   ],
   "note": "Optimality (the merging of groups is the algorithm of pool-adjacent-violators) proved for all lists by a prefix-sum invariant of the groups and summation by parts. Exact rationals instead of floats; C101_integers_refuted exhibits the truncation when all the positions are integers."
  },
  {
   "property": "C102",
   "status": "proved",
   "theorems": [
    "C102_errors",
    "C102_no_nan",
    "C102_no_error_column",
    "C102_labels_refuted",
    "C102_normalized",
    "C102_unit",
    "C102_order",
    "C102_failures_refuted",
    "C102_all_above",
    "C102_names",
    "C102_names_distinct",
    "C102_names_refuted",
    "C102_suffix_refuted",
    "C102_pattern_errors"
   ],
   "note": "Tables are lists of labelled rows with text cells and float losses (no rounding); pandas operations are modelled by what they do on such rows. Patterns without format specifications. Warnings are left out."
  },
  {
   "property": "C103",
   "status": "proved",
   "theorems": [
    "C103_winners",
    "C103_losers",
    "C103_afresh",
    "C103_recommended",
    "C103_kept",
    "C103_recommended_refuted",
    "C103_unknown_losers"
   ],
   "note": "Comparisons over any history; the recommendation after points evaluated before is refuted."
  },
  {
   "property": "C104",
   "status": "proved",
   "theorems": [
    "C104_trials",
    "C104_feasible",
    "C104_least",
    "C104_noisy_refuted"
   ],
   "note": "Inner search of ask; the noisy case with repeated points is refuted."
  },
  {
   "property": "C105",
   "status": "proved",
   "theorems": [
    "C105_best",
    "C105_direct_search",
    "C105_single_run",
    "C105_budget",
    "C105_no_budget",
    "C105_restart_refuted",
    "C105_space_refuted"
   ],
   "note": "Restart loop over an arbitrary library; three families of methods are refuted."
  },
  {
   "property": "C106",
   "status": "proved",
   "theorems": [
    "C106_nodes",
    "C106_oriented",
    "C106_links",
    "C106_reachable",
    "C106_first_refuted",
    "C106_idle"
   ],
   "note": "C106_nodes, _oriented, _links and _reachable are the positive part; C106_first_refuted: the first node never has an arrow since the loop over the pairs starts at 1; C106_idle: the last n-1 links are not read. The score of a graph (library cdt) is not modelled."
  },
  {
   "property": "C107",
   "status": "proved",
   "theorems": [
    "C107_closed",
    "C107_open",
    "C107_open_refuted",
    "C107_history",
    "C107_runs",
    "C107_names",
    "C107_tuple_refuted",
    "C107_descending",
    "C107_descending_refuted"
   ],
   "note": "C107_open_refuted: np.nextafter(lb, 1) moves an open lower end >= 1 downwards, so that the end itself is allowed (same for an open upper end <= -1). C107_tuple_refuted: names with single quotes break the compiled assignments. Sets other than one numeric range of step -1, 0 or 1 are not modelled."
  },
  {
   "property": "C108",
   "status": "proved",
   "theorems": [
    "C108_rules",
    "C108_stops",
    "C108_symmetric",
    "C108_run_once",
    "C108_means",
    "C108_fixed",
    "C108_reset_refuted",
    "C108_agent"
   ],
   "note": "C108_rules compares the game with the rules stated on the whole history of actions (Spec/DoubleOSeven.v); C108_fixed and C108_reset_refuted compare the environment with a fixed agent to the runner. The torch agents are not modelled."
  },
  {
   "property": "C109",
   "status": "proved",
   "theorems": [
    "C109_runs",
    "C109_loss",
    "C109_fitness",
    "C109_step",
    "C109_noise_refuted",
    "C109_shared_refuted",
    "C109_value"
   ],
   "note": "C109_shared_refuted: [np.zeros(..)] * num_workers is one array for all workers. C109_noise_refuted: np.random.normal(d) draws one number of mean d. The functions, gradients, exponential and norms are arbitrary."
  },
  {
   "property": "C110",
   "status": "proved",
   "theorems": [
    "C110_penalty",
    "C110_gap",
    "C110_single_refuted",
    "C110_default_refuted",
    "C110_five",
    "C110_fishing",
    "C110_populations",
    "C110_negative",
    "C110_cost"
   ],
   "note": "Exact rationals. C110_single_refuted and C110_default_refuted show that the default instances need not have any feasible plan; C110_five gives one for five generators or more."
  },
  {
   "property": "C111",
   "status": "proved",
   "theorems": [
    "C111_tour",
    "C111_no_city",
    "C111_reach",
    "C111_order",
    "C111_turn",
    "C111_complex_refuted",
    "C111_clusters",
    "C111_more_centers",
    "C111_exact",
    "C111_no_center",
    "C111_sammon",
    "C111_pixel",
    "C111_outside",
    "C111_summit",
    "C111_border",
    "C111_complex"
   ],
   "note": "Euclidean distances and square roots are arguments (any symmetric function); np.argsort is any function which sorts. Perceptron and the rescaling of datasets are not modelled."
  },
  {
   "property": "C112",
   "status": "proved",
   "theorems": [
    "C112_made",
    "C112_name",
    "C112_create",
    "C112_copy",
    "C112_config",
    "C112_equal",
    "C112_last_name",
    "C112_registry",
    "C112_register",
    "C112_refused_refuted",
    "C112_two_names_refuted",
    "C112_equal_refuted",
    "C112_given_dict_refuted"
   ],
   "note": "Values, their equality and repr, and what the optimizer classes accept are arbitrary. Four natural expectations are refuted."
  },
  {
   "property": "C113",
   "status": "proved",
   "theorems": [
    "C113_instantiate",
    "C113_other_values",
    "C113_call",
    "C113_output",
    "C113_failure",
    "C113_blank",
    "C113_command_line",
    "C113_source_refuted",
    "C113_stale_refuted"
   ],
   "note": "Sub-folders are flattened into relative paths and characters are ASCII; float() is an arbitrary function of the line."
  },
  {
   "property": "C114",
   "status": "proved",
   "theorems": [
    "C114_hour",
    "C114_cheapest",
    "C114_year",
    "C114_consumption",
    "C114_weights",
    "C114_depth_refuted"
   ],
   "note": "Exact rationals; the rain, the noise and the answers of the agents are given, whatever they are. The network evaluation itself (tanh) is not modelled. C114_depth_refuted: the constructor passes depth and width in the wrong positions."
  },
  {
   "property": "C115",
   "status": "proved",
   "theorems": [
    "C115_range",
    "C115_behind",
    "C115_front",
    "C115_bare",
    "C115_loss",
    "C115_uniform",
    "C115_thin"
   ],
   "note": "Exact reals (standard axioms of the reals), complex numbers as pairs, any function as the tangent; rounding is not modelled."
  },
  {
   "property": "C116",
   "status": "proved",
   "theorems": [
    "C116_between",
    "C116_kept",
    "C116_mean",
    "C116_sum"
   ],
   "note": "Exact rationals; ndimage.convolve is written out from its documentation (mode reflect)."
  },
  {
   "property": "C117",
   "status": "proved",
   "theorems": [
    "C117_best",
    "C117_table",
    "C117_others",
    "C117_rounding",
    "C117_since_nan",
    "C117_nan_refuted"
   ],
   "note": "The file reads back as written; errors of the file system, which the code swallows, and concurrent writers are not modelled. C117_nan_refuted: a NaN loss erases the best one."
  },
  {
   "property": "C118",
   "status": "proved",
   "theorems": [
    "C118_select",
    "C118_drop",
    "C118_unique",
    "C118_column",
    "C118_equivalent",
    "C118_append",
    "C118_repeated",
    "C118_lost"
   ],
   "note": "Files read back as written and are written entirely or not at all; columns have different names; equivalence is for cells with a total order (no NaN)."
  },
  {
   "property": "C119",
   "status": "proved",
   "theorems": [
    "C119_plan",
    "C119_held_out",
    "C119_possible",
    "C119_alone",
    "C119_all",
    "C119_subset",
    "C119_random",
    "C119_volume_refuted",
    "C119_descriptors"
   ],
   "note": "Evaluations are exact rationals and copies are left out. C119_volume_refuted: the bounds of the packed functions are not those of the experiment, so that the hypervolume method fails with 13 to 15 recommendations for the default limit of 12."
  },
  {
   "property": "C120",
   "status": "proved",
   "theorems": [
    "C120_support",
    "C120_sample",
    "C120_probabilities",
    "C120_threshold_refuted",
    "C120_job"
   ],
   "note": "Powers, probabilities and draws are exact. C120_threshold_refuted: the docstring announces the fourth root of the largest number of trials, the code takes the square root."
  },
  {
   "property": "C121",
   "status": "proved",
   "theorems": [
    "C121_balanced",
    "C121_enough",
    "C121_endless_refuted",
    "C121_default_refuted"
   ],
   "note": "Any draws, any classification into classes. The returned points are n of the draws, with n/K or n/K+1 points per class and exactly n mod K classes with one more (by an invariant on the table of strata and on the two passes of the collection); success at once when the first draws suffice; refuted: termination (running minimum never reset: OutOfFuel for every fuel), default blocks (TypeError), n=0 (ZeroDivisionError)."
  },
  {
   "property": "C122",
   "status": "proved",
   "theorems": [
    "C122_training",
    "C122_first",
    "C122_first_refuted",
    "C122_bounds",
    "C122_bounds_refuted"
   ],
   "note": "Optimizer as an arbitrary ask/tell machine, 32-bit rounding as an arbitrary monotone idempotent function, batches as arbitrary functions of the module. Which losses are told for which candidates, final module, shapes, bounds: proved. Refuted: the loss told for the first candidate, the bounds when the bound is rounded up."
  },
  {
   "property": "C123",
   "status": "proved",
   "theorems": [
    "C123_lines",
    "C123_params",
    "C123_fields",
    "C123_order_refuted",
    "C123_every_call_refuted",
    "C123_flattened",
    "C123_flat_total",
    "C123_elements_apart",
    "C123_hidden_refuted",
    "C123_progress",
    "C123_dump",
    "C123_dump_refuted"
   ],
   "note": "json taken to read back what it wrote; atoms opaque; what flatten gives for the candidate is an input"
  },
  {
   "property": "C124",
   "status": "proved",
   "theorems": [
    "C124_known",
    "C124_warmup",
    "C124_late_refuted",
    "C124_told",
    "C124_penalty_refuted",
    "C124_constraint_refuted",
    "C124_not_asked",
    "C124_box"
   ],
   "note": "pymoo itself is any function from the losses received to the next request; refuse paths of the batch wrapper not modelled"
  },
  {
   "property": "C125",
   "status": "proved",
   "theorems": [
    "C125_paired",
    "C125_apart",
    "C125_refused_refuted",
    "C125_suggestion_refuted",
    "C125_busy_refuted",
    "C125_coordinates"
   ],
   "note": "Ax client reduced to consecutive numbering of trials and refusal of unknown or completed ones"
  },
  {
   "property": "C126",
   "status": "proved",
   "theorems": [
    "C126_budgets",
    "C126_points",
    "C126_best",
    "C126_first",
    "C126_drawn",
    "C126_title"
   ],
   "note": "Exact finite losses; standard deviation as its square; names given in any order (a set in the code); normalized losses are C101; figures themselves not modelled."
  },
  {
   "property": "C127",
   "status": "proved",
   "theorems": [
    "C127_formation",
    "C127_result",
    "C127_refused",
    "C127_again",
    "C127_cost",
    "C127_fatigue",
    "C127_segment",
    "C127_leader_energy",
    "C127_follower_energy",
    "C127_follower_energy_refuted"
   ],
   "note": "Velocities and powers of a time step are arbitrary functions (which may raise); exact numbers; the while loop has fuel and OutOfFuel is an explicit error. The log of positions is a ghost field of the model. C127_follower_energy_refuted uses the exact formula of follow with given drag area, density and mass."
  },
  {
   "property": "C128",
   "status": "proved",
   "theorems": [
    "C128_loss",
    "C128_failures",
    "C128_conformant",
    "C128_gamma_refuted",
    "C128_history_refuted",
    "C128_average",
    "C128_evaluation",
    "C128_archive",
    "C128_forgotten",
    "C128_best_refuted",
    "C128_suggested",
    "C128_layers",
    "C128_sparse",
    "C128_sparse_evaluation_refuted",
    "C128_sparse_shape",
    "C128_actions"
   ],
   "note": "proved for arbitrary environments and policies; refuted claims: gamma is ignored with policies (C128_gamma_refuted), the extended input is never reset (C128_history_refuted), the archive forgets the best episodes (C128_best_refuted), the recommendation is evaluated without the weight penalty (C128_sparse_evaluation_refuted)"
  },
  {
   "property": "C129",
   "status": "proved",
   "theorems": [
    "C129_length",
    "C129_impulse",
    "C129_zero",
    "C129_shift",
    "C129_first",
    "C129_masses",
    "C129_empty_refuted",
    "C129_given_refuted",
    "C129_loss",
    "C129_higher",
    "C129_fired",
    "C129_velocity",
    "C129_distance_refuted",
    "C129_fall"
   ],
   "note": "over the reals with the real exponential; the geodesic conversions, gravity and drag are arbitrary functions; refuted claims: impulse given (C129_given_refuted), empty mass (C129_empty_refuted), distances during the firing (C129_distance_refuted)"
  },
  {
   "property": "C130",
   "status": "proved",
   "theorems": [
    "C130_cell",
    "C130_safe",
    "C130_rows",
    "C130_extra",
    "C130_missing",
    "C130_columns",
    "C130_distinct_refuted",
    "C130_escape_refuted",
    "C130_names_refuted"
   ],
   "note": "characters of 8 bits; the text of the column width is an arbitrary function; what is printed on the console is left out. Refuted claims: different optimizers share a text (C130_distinct_refuted), backslashes and ampersands of cells are not escaped (C130_escape_refuted), nor are names (C130_names_refuted)"
  },
  {
   "property": "C131",
   "status": "proved",
   "theorems": [
    "C131_folds",
    "C131_data",
    "C131_dimension",
    "C131_once",
    "C131_unknown",
    "C131_loss",
    "C131_depth",
    "C131_candidate",
    "C131_evaluation",
    "C131_overfitter",
    "C131_tree_refuted",
    "C131_new",
    "C131_labels_refuted",
    "C131_keras_refuted"
   ],
   "note": "sine, cosine, shuffles, named datasets and learners (creation, fit, predict, mean_squared_error) are arbitrary functions; exact numbers. Refuted claims: decision trees are evaluated with other hyperparameters than recommended (C131_tree_refuted), the labels of the training data are sines for all artificial datasets (C131_labels_refuted), keras networks keep what they learnt on the earlier folds (C131_keras_refuted)"
  },
  {
   "property": "C132",
   "status": "proved",
   "theorems": [
    "C132_loss",
    "C132_none",
    "C132_same",
    "C132_default_refuted",
    "C132_linear",
    "C132_deeper",
    "C132_seed",
    "C132_shapes",
    "C132_layers_refuted",
    "C132_activation",
    "C132_units",
    "C132_noise"
   ],
   "note": "environment, activations, random draws and seeding are arbitrary functions; exact numbers; episodes have fuel and OutOfFuel is an explicit error. Refuted claims: layers without coefficient are ignored (C132_layers_refuted), the default deterministic simulation is not seeded (C132_default_refuted)"
  },
  {
   "property": "C133",
   "status": "proved",
   "theorems": [
    "C133_groups",
    "C133_unknown",
    "C133_again",
    "C133_seeds"
   ],
   "note": "the function of a group is replaced by the list it returns; equality of optimizers, the shuffle and the generator of seeds are arbitrary functions, the shuffle being only assumed to permute"
  },
  {
   "property": "C134",
   "status": "proved",
   "theorems": [
    "C134_random",
    "C134_antithetic",
    "C134_antithetic_refuted",
    "C134_order",
    "C134_permutations",
    "C134_signs"
   ],
   "note": "real numbers (axioms of the Reals of the standard library); an array is the list of its slices along the axis; draws, permutations and shuffled signs are given. Refuted claim: the last point of an odd number of antithetic points is not on the sphere (C134_antithetic_refuted)"
  },
  {
   "property": "C135",
   "status": "proved",
   "theorems": [
    "C135_count",
    "C135_count_refuted",
    "C135_farthest",
    "C135_farthest_refuted",
    "C135_late",
    "C135_improves",
    "C135_replaces",
    "C135_single"
   ],
   "note": "points, distances, draws of the threads and the clock (how many batches and replacements it allows) are given, any number of draws for a replacement; exact distances. Refuted claims: no point when none is asked (C135_count_refuted), the farthest of all the candidates (C135_farthest_refuted: only the last batch counts)"
  },
  {
   "property": "C136",
   "status": "proved",
   "theorems": [
    "C136_reference",
    "C136_absolute",
    "C136_square",
    "C136_histogram",
    "C136_histogram_refuted",
    "C136_errors"
   ],
   "note": "exact numbers; an image is its shape and its pixels; the losses computed by neural networks or cv2 are left out. Refuted claim: the histogram loss is a distance between histograms (C136_histogram_refuted): it is the difference of the sums of the images"
  }
 ]
}