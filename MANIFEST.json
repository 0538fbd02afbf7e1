{
 "claims": [
  {
   "property": "C01",
   "status": "proved",
   "theorems": [
    "C01_bounds_ordered_integral",
    "C01_every_history"
   ],
   "note": ""
  },
  {
   "property": "C02",
   "status": "proved",
   "theorems": [
    "C02_percentile_bounds",
    "C02_percentile_laws",
    "C02_monotone_bounds"
   ],
   "note": ""
  },
  {
   "property": "C03",
   "status": "proved",
   "theorems": [
    "C03_variable_type_inference"
   ],
   "note": ""
  },
  {
   "property": "C04",
   "status": "proved",
   "theorems": [
    "C04_grid_shape"
   ],
   "note": ""
  },
  {
   "property": "C05",
   "status": "partial",
   "theorems": [
    "C05_exactly_when_partial",
    "C05_grid_inside_bounds_refuted",
    "C05_grid_inside_bounds_partial",
    "C05_integral_bounds_partial"
   ],
   "note": "False of the code: np.arange(start, stop+step, step) can pass ub. Refuted by a witness; proved that the overshoot is less than one step and that there is none exactly when the step divides the range."
  },
  {
   "property": "C06",
   "status": "partial",
   "theorems": [
    "C06_setters_take_effect_refuted",
    "C06_setters_take_effect_partial",
    "C06_grid_determined_by_settings"
   ],
   "note": "False of the code: the setters never recompute the grid. Refuted; proved for the grid after an explicit update_grid()."
  },
  {
   "property": "C07",
   "status": "partial",
   "theorems": [
    "C07_any_table_accepted_refuted",
    "C07_any_table_accepted_partial",
    "C07_one_element_per_column"
   ],
   "note": "False of the code: a constant column other than 0/1 raises ValueError. Refuted; exact characterisation of the accepted tables proved."
  },
  {
   "property": "C08",
   "status": "partial",
   "theorems": [
    "C08_current_value_offered_refuted",
    "C08_current_value_offered_partial",
    "C08_fractional_value_never_offered"
   ],
   "note": "False of the code: an integer grid truncates a fractional current value. Refuted; proved for every other case."
  },
  {
   "property": "C09",
   "status": "proved",
   "theorems": [
    "C09_only_permitted_values_offered",
    "C09_not_actionable_not_offered"
   ],
   "note": ""
  },
  {
   "property": "C10",
   "status": "proved",
   "theorems": [
    "C10_all_permitted_values_offered"
   ],
   "note": ""
  },
  {
   "property": "C11",
   "status": "proved",
   "theorems": [
    "C11_lb_setter",
    "C11_ub_setter"
   ],
   "note": ""
  },
  {
   "property": "C12",
   "status": "partial",
   "theorems": [
    "C12_relative_step_at_most_one_refuted",
    "C12_relative_step_at_most_one_partial"
   ],
   "note": "False of the code: switching step_type does not revalidate step_size. Refuted; proved for histories that do not switch the type."
  },
  {
   "property": "C13",
   "status": "proved",
   "theorems": [
    "C13_percentile_in_unit_interval",
    "C13_percentile_monotone",
    "C13_percentile_strict",
    "C13_percentile_at_grid_points",
    "C13_percentile_beyond_grid"
   ],
   "note": ""
  },
  {
   "property": "C14",
   "status": "partial",
   "theorems": [
    "C14_answers_undisturbed",
    "C14_percentiles_follow_grid_refuted",
    "C14_percentiles_follow_grid_partial",
    "C14_queries_do_not_disturb"
   ],
   "note": "False of the code: the cached interpolator survives update_grid. Refuted; proved when no percentile was queried before."
  },
  {
   "property": "C15",
   "status": "partial",
   "theorems": [
    "C15_flip_directions_refuted",
    "C15_flip_directions_partial",
    "C15_assigning",
    "C15_aligning"
   ],
   "note": "False of the code for y_desired = 0 assigned while it is -1. Refuted; proved along every history that assigns +1/-1."
  },
  {
   "property": "C16",
   "status": "proved",
   "theorems": [
    "C16_compatible_meaning",
    "C16_compatible_decided"
   ],
   "note": ""
  },
  {
   "property": "C17",
   "status": "proved",
   "theorems": [
    "C17_indexed_assignment",
    "C17_whole_set_assignment",
    "C17_element_assignment",
    "C17_reads_back",
    "C17_names_and_order_fixed",
    "C17_selection"
   ],
   "note": ""
  },
  {
   "property": "C18",
   "status": "partial",
   "theorems": [
    "C18_boolean_list_is_mask_refuted",
    "C18_boolean_list_is_mask_partial",
    "C18_boolean_list_meaning"
   ],
   "note": "False of the code for Python lists (bools are ints). Refuted; proved for numpy boolean arrays, and what a list selects is characterised."
  },
  {
   "property": "C19",
   "status": "partial",
   "theorems": [
    "C19_failed_assignment_atomic_refuted",
    "C19_failed_assignment_atomic_partial"
   ],
   "note": "False of the code: a prefix of the features is modified. Refuted; exact prefix behaviour proved."
  },
  {
   "property": "C20",
   "status": "partial",
   "theorems": [
    "C20_unknown_attribute_rejected_refuted",
    "C20_unknown_attribute_rejected_partial",
    "C20_unknown_attribute_ignored_on_elements",
    "C20_immutable_in_vain_refuted"
   ],
   "note": "False of the code on single elements. Refuted; rejection on slices proved, and silent storage on elements characterised."
  },
  {
   "property": "C21",
   "status": "proved",
   "theorems": [
    "C21_constraints_well_formed",
    "C21_accepts_every_valid_request"
   ],
   "note": ""
  },
  {
   "property": "C22",
   "status": "partial",
   "theorems": [
    "C22_adding_keeps_constraints_refuted",
    "C22_adding_keeps_constraints_partial"
   ],
   "note": "False of the code when the caller has used a numeral as id. Refuted; proved for histories without numeral ids."
  },
  {
   "property": "C23",
   "status": "proved",
   "theorems": [
    "C23_add_then_remove",
    "C23_removal_removes_only_its_target",
    "C23_unknown_id_rejected"
   ],
   "note": ""
  },
  {
   "property": "C24",
   "status": "proved",
   "theorems": [
    "C24_classifier_arguments",
    "C24_all_forms_agree",
    "C24_unusable_arguments_rejected"
   ],
   "note": ""
  },
  {
   "property": "C25",
   "status": "proved",
   "theorems": [
    "C25_only_permitted_actions"
   ],
   "note": ""
  },
  {
   "property": "C26",
   "status": "partial",
   "theorems": [
    "C26_attains_outcome_refuted",
    "C26_reaches_desired_side_partial"
   ],
   "note": "False of the code at score exactly 0 (the MIP row is not strict). Refuted; the non-strict form is proved for every session of fit/populate calls."
  },
  {
   "property": "C27",
   "status": "partial",
   "theorems": [
    "C27_no_recourse_certificate_refuted",
    "C27_no_recourse_certificate_partial",
    "C27_new_builder_verdict_partial"
   ],
   "note": "False of the code when a current value is not representable on an integer grid (the feature is silently skipped). Refuted; proved for every individual (constraints, if any, in line: see C34) with respect to all actions that leave such features alone, including an exact verdict for newly created builders. An exact verdict for every individual that can be assigned, whatever the constraints: C34_applied_to_lineup_partial."
  },
  {
   "property": "C28",
   "status": "partial",
   "theorems": [
    "C28_density_independence_refuted",
    "C28_density_independence_partial"
   ],
   "note": "False of the code: a density that vanishes on the grid makes the assignment raise. Refuted; when both assignments succeed the verdicts agree, for every individual (constraints, if any, in line: see C34)."
  },
  {
   "property": "C29",
   "status": "partial",
   "theorems": [
    "C29_cost_optimal_refuted",
    "C29_reported_costs",
    "C29_cost_optimal_partial"
   ],
   "note": "Reported costs proved in general. Optimality false of the code outside the grid; proved when percentiles increase strictly over the permitted values, also under constraints that are in line (see C34). For every individual, among the changes with a positive price and with the limits as applied: C34_applied_to_lineup_partial."
  },
  {
   "property": "C30",
   "status": "partial",
   "theorems": [
    "C30_max_cost_refuted",
    "C30_reported_cost",
    "C30_max_cost_partial",
    "C30_minimised_partial",
    "C30_undominated_partial",
    "C30_applied_to_lineup_partial"
   ],
   "note": "Reported cost proved. Optimality false of the code (epsilon tie-breaking); proved up to less than one price difference, also under constraints that are in line (see C34). C30_applied_to_lineup_partial: the minimised quantity for every listed action, constraints in any order."
  },
  {
   "property": "C31",
   "status": "proved",
   "theorems": [
    "C31_size_and_positive_cost"
   ],
   "note": ""
  },
  {
   "property": "C32",
   "status": "partial",
   "theorems": [
    "C32_item_limits_refuted",
    "C32_minimum_only_partial",
    "C32_both_limits_enforce_lower_partial",
    "C32_one_limit_ignored_partial",
    "C32_only_maximum_raises_partial",
    "C32_min_attribute_partial",
    "C32_max_attribute_partial",
    "C32_limits_before_assignment_partial"
   ],
   "note": "False of the code (wrong value written to the max_items row, unbound variable, one-sided calls ignored). Refuted; behaviour of each kind of call characterised."
  },
  {
   "property": "C33",
   "status": "proved",
   "theorems": [
    "C33_same_program",
    "C33_same_verdict_and_cost",
    "C33_creation_agrees"
   ],
   "note": ""
  },
  {
   "property": "C34",
   "status": "partial",
   "theorems": [
    "C34_subset_limits_refuted",
    "C34_subset_limits_partial",
    "C34_constraints_in_line_partial",
    "C34_applied_to_lineup_partial",
    "C34_all_considered"
   ],
   "note": "False of the code when a feature before a constrained one offers no change (index mix-up). Refuted; proved when every feature up to the last constrained one can be changed (in_line) and constrained values are non-negative. C34_applied_to_lineup_partial says, without any proviso on the individual or the order, what the limits do bind: the same positions in the line-up of the features that take part; with that reading fit is sound, complete and optimal among the actions whose changes have a positive price (all, for regular individuals: C34_all_considered)."
  },
  {
   "property": "C35",
   "status": "partial",
   "theorems": [
    "C35_nothing_to_change_refuted",
    "C35_nothing_to_change_raises_partial",
    "C35_nothing_to_change_max_partial"
   ],
   "note": "False of the code for 'total' and 'local' (always raises). Refuted; proved for 'max', fit and populate."
  },
  {
   "property": "C36",
   "status": "proved",
   "theorems": [
    "C36_mutually_exclusive"
   ],
   "note": ""
  },
  {
   "property": "C37",
   "status": "partial",
   "theorems": [
    "C37_distinct_subsets_refuted",
    "C37_distinct_subsets_partial",
    "C37_unconstrained"
   ],
   "note": "False of the code for CPLEX with multi-valued constrained features. Refuted; proved for Python-MIP always and for CPLEX with on/off features."
  },
  {
   "property": "C38",
   "status": "partial",
   "theorems": [
    "C38_costs_nondecreasing",
    "C38_each_is_cheapest_refuted",
    "C38_each_is_cheapest_partial",
    "C38_cheapest_for_its_features_partial",
    "C38_applied_to_lineup_partial"
   ],
   "note": "Order of cost proved in general; local optimality proved for strictly increasing percentiles and constraints, if any, in line (with CPLEX: constrained features that are on can only be switched off). C38_applied_to_lineup_partial: without the proviso on the order of the features, for the limits as they are applied (line-up). False in general: C38_each_is_cheapest_refuted (a current value outside the grid)."
  },
  {
   "property": "C39",
   "status": "partial",
   "theorems": [
    "C39_terminates",
    "C39_exhaustive_refuted",
    "C39_exhaustive_partial",
    "C39_applied_to_lineup_partial"
   ],
   "note": "Termination proved in general with bound 2^n; exhaustiveness for strictly increasing percentiles and constraints, if any, in line (with CPLEX: constrained features that are on can only be switched off). C39_applied_to_lineup_partial: without the proviso on the order of the features, for the limits as they are applied (line-up). False in general: C39_exhaustive_refuted (a current value an integer grid cannot represent)."
  },
  {
   "property": "C40",
   "status": "partial",
   "theorems": [
    "C40_never_repeats_refuted",
    "C40_never_repeats_partial",
    "C40_at_most_total_items"
   ],
   "note": "Proved for Python-MIP always and CPLEX under the same proviso as C37 (false otherwise: C37_distinct_subsets_refuted). C40_never_repeats_refuted: two calls of populate that change the same features, for every sound solver."
  },
  {
   "property": "C41",
   "status": "partial",
   "theorems": [
    "C41_current_individual_refuted",
    "C41_current_individual_partial",
    "C41_calls_keep_the_problem"
   ],
   "note": "False of the code after a failed assignment. Refuted; proved after every successful assignment."
  },
  {
   "property": "C42",
   "status": "partial",
   "theorems": [
    "C42_certified_refuted",
    "C42_stopped_run_refuted",
    "C42_cplex_reports_incumbent_partial",
    "C42_conclusive_partial"
   ],
   "note": "False of the code for Python-MIP stopped with an incumbent and for stopped runs. Refuted; proved for conclusive runs; CPLEX reports every incumbent."
  },
  {
   "property": "C43",
   "status": "partial",
   "theorems": [
    "C43_cplex_object",
    "C43_stale_node_limit_refuted",
    "C43_fractional_limit_refuted",
    "C43_flag_as_limit_refuted",
    "C43_unreadable_refuted",
    "C43_time_limit_partial",
    "C43_node_limit_partial",
    "C43_python_mip_nodes_partial",
    "C43_reject",
    "C43_accept",
    "C43_rejected_partial"
   ],
   "note": "False of the code: with Python-MIP a node limit outlives the call it was given to while the builder reports none; limits below 1 run with 0 nodes; a rejected call leaves the display flag as the reported node limit; nothing can be read before the first call. Refuted each; proved: time limits always, CPLEX node limits always, Python-MIP node limits while none was given since the assignment, rejection of non-positive limits."
  },
  {
   "property": "C44",
   "status": "partial",
   "theorems": [
    "C44_only_flipping_actions_refuted",
    "C44_populate_refuted",
    "C44_flipping_actions_accepted_partial",
    "C44_unit_scores_partial",
    "C44_other_scores_accept_all"
   ],
   "note": "False of the code: yhat is the raw score, compared with a sign. Refuted twice (direct addition; populate for an approved individual). Proved: flipping actions are always accepted; the equivalence for scores 0, 1, -1; what happens for all other scores."
  },
  {
   "property": "C45",
   "status": "proved",
   "theorems": [
    "C45_populate_files_all"
   ],
   "note": "Holds for the flipset's own builder and scalar sort keys; fuel 2^n only says the enumeration is run to its end."
  },
  {
   "property": "C46",
   "status": "proved",
   "theorems": [
    "C46_rows_describe_items"
   ],
   "note": ""
  },
  {
   "property": "C47",
   "status": "partial",
   "theorems": [
    "C47_table_sorted_refuted",
    "C47_list_keys_refuted",
    "C47_order",
    "C47_table_sorted_partial"
   ],
   "note": "False of the code after sort(inplace=False) and for list-valued sort keys. Refuted; proved for histories whose sorts are in place and by scalar columns."
  },
  {
   "property": "C48",
   "status": "proved",
   "theorems": [
    "C48_all_appended",
    "C48_nothing_changed"
   ],
   "note": ""
  },
  {
   "property": "C49",
   "status": "proved",
   "theorems": [
    "C49_index_kept"
   ],
   "note": ""
  },
  {
   "property": "C50",
   "status": "proved",
   "theorems": [
    "C50_blank_iff_approved",
    "C50_finite_tables"
   ],
   "note": "Denied means score < 0 for y_desired = 1 and score >= 0 otherwise, as the auditor's prediction counts a score of 0 as positive."
  },
  {
   "property": "C51",
   "status": "proved",
   "theorems": [
    "C51_equal_rows"
   ],
   "note": ""
  },
  {
   "property": "C52",
   "status": "partial",
   "theorems": [
    "C52_verdicts_refuted",
    "C52_verdicts_partial",
    "C52_costs",
    "C52_applied_to_lineup_partial"
   ],
   "note": "Verdicts proved for every individual, for the outcome the action set is set up for, with respect to actions that leave features with unrepresentable current values alone, constraints (if any) in line (false otherwise: C53, C27, C34); shape and cost of every line proved without provisos. C52_applied_to_lineup_partial: what a verdict says exactly, for any y_desired argument, any constraints and any order of the features. C52_verdicts_refuted: an individual audited as infeasible whom a permitted action helps."
  },
  {
   "property": "C53",
   "status": "partial",
   "theorems": [
    "C53_y_desired_refuted",
    "C53_agreeing_outcome_partial"
   ],
   "note": "False of the code: y_desired only selects the rows. Refuted; proved when it agrees with the action set's own y_desired. What the verdict says when it does not agree: C52_applied_to_lineup_partial."
  },
  {
   "property": "C54",
   "status": "partial",
   "theorems": [
    "C54_some_denied_partial",
    "C54_all_approved_refuted"
   ],
   "note": "False of the code, always: proved that every such table raises KeyError; with at least one denied row the blanks are right."
  },
  {
   "property": "C55",
   "status": "partial",
   "theorems": [
    "C55_misaligned_refuted",
    "C55_raises_refuted",
    "C55_disturbed_refuted",
    "C55_own_alignment_partial"
   ],
   "note": "False of the code: an aligned action set is not realigned (refuted three ways). Proved for action sets without directions or with those of the builder's classifier."
  },
  {
   "property": "C56",
   "status": "partial",
   "theorems": [
    "C56_no_recourse_count_refuted",
    "C56_one_group_refuted",
    "C56_duplicate_index_refuted",
    "C56_first_group_partial"
   ],
   "note": "False of the code: the count of individuals without recourse is always printed as 0 (infinite costs are blanked first), every report raises NameError (plt) after the first group, duplicated index labels are multiplied. Refuted each; proved: size and desired-outcome count of the group that is reported, for unique indexes."
  },
  {
   "property": "C57",
   "status": "proved",
   "theorems": [
    "C57_flat_table"
   ],
   "note": ""
  },
  {
   "property": "C58",
   "status": "proved",
   "theorems": [
    "C58_variable_names",
    "C58_row_names",
    "C58_program_names"
   ],
   "note": ""
  },
  {
   "property": "C59",
   "status": "partial",
   "theorems": [
    "C59_one_element_list_broadcast_refuted",
    "C59_one_element_list_broadcast_partial"
   ],
   "note": "False of the code for lists. Refuted; proved for one-element arrays."
  },
  {
   "property": "C60",
   "status": "partial",
   "theorems": [
    "C60_cost_type_honoured_refuted",
    "C60_cost_type_honoured_partial"
   ],
   "note": "False of the code: the builder created by the first populate is reused. Refuted; proved when all populate calls use the same cost type."
  },
  {
   "property": "C61",
   "status": "partial",
   "theorems": [
    "C61_flat_order_refuted",
    "C61_flat_order_partial"
   ],
   "note": "False of the code: lines are ordered by item label. Refuted; after the first addition the order is the order of addition."
  },
  {
   "property": "C62",
   "status": "partial",
   "theorems": [
    "C62_supplied_builder_refuted",
    "C62_supplied_builder_partial"
   ],
   "note": "False of the code: a supplied builder is not checked. Refuted; proved for builders created for the flipset's own individual."
  },
  {
   "property": "C63",
   "status": "partial",
   "theorems": [
    "C63_flipped_column_refuted",
    "C63_flipped_column_partial"
   ],
   "note": "False of the code: the flag compares a sign with the raw score. Refuted; proved that every row says True."
  },
  {
   "property": "C64",
   "status": "partial",
   "theorems": [
    "C64_assignment_succeeds_refuted",
    "C64_both_ways_refuted",
    "C64_assignment_succeeds_partial",
    "C64_without_constraints_partial",
    "C64_accepted_iff_partial"
   ],
   "note": "False of the code for tiny non-zero coefficients and for constrained features that may move both ways (both refuted; see also C28, C35). Proved otherwise: constraints, if any, in line and on features that move one way, and, for 'total'/'local', at least one worthwhile change exists. C64_accepted_iff_partial gives the exact boundary for regular individuals, for any constraints and any order of the features."
  },
  {
   "property": "C65",
   "status": "partial",
   "theorems": [
    "C65_audit_succeeds_partial",
    "C65_audit_succeeds_refuted",
    "C65_audited_iff_partial"
   ],
   "note": "False of the code when everyone is approved (C54). Proved when at least one row is denied, for coefficients that are 0 or above 1e-8 and constraints, if any, as in C64. C65_audited_iff_partial gives the exact boundary for tables of regular individuals."
  },
  {
   "property": "C66",
   "status": "proved",
   "theorems": [
    "C66_rows_independent"
   ],
   "note": ""
  },
  {
   "property": "C67",
   "status": "partial",
   "theorems": [
    "C67_edited_action_set_refuted",
    "C67_edited_action_set_partial"
   ],
   "note": "False of the code when features are made actionable after creation (stale item limit). Refuted; proved whenever the limit is at least the current number of actionable features."
  },
  {
   "property": "C68",
   "status": "proved",
   "theorems": [
    "C68_whole_set",
    "C68_selection",
    "C68_one_value",
    "C68_other_names"
   ],
   "note": ""
  },
  {
   "property": "C69",
   "status": "partial",
   "theorems": [
    "C69_write_back_refuted",
    "C69_unaligned_refuted",
    "C69_write_back_partial",
    "C69_write_back_selection_partial"
   ],
   "note": "False of the code: bounds read from a percentile-bounded feature are values but are assigned as percentiles; the flip direction of an unaligned set reads as nan, which is rejected. Refuted; proved for all other settable attributes, for absolute bounds and aligned features (relative steps at most 1, see C12)."
  },
  {
   "property": "C70",
   "status": "partial",
   "theorems": [
    "C70_summary_table",
    "C70_printed_table_partial",
    "C70_printing_refuted"
   ],
   "note": "False of the code: printing a selection always fails an assertion, and repr raises TypeError when printing is switched off. df is proved in full; the printed table of a set with printing on is proved."
  },
  {
   "property": "C71",
   "status": "partial",
   "theorems": [
    "C71_latex_table_refuted",
    "C71_latex_table_partial"
   ],
   "note": "False of the code: features that may only decrease are labelled 'only increases' (operator precedence) and every feature is shown as real (types compared with a string). Refuted; the exact content is proved, and that the mutability column is right exactly for the other features."
  },
  {
   "property": "C72",
   "status": "proved",
   "theorems": [
    "C72_item_dicts"
   ],
   "note": ""
  },
  {
   "property": "C73",
   "status": "partial",
   "theorems": [
    "C73_latex_names_refuted",
    "C73_empty_refuted",
    "C73_latex_names_partial"
   ],
   "note": "False of the code: names are wrapped by textual replacement, so a name inside another name corrupts it, and an empty flipset raises AttributeError. Refuted; proved when no name occurs in another wrapped name."
  },
  {
   "property": "C74",
   "status": "partial",
   "theorems": [
    "C74_replaced_name_refuted",
    "C74_replace_partial",
    "C74_known_names"
   ],
   "note": "False of the code: an element with another name is accepted, after which the set reports a wrong list of names. Refuted; everything else is proved, and that replacing by an element of the same name gives a set covered by all other theorems."
  },
  {
   "property": "C75",
   "status": "partial",
   "theorems": [
    "C75_python_mip_alone_refuted",
    "C75_needs_cplex_partial",
    "C75_no_solver"
   ],
   "note": "False of the code: without CPLEX the import raises NameError (cplex_helper uses names that were not imported). Refuted; proved that the package can be imported exactly when CPLEX is installed."
  },
  {
   "property": "C76",
   "status": "proved",
   "theorems": [
    "C76_builder_uses_solver",
    "C76_auditor_uses_solver",
    "C76_flipset_uses_solver",
    "C76_installed_accepted",
    "C76_others_rejected"
   ],
   "note": ""
  },
  {
   "property": "C77",
   "status": "partial",
   "theorems": [
    "C77_auditor_refuted",
    "C77_builder_refuted",
    "C77_builder_partial",
    "C77_without_individual_partial",
    "C77_auditor_partial"
   ],
   "note": "False of the code: the auditor and the builder align the action set before they look at the solver or the individual. Refuted; proved that only the directions can differ, and nothing for a builder without an individual."
  },
  {
   "property": "C78",
   "status": "proved",
   "theorems": [
    "C78_same_scores",
    "C78_current_individual",
    "C78_errors",
    "C78_flipset_lengths",
    "C78_flipset_single"
   ],
   "note": ""
  },
  {
   "property": "C79",
   "status": "partial",
   "theorems": [
    "C79_never_shown_refuted",
    "C79_shown_partial",
    "C79_levels"
   ],
   "note": "False of the code: with the default parameters the streams are closed for good, and one quiet call silences all later ones. Refuted; the exact condition is proved."
  },
  {
   "property": "C80",
   "status": "partial",
   "theorems": [
    "C80_ignored_refuted",
    "C80_limits_refuted",
    "C80_in_force_partial",
    "C80_complete",
    "C80_incomplete",
    "C80_defaults"
   ],
   "note": "False of the code for four entries and for limits. Refuted; proved for all other entries, and that complete dictionaries are accepted and incomplete ones rejected."
  },
  {
   "property": "C81",
   "status": "proved",
   "theorems": [
    "C81_copy",
    "C81_copy_prints"
   ],
   "note": ""
  },
  {
   "property": "C82",
   "status": "partial",
   "theorems": [
    "C82_binary_bounds_refuted",
    "C82_one_element_refuted",
    "C82_longer_lists_refuted",
    "C82_added_partial",
    "C82_accepted_partial",
    "C82_int_arrays_refuted"
   ],
   "note": "False of the code: bounds of binary variables are ignored, one-element lists raise TypeError, lists longer than one are accepted for one variable. Refuted; whatever is accepted is characterised."
  },
  {
   "property": "C83",
   "status": "partial",
   "theorems": [
    "C83_round_trip_refuted",
    "C83_toggle_partial"
   ],
   "note": "False of the code for parameters that were not at CPLEX's default. Refuted; the exact effect is proved."
  },
  {
   "property": "C84",
   "status": "partial",
   "theorems": [
    "C84_fit_result",
    "C84_report",
    "C84_fit_returns",
    "C84_populate_runtime_refuted",
    "C84_populate_results_partial"
   ],
   "note": "False of the code for the runtime of populated results, which is always 0. Refuted; proved for fit, and for everything else in the results of populate."
  },
  {
   "property": "C85",
   "status": "partial",
   "theorems": [
    "C85_stopped_refuted",
    "C85_max_refuted",
    "C85_lower_bound_partial",
    "C85_lower_bound_max_partial"
   ],
   "note": "False of the code for stopped runs without a solution (lowerbound inf) and for 'max' (epsilon terms of the objective). Refuted; proved for 'total' and 'local' whenever an action is returned or the solver finishes, and for 'max' up to one price difference."
  },
  {
   "property": "C86",
   "status": "partial",
   "theorems": [
    "C86_max_refuted",
    "C86_equal_partial",
    "C86_max_partial"
   ],
   "note": "False of the code for 'max', where it is always larger. Refuted; equal for 'total' and 'local', and for 'max' within one price difference."
  },
  {
   "property": "C87",
   "status": "proved",
   "theorems": [
    "C87_accepted",
    "C87_rejected",
    "C87_flipset_accepted",
    "C87_flipset_rejected"
   ],
   "note": ""
  },
  {
   "property": "C88",
   "status": "partial",
   "theorems": [
    "C88_unknown_cost_type_refuted",
    "C88_no_action_partial",
    "C88_rejected_like_total_partial"
   ],
   "note": "False of the code: accepted wherever 'total' is. Refuted; proved that no action is ever returned for such a builder."
  },
  {
   "property": "C89",
   "status": "proved",
   "theorems": [
    "C89_rescaling",
    "C89_created",
    "C89_assigned"
   ],
   "note": ""
  },
  {
   "property": "C90",
   "status": "proved",
   "theorems": [
    "C90_mirrored",
    "C90_action_sets",
    "C90_created",
    "C90_assigned"
   ],
   "note": ""
  },
  {
   "property": "C91",
   "status": "proved",
   "theorems": [
    "C91_lenient",
    "C91_assigned"
   ],
   "note": ""
  },
  {
   "property": "C92",
   "status": "proved",
   "theorems": [
    "C92_limits",
    "C92_assigned"
   ],
   "note": ""
  },
  {
   "property": "C93",
   "status": "proved",
   "theorems": [
    "C93_any_solver",
    "C93_assigned"
   ],
   "note": ""
  },
  {
   "property": "C94",
   "status": "proved",
   "theorems": [
    "C94_resume"
   ],
   "note": ""
  },
  {
   "property": "C95",
   "status": "proved",
   "theorems": [
    "C95_each_feature_once",
    "C95_short"
   ],
   "note": ""
  },
  {
   "property": "C96",
   "status": "proved",
   "theorems": [
    "C96_row_order",
    "C96_own_column"
   ],
   "note": ""
  },
  {
   "property": "C97",
   "status": "proved",
   "theorems": [
    "C97_tolerance",
    "C97_max_cost",
    "C97_no_recourse",
    "C97_exact"
   ],
   "note": "C97_max_cost: the 'max' objective; C97_no_recourse: the negative verdict for all actions."
  },
  {
   "property": "C98",
   "status": "partial",
   "theorems": [
    "C98_repeats_refuted",
    "C98_populate_partial"
   ],
   "note": "False of the code: np.isclose's 1e-8 is finer than the integrality tolerances of the solvers. Refuted for tolerance 1e-6 (the same item forever; this theorem uses the standard library's classical axioms); proved for tolerances up to 1e-8."
  },
  {
   "property": "C99",
   "status": "partial",
   "theorems": [
    "C99_slipped_costs_refuted",
    "C99_costs_partial"
   ],
   "note": "False of the code for 'total' and 'local': np.flatnonzero on indicators. Refuted for tolerance 1e-12 (uses the standard library's classical axioms); proved when the indicators are exactly 0 or 1, and for 'max'."
  },
  {
   "property": "C100",
   "status": "proved",
   "theorems": [
    "C100_whole_grids",
    "C100_default_grids",
    "C100_binary64",
    "C100_rounding"
   ],
   "note": ""
  },
  {
   "property": "C101",
   "status": "partial",
   "theorems": [
    "C101_step_refuted",
    "C101_step_partial"
   ],
   "note": "False of the code: 0.07 * 100 exceeds 7 in binary64, so the step is 8. Refuted; proved that the grid is equidistant with a whole step at most one off (and exact for the default step: C100)."
  },
  {
   "property": "C102",
   "status": "partial",
   "theorems": [
    "C102_bounds_refuted",
    "C102_grid_partial"
   ],
   "note": "False of the code: between 0 and 21 with the default step the grid has a point 21.21. Refuted; proved when the step is at least 2^-22 of the bounds: starts at lb, increases, each point within 1/16 step of its place, less than two steps beyond ub."
  },
  {
   "property": "C103",
   "status": "partial",
   "theorems": [
    "C103_strict_refuted",
    "C103_between_refuted",
    "C103_percentiles_partial",
    "C103_outside",
    "C103_between_partial",
    "C103_accurate_partial"
   ],
   "note": "False of the code: tiny densities are absorbed (equal percentiles), and interpolation between grid points can exceed the upper one. Refuted; proved that at grid points percentiles are in (0,1] and never decrease. C103_between_partial bounds the percentiles between grid points, C103_accurate_partial the error at grid points."
  },
  {
   "property": "C104",
   "status": "partial",
   "theorems": [
    "C104_prediction_refuted",
    "C104_prediction_partial",
    "C104_slack_partial"
   ],
   "note": "False of the code next to the boundary. Refuted; proved that the score is off by at most a slack of about 2(n+1)2^-53 times the sum of magnitudes, and predictions further than that from the boundary are right."
  },
  {
   "property": "C105",
   "status": "partial",
   "theorems": [
    "C105_wider_bounds_refuted",
    "C105_widening_partial",
    "C105_audits_partial",
    "C105_edits",
    "C105_grids"
   ],
   "note": "False of wider bounds (lowering the bound shifts the grid). Refuted; proved for every relaxation that drops no grid value (actionability, direction, constraints, bounds with absolute step keeping the lowest value), for builders and audits."
  },
  {
   "property": "C106",
   "status": "partial",
   "theorems": [
    "C106_nothing_to_change_refuted",
    "C106_verdicts_partial",
    "C106_builder",
    "C106_costs"
   ],
   "note": "False of individuals with nothing left to change: the audit reports no recourse, populate raises KeyError (cost types 'total' and 'local'). Refuted; proved whenever populate succeeds, for every individual and current percentiles: same verdict for all solvers and cost types, same cost for one stateless solver and cost type 'max'."
  },
  {
   "property": "C107",
   "status": "proved",
   "theorems": [
    "C107_again",
    "C107_identical"
   ],
   "note": ""
  },
  {
   "property": "C108",
   "status": "partial",
   "theorems": [
    "C108_verdict_refuted",
    "C108_assign_partial",
    "C108_create_partial",
    "C108_audit_partial",
    "C108_flipset_partial",
    "C108_same_sets"
   ],
   "note": "False with constraints on two features that cannot help: the verdict changes with the hash seed. Refuted; proved (identical builders, audits, flipsets) if at most one constrained feature is useless on its own, in particular without constraints."
  },
  {
   "property": "C109",
   "status": "partial",
   "theorems": [
    "C109_approved_refuted",
    "C109_denied_partial",
    "C109_created",
    "C109_exact",
    "C109_changes",
    "C109_rejects",
    "C109_clean"
   ],
   "note": "False for individuals who already have the desired outcome by at most 1e-4 (AssertionError). Refuted; proved for everyone who lacks it, with an exact characterisation of when the check raises; no reported change is negligible."
  },
  {
   "property": "C110",
   "status": "partial",
   "theorems": [
    "C110_message_refuted",
    "C110_message_partial",
    "C110_table",
    "C110_total"
   ],
   "note": "False of the message: it is shown for every flipset without items, also before populate. Refuted; proved for the message after a populate (as a certificate), and for the table in full."
  },
  {
   "property": "C111",
   "status": "proved",
   "theorems": [
    "C111_statistics",
    "C111_any_table"
   ],
   "note": ""
  },
  {
   "property": "C112",
   "status": "proved",
   "theorems": [
    "C112_blocks",
    "C112_succeeds",
    "C112_no_cplex_error"
   ],
   "note": ""
  },
  {
   "property": "C113",
   "status": "proved",
   "theorems": [
    "C113_optimal",
    "C113_parameters",
    "C113_rejects"
   ],
   "note": ""
  },
  {
   "property": "C114",
   "status": "proved",
   "theorems": [
    "C114_start"
   ],
   "note": ""
  },
  {
   "property": "C115",
   "status": "partial",
   "theorems": [
    "C115_reads_back_refuted",
    "C115_values_partial"
   ],
   "note": "False of the code: p.threads.set.get() raises AttributeError for every CPLEX object (refuted). Should it return (a CPLEX offering the three misspelt paths), the entries are the values in force (C115_values_partial)."
  },
  {
   "property": "C116",
   "status": "partial",
   "theorems": [
    "C116_scaling_undone_refuted",
    "C116_scaling_undone_partial",
    "C116_no_scaler"
   ],
   "note": "False of the code: with a column that does not vary, var_ is 0 and the coefficient becomes inf or nan (StandardScaler itself divides by scale_ = 1); parse_classifier_args then rejects the classifier. Refuted for every such scaler; proved when all columns vary."
  },
  {
   "property": "C117",
   "status": "proved",
   "theorems": [
    "C117_changes_help",
    "C117_nothing_superfluous"
   ],
   "note": ""
  },
  {
   "property": "C118",
   "status": "partial",
   "theorems": [
    "C118_list_refuted",
    "C118_actionable_partial",
    "C118_step_direction",
    "C118_flip_direction",
    "C118_step_type",
    "C118_step_size",
    "C118_variable_type",
    "C118_created"
   ],
   "note": "False of the code for lists: actionable = [False] is accepted and makes the feature actionable. Exact acceptance and effect proved for all other values (an infinite absolute step size, which the code accepts, is not modelled)."
  },
  {
   "property": "C119",
   "status": "partial",
   "theorems": [
    "C119_columns_refuted",
    "C119_columns_partial",
    "C119_assigned_partial",
    "C119_created",
    "C119_constrained_partial"
   ],
   "note": "False of the code with constraints: they are applied to positions among the features that can act, so the verdict depends on the order of the columns. Proved for action sets without constraints (answers fully related), including creation from rearranged tables; with constraints in line in both orders: same verdict, and same cost for 'total' and 'local' (C119_constrained_partial)."
  },
  {
   "property": "C120",
   "status": "proved",
   "theorems": [
    "C120_not_actionable",
    "C120_direction",
    "C120_accepted",
    "C120_flipsets"
   ],
   "note": ""
  },
  {
   "property": "C121",
   "status": "partial",
   "theorems": [
    "C121_verdict_refuted",
    "C121_audit_partial",
    "C121_clear_cut_partial",
    "C121_bounds"
   ],
   "note": "The exact property is false of the code (C121_verdict_refuted): MIP tolerances make audits call hopeless individuals feasible. C121_audit_partial says what every row means, C121_clear_cut_partial when the verdict is exact, C121_bounds that the error bounds exist."
  },
  {
   "property": "C122",
   "status": "partial",
   "theorems": [
    "C122_lost_refuted",
    "C122_not_flipped_refuted",
    "C122_populate_partial"
   ],
   "note": "False of the code for every tolerance > 0 (C122_lost_refuted, C122_not_flipped_refuted: filed items are validated against the predicted label with no tolerance). C122_populate_partial: what holds of the first populate."
  },
  {
   "property": "C123",
   "status": "proved",
   "theorems": [
    "C123_builders",
    "C123_auditors",
    "C123_flipsets",
    "C123_answers",
    "C123_tables",
    "C123_use",
    "C123_directions"
   ],
   "note": ""
  },
  {
   "property": "C124",
   "status": "partial",
   "theorems": [
    "C124_fit_refuted",
    "C124_populate_refuted",
    "C124_reassigned_partial",
    "C124_audits_partial",
    "C124_first_populate_partial"
   ],
   "note": "False of the code (C124_fit_refuted, C124_populate_refuted): the program is built when the individual is assigned, and a populated flipset keeps it. Holds after the individual is assigned again, for audits and for a flipset's first populate (the _partial theorems). Missing: what bd_max, fixed at creation, does to feature counts (C67)."
  },
  {
   "property": "C125",
   "status": "proved",
   "theorems": [
    "C125_answers",
    "C125_accepted",
    "C125_audits",
    "C125_not_actionable",
    "C125_no_weight",
    "C125_individuals"
   ],
   "note": ""
  },
  {
   "property": "C126",
   "status": "proved",
   "theorems": [
    "C126_items",
    "C126_order",
    "C126_distinct",
    "C126_cheapest",
    "C126_complete",
    "C126_total"
   ],
   "note": ""
  },
  {
   "property": "C127",
   "status": "partial",
   "theorems": [
    "C127_second_refuted",
    "C127_one_list_partial",
    "C127_permitted_partial",
    "C127_distinct_partial",
    "C127_complete_partial",
    "C127_exhausted_partial"
   ],
   "note": "The claim as stated is refuted (C127_second_refuted, every backend, cost type and enumeration type): the second flipset gets nothing. The theorems say what holds instead for flipsets for one individual; adding items by hand, other individuals assigned to the builder in between, and changed limits are left out."
  },
  {
   "property": "C128",
   "status": "proved",
   "theorems": [
    "C128_features",
    "C128_values",
    "C128_answers",
    "C128_dimension",
    "C128_unaligned"
   ],
   "note": ""
  },
  {
   "property": "C129",
   "status": "partial",
   "theorems": [
    "C129_max_refuted",
    "C129_sums_partial",
    "C129_max_partial",
    "C129_edits"
   ],
   "note": "Refuted for the cost type 'max' (C129_max_refuted, both back ends). Proved for 'total' and 'local' under the hypotheses of C29 (denied, orderly, regular); for 'max' the cost and the sum of costs cannot both get worse."
  },
  {
   "property": "C130",
   "status": "partial",
   "theorems": [
    "C130_max_refuted",
    "C130_never_lost_partial",
    "C130_sums_partial",
    "C130_max_partial",
    "C130_audits_partial"
   ],
   "note": "Refuted for costs of type 'max' (C130_max_refuted, both back ends). Proved: recourse is never lost (builders and audits), 'total' and 'local' costs never rise, under the hypotheses of C27/C29/C52."
  },
  {
   "property": "C131",
   "status": "partial",
   "theorems": [
    "C131_exact_zero_refuted",
    "C131_acting_partial",
    "C131_part_partial",
    "C131_part_cost_partial"
   ],
   "note": "Refuted for y_desired=-1 at score exactly 0 (C131_exact_zero_refuted). Proved: an executed action leaves the row blank otherwise, whatever the solver; after part of it there is still recourse, and for 'total'/'local' the two costs add up to at most the first quote, under the hypotheses of C27/C29."
  },
  {
   "property": "C132",
   "status": "proved",
   "theorems": [
    "C132_audit",
    "C132_data",
    "C132_fit",
    "C132_set_up"
   ],
   "note": "Proved as stated, for the scores the property names (clearly on the wrong side; a score of exactly 0 with y_desired=-1 is C52/C131) and audits that return (when they do: C65)."
  },
  {
   "property": "C133",
   "status": "partial",
   "theorems": [
    "C133_types_refuted",
    "C133_costs_refuted",
    "C133_weights_refuted",
    "C133_estimates",
    "C133_actions_partial",
    "C133_fit_partial",
    "C133_audit_partial",
    "C133_percentiles_partial"
   ],
   "note": "Refuted in full: a column that becomes whole-numbered gets another grid (C133_types_refuted), the absolute 1e-6 buffers make costs unit-dependent (C133_costs_refuted), weights below 1e-8 per new unit raise (C133_weights_refuted). Proved for real-valued columns: same permitted actions and scores, same verdicts of fits and audits (when both return), percentiles within 1e-6/mass + 1e-6/mass'. Missing: equality of costs, which is false."
  },
  {
   "property": "C134",
   "status": "partial",
   "theorems": [
    "C134_types_refuted",
    "C134_flags_refuted",
    "C134_limits_refuted",
    "C134_actions_partial",
    "C134_fit_partial",
    "C134_audit_partial"
   ],
   "note": "Refuted in full: whole numbers shifted by a fraction become real-valued and bounds are no longer rounded (C134_types_refuted), a rare 0/1 flag coded 1/2 makes creation raise (C134_flags_refuted), with limits on groups the value 0 is special (C134_limits_refuted). Proved for shifts that keep column types, sets without limits and percentile bounds: same actions, scores, costs; same results of fit, populate and audits from the same solver."
  },
  {
   "property": "C135",
   "status": "partial",
   "theorems": [
    "C135_sets_partial",
    "C135_sets_rejected",
    "C135_builders",
    "C135_builders_rejected",
    "C135_auditors_partial",
    "C135_display",
    "C135_none_refuted",
    "C135_trace_refuted",
    "C135_auditor_refuted",
    "C135_shown_refuted"
   ],
   "note": "Refuted in full: check_flag=None is rejected by action sets (C135_none_refuted), a builder rejected for its flag leaves the set aligned with its coefficients (C135_trace_refuted), an auditor accepts any print_flag at creation (C135_auditor_refuted), repr of an action set with print_flag=False raises TypeError (C135_shown_refuted). Proved: all accepted flags give the same objects, exceptions and limits."
  },
  {
   "property": "C136",
   "status": "partial",
   "theorems": [
    "C136_matrices",
    "C136_nan",
    "C136_finite_matrices",
    "C136_individuals",
    "C136_unnoticed_partial",
    "C136_builders",
    "C136_finite_builders",
    "C136_grids",
    "C136_audits",
    "C136_flipsets_partial",
    "C136_shown_refuted",
    "C136_flipset_refuted"
   ],
   "note": "Refuted in two points: builder.x shows a rejected individual while fit answers for the one before (C136_shown_refuted), and Flipset accepts any vector at creation (C136_flipset_refuted). Proved: every entry point rejects (for flipsets: every populate), and rejected assignments influence no later result. Flipsets with a supplied builder are left out."
  },
  {
   "property": "C137",
   "status": "partial",
   "theorems": [
    "C137_fewer_refuted",
    "C137_fewer_partial",
    "C137_tables_partial",
    "C137_accepted_partial",
    "C137_audits_partial"
   ],
   "note": "Refuted with constraints (C137_fewer_refuted, the displacement of C34). Proved when constraints, if any, are in line in both questions, and from tables to answers without constraints; verdicts of audits, row by row; acceptance of the individual without constraints. Missing: equal cost for cost type 'max' (tie-breaking term, C30)."
  }
 ]
}