{"id": "C01", "title": "Stored bounds are ordered and integral for integer features", "statement": "Whenever a feature's bounds are accepted (at construction or by assigning bounds, lb or ub), the stored lower bound is at most the stored upper bound, and for an integer-valued feature both are integers that enclose the requested interval.", "quantifier": "every column of finite values, every requested (lb, ub[, type]) that is accepted", "why_tests_cant": "the set of value columns and requested bounds is infinite; tests use a handful of random columns", "anchors": ["recourse/action_set.py:_BoundElement.__init__", "recourse/action_set.py:_ActionElement.bounds"]}
{"id": "C02", "title": "Percentile bounds are real percentiles of the data", "statement": "With percentile bounds (p, q), lb and ub are the linearly interpolated p-th and q-th percentiles of the observed values: they lie between the smallest and largest observed value (up to integer rounding outwards), percentile 0 is the minimum, percentile 100 the maximum, and raising p or q never lowers the bound.", "quantifier": "every non-empty column and every pair of percentiles in [0,100]", "why_tests_cant": "monotonicity ranges over all columns and all pairs of percentiles", "anchors": ["recourse/action_set.py:_BoundElement.__init__"]}
{"id": "C03", "title": "Variable-type inference", "statement": "A column is treated as boolean exactly when every value is 0 or 1, as integer exactly when every value is an integer and some value is neither 0 nor 1, and as float otherwise.", "quantifier": "every column of finite values", "why_tests_cant": "universal over columns", "anchors": ["recourse/action_set.py:_determine_variable_type"]}
{"id": "C04", "title": "Shape of the action grid", "statement": "When an element is created (or its grid recomputed) the grid is non-empty, strictly increasing, starts at the (floored, for integers) lower bound, advances by one constant positive step, reaches or passes the upper bound, passes it by less than one step, and is all-integer for integer features.", "quantifier": "every accepted column, bounds, step type and step size", "why_tests_cant": "grid sizes are unbounded and depend on arbitrary bounds and steps", "anchors": ["recourse/action_set.py:_ActionElement.update_grid", "recourse/action_set.py:_ActionElement._check_rep"]}
{"id": "C05", "title": "Offered values stay inside the bounds", "statement": "Every value in a feature's grid lies between the feature's lower and upper bound ('a grid of all x-values between lb to ub').", "quantifier": "every accepted column, bounds and step", "why_tests_cant": "depends on divisibility of the range by the step; tests never look at the last grid point", "anchors": ["recourse/action_set.py:_ActionElement.update_grid", "recourse/action_set.py:_ActionElement.feasible_values"]}
{"id": "C06", "title": "Changing bounds or step takes effect", "statement": "After assigning bounds, lb, ub, step_size or step_type on a feature, the values offered for that feature are those determined by the new settings.", "quantifier": "every feature, every accepted assignment history", "why_tests_cant": "a property of assignment histories; tests never assign bounds after construction", "anchors": ["recourse/action_set.py:_ActionElement.bounds", "recourse/action_set.py:_ActionElement.step_size", "recourse/action_set.py:_ActionElement.update_grid"]}
{"id": "C07", "title": "An action set can be built from any finite numeric table", "statement": "ActionSet(X) succeeds for every table with at least one row, distinct non-empty column names and finite numeric entries, and yields one element per column in column order.", "quantifier": "every finite table with valid names", "why_tests_cant": "universal over tables; the failing columns (constant, non-binary) do not occur in the test data", "anchors": ["recourse/action_set.py:ActionSet.__init__", "recourse/action_set.py:_ActionElement.__init__", "recourse/action_set.py:_ActionElement.update_grid"]}
{"id": "C08", "title": "Feasible values include the current value", "statement": "The values offered for a feature from a current value x always include x itself (equivalently the zero action is always offered).", "quantifier": "every element, every finite x, every flag combination", "why_tests_cant": "the failing inputs (fractional x on an integer feature) are outside the test data", "anchors": ["recourse/action_set.py:_ActionElement.feasible_values"]}
{"id": "C09", "title": "Feasible values are permitted values", "statement": "Every value offered for a feature from current value x is x itself or a grid value; none is offered when the feature is not actionable; none lies against the feature's step_direction; and when suboptimal values are dropped none lies against its flip_direction.", "quantifier": "every element, every integral-or-float x, every step/flip direction", "why_tests_cant": "universal over grids and x", "anchors": ["recourse/action_set.py:_ActionElement.feasible_values"]}
{"id": "C10", "title": "No permitted value is omitted from the feasible values", "statement": "Every grid value that is allowed by actionable and step_direction (and improving with respect to flip_direction when suboptimal values are dropped) is offered; the offered values are strictly increasing with no duplicates; the returned actions are these values minus x.", "quantifier": "every element, every x", "why_tests_cant": "universal over grids and x", "anchors": ["recourse/action_set.py:_ActionElement.feasible_values"]}
{"id": "C11", "title": "Bound setters are independent", "statement": "Assigning lb changes neither ub nor the bound type, and assigning ub changes neither lb nor the bound type; reading a bound back gives the assigned value (absolute bounds; rounded outwards for integer features).", "quantifier": "every element and every accepted assigned value", "why_tests_cant": "universal over elements and histories", "anchors": ["recourse/action_set.py:_ActionElement.lb", "recourse/action_set.py:_ActionElement.ub"]}
{"id": "C12", "title": "Step-size validity over histories", "statement": "An element whose step type is relative always has a step size in (0, 1]; an element with absolute steps has a positive step size.", "quantifier": "every sequence of step_type / step_size assignments", "why_tests_cant": "history property: the two setters are validated separately", "anchors": ["recourse/action_set.py:_ActionElement.step_type", "recourse/action_set.py:_ActionElement.step_size"]}
{"id": "C13", "title": "Percentiles are a proper, monotone scale", "statement": "The percentile assigned to any value is strictly between 0 and 1; at a grid point it is the cumulative density up to it, rescaled by 1e-6 at both ends; on the grid range it never decreases as the value grows, and strictly increases when the density estimate is positive at every grid point; below the grid it is 1e-6 and above it 1 - 1e-6.", "quantifier": "every element, every non-negative density estimate, every pair of values", "why_tests_cant": "universal over density estimates and pairs of points", "anchors": ["recourse/action_set.py:_ActionElement.update_interpolator", "recourse/action_set.py:_ActionElement.percentile"]}
{"id": "C14", "title": "Percentiles follow the current grid", "statement": "After the grid is recomputed, percentiles are those of the recomputed grid.", "quantifier": "every history of percentile queries and grid recomputations", "why_tests_cant": "history property of a cache", "anchors": ["recourse/action_set.py:_ActionElement.interpolator", "recourse/action_set.py:_ActionElement.update_grid"]}
{"id": "C15", "title": "Flip directions always match model and desired outcome", "statement": "After aligning an action set with coefficients w, and after any later sequence of alignments and changes of y_desired, flip_direction of feature j is sign(w_j) when y_desired is +1 and -sign(w_j) when y_desired is -1.", "quantifier": "every history of set_alignment and y_desired assignments (values -1, 0, +1)", "why_tests_cant": "history property", "anchors": ["recourse/action_set.py:ActionSet.set_alignment", "recourse/action_set.py:ActionSet.y_desired"]}
{"id": "C16", "title": "Meaning of compatible", "statement": "An aligned feature is reported compatible exactly when it is actionable, its flip direction is non-zero, and its step direction is not opposite to its flip direction.", "quantifier": "every element state", "why_tests_cant": "universal over element states", "anchors": ["recourse/action_set.py:_ActionElement.compatible"]}
{"id": "C17", "title": "Attribute assignment touches only what it names", "statement": "Assigning an attribute through one element, a slice/list selection or the whole action set changes exactly the selected elements, each to its own value (positionally for lists, the same value for scalars); unselected elements are untouched and feature names, order and constraints never change.", "quantifier": "every action set, every distinct selection, every accepted value", "why_tests_cant": "universal over selections and values", "anchors": ["recourse/action_set.py:ActionSet.__setattr__", "recourse/action_set.py:_ActionSlice.__setattr__", "recourse/action_set.py:_expand_values"]}
{"id": "C18", "title": "Boolean-list selection is a mask", "statement": "Indexing an action set with a list of booleans selects the features at the True positions.", "quantifier": "every boolean list of the right length", "why_tests_cant": "never tested; depends on Python's bool being an int", "anchors": ["recourse/action_set.py:ActionSet.__getitem__"]}
{"id": "C19", "title": "Failed bulk assignments leave the action set unchanged", "statement": "If assigning an attribute to a whole action set raises an error, no element has been modified.", "quantifier": "every action set, attribute and rejected value", "why_tests_cant": "failure atomicity over all rejected inputs", "anchors": ["recourse/action_set.py:ActionSet.__setattr__", "recourse/action_set.py:_expand_values"]}
{"id": "C20", "title": "Unknown attributes are rejected", "statement": "Assigning an attribute an element does not have (such as the README's A['Married'].mutable = False) raises an error rather than being ignored.", "quantifier": "every attribute name, every selection form", "why_tests_cant": "universal over attribute names", "anchors": ["recourse/action_set.py:_ActionSlice.__setattr__", "recourse/action_set.py:ActionSet.__getitem__", "README.md"]}
{"id": "C21", "title": "Constraint registry stays well-formed", "statement": "After any sequence of constraint additions and removals every stored constraint is filed under its own id, has at least two distinct feature names taken from the action set, lists them in column order with the matching column indices, and has 0 <= lb <= ub <= number of features.", "quantifier": "every history of add/remove calls, including failing ones", "why_tests_cant": "history invariant", "anchors": ["recourse/action_set.py:_ActionConstraints.add_subset_limit_constraint", "recourse/action_set.py:_ActionConstraints.remove"]}
{"id": "C22", "title": "Adding a constraint never destroys another", "statement": "Adding a constraint without giving an id creates a new constraint; all constraints present before are still present unchanged.", "quantifier": "every history of add/remove calls", "why_tests_cant": "history property of the id counter", "anchors": ["recourse/action_set.py:_ActionConstraints.add_subset_limit_constraint"]}
{"id": "C23", "title": "Adding then removing a constraint is a round trip; failed calls change nothing", "statement": "Removing a just-added fresh constraint restores the previous set of constraints; removing an unknown id or adding an invalid constraint raises and leaves the constraints unchanged; removal removes only the named constraint.", "quantifier": "every registry state and every call", "why_tests_cant": "universal over states", "anchors": ["recourse/action_set.py:_ActionConstraints.remove", "recourse/action_set.py:_ActionConstraints.add_subset_limit_constraint"]}
{"id": "C24", "title": "Classifier argument parsing", "statement": "Whatever accepted way the classifier is passed (clf, classifier, coefficients + optional intercept, one or two positional arguments), the same coefficients and intercept are used; a missing intercept means 0; keyword classifiers take precedence; unusable arguments raise an error.", "quantifier": "every accepted and rejected argument combination", "why_tests_cant": "universal over arguments", "anchors": ["recourse/helper_functions.py:parse_classifier_args"]}
{"id": "C25", "title": "fit returns only permitted actions", "statement": "If fit reports feasible, then for every feature the action keeps the current value or moves to a grid value allowed by actionable and step_direction; non-actionable features are untouched; the action vector has one entry per feature.", "quantifier": "every action set, classifier, individual, cost type, backend and every valid solver answer", "why_tests_cant": "universal over MIP instances and solver answers", "anchors": ["recourse/builder.py:RecourseBuilder.fit", "recourse/builder.py:_RecourseBuilderPythonMIP.build_mip", "recourse/builder.py:_RecourseBuilderCPX.build_mip", "recourse/builder.py:_RecourseBuilderPythonMIP.solution_info"]}
{"id": "C26", "title": "fit attains the desired outcome", "statement": "If fit reports feasible, the prediction at x + a is the desired outcome y_desired.", "quantifier": "every action set, classifier, individual and every valid solver answer", "why_tests_cant": "the boundary case score = 0 is missed by random data", "anchors": ["recourse/builder.py:_RecourseBuilderPythonMIP.build_mip", "recourse/builder.py:RecourseBuilder.prediction"]}
{"id": "C27", "title": "Infeasible is a certificate of no recourse", "statement": "If the solver finishes and fit reports infeasible for an individual who lacks the desired outcome, then no permitted action vector at all - including ones moving features in suboptimal directions - attains it.", "quantifier": "every unconstrained aligned action set with strictly increasing percentiles, every classifier and individual, every action vector", "why_tests_cant": "a claim of non-existence over a combinatorial action space", "anchors": ["recourse/builder.py:RecourseBuilder.fit", "recourse/builder.py:RecourseBuilder._get_mip_build_info", "recourse/action_set.py:ActionSet.feasible_grid"]}
{"id": "C28", "title": "Recourse verdict does not depend on the density estimate", "statement": "Whether fit reports feasible depends on the classifier, the individual and the permitted values, not on the estimated densities used for costs.", "quantifier": "every action set, individual and pair of density estimates", "why_tests_cant": "universal over density estimates; needs flat regions that test data lacks", "anchors": ["recourse/builder.py:RecourseBuilder._get_mip_build_info"]}
{"id": "C29", "title": "fit is cost-optimal for total and local costs", "statement": "With cost type total or local, the reported cost equals the sum of the reported per-feature costs, each reported per-feature cost is the percentile shift (or log percentile shift) of that feature's action, and no permitted action vector attaining the desired side costs less.", "quantifier": "every unconstrained action set, classifier, individual, action vector and every valid completed solver run", "why_tests_cant": "optimality quantifies over all action vectors", "anchors": ["recourse/builder.py:_RecourseBuilderPythonMIP.build_mip", "recourse/builder.py:_RecourseBuilderPythonMIP.solution_info"]}
{"id": "C30", "title": "fit minimises the largest percentile shift for max cost", "statement": "With cost type max, the reported cost is the largest per-feature percentile shift of the returned action, and no permitted action vector attaining the desired side has a smaller largest shift.", "quantifier": "every unconstrained action set, classifier, individual and valid completed solver run", "why_tests_cant": "optimality quantifies over all action vectors; the tie-breaking epsilon distorts it only for special grids", "anchors": ["recourse/builder.py:_RecourseBuilderPythonMIP.build_mip"]}
{"id": "C31", "title": "Size of the returned action", "statement": "If fit reports feasible, the action changes at least one feature and at least min_items and at most max_items features, and its cost is positive.", "quantifier": "every instance and valid solver answer", "why_tests_cant": "universal over MIP instances", "anchors": ["recourse/builder.py:_RecourseBuilderPythonMIP.build_mip", "recourse/builder.py:RecourseBuilder.max_items"]}
{"id": "C32", "title": "set_mip_item_limits enforces exactly the requested limits", "statement": "After set_mip_item_limits(m, M) the solver accepts an otherwise acceptable action exactly when the number of changed features is between m and M, and min_items/max_items report m and M.", "quantifier": "every builder state and every pair m <= M", "why_tests_cant": "never tested", "anchors": ["recourse/builder.py:RecourseBuilder.set_mip_item_limits", "recourse/builder.py:_RecourseBuilderPythonMIP.set_mip_max_items"]}
{"id": "C33", "title": "The two solver backends pose the same problem", "statement": "For the same action set, classifier, individual and cost type, the CPLEX and Python-MIP backends accept the same actions at the same objective value, and fail on the same inputs.", "quantifier": "every instance", "why_tests_cant": "universal over instances; the test needs both solvers installed", "anchors": ["recourse/builder.py:_RecourseBuilderCPX.build_mip", "recourse/builder.py:_RecourseBuilderPythonMIP.build_mip"]}
{"id": "C34", "title": "Subset-limit constraints are respected", "statement": "If fit reports feasible, then for every subset-limit constraint the number of its indicator features that are on in x + a is between lb and ub.", "quantifier": "every action set with constraints on indicator features, every individual and valid solver answer", "why_tests_cant": "the index mix-up appears only when some feature before the constrained ones cannot act", "anchors": ["recourse/builder.py:_RecourseBuilderPythonMIP.build_mip", "recourse/builder.py:RecourseBuilder._get_mip_build_info", "recourse/action_set.py:ActionSet.feasible_grid"]}
{"id": "C35", "title": "Individuals with nothing to change are reported, not crashed on", "statement": "If no feature of an individual can be acted on, fit reports infeasible with infinite cost, and Flipset.populate returns an empty flipset, for every cost type.", "quantifier": "every individual whose features offer no change, every cost type", "why_tests_cant": "tests exercise only the max cost type on an empty action grid", "anchors": ["recourse/builder.py:_RecourseBuilderPythonMIP.build_mip", "recourse/builder.py:_RecourseBuilderCPX.build_mip", "recourse/flipset.py:Flipset.populate"]}
{"id": "C36", "title": "Mutually exclusive enumeration", "statement": "The actions returned by populate with enumeration_type 'mutually_exclusive' change pairwise disjoint sets of features.", "quantifier": "every instance, total_items and every sequence of valid solver answers", "why_tests_cant": "pairwise property over unbounded enumerations", "anchors": ["recourse/builder.py:RecourseBuilder.populate", "recourse/builder.py:_RecourseBuilderPythonMIP.remove_all_features", "recourse/builder.py:_RecourseBuilderCPX.remove_all_features"]}
{"id": "C37", "title": "Distinct-subset enumeration", "statement": "The actions returned by populate with enumeration_type 'distinct_subsets' change pairwise different sets of features.", "quantifier": "every instance, backend, total_items and every sequence of valid solver answers", "why_tests_cant": "pairwise property over unbounded enumerations", "anchors": ["recourse/builder.py:RecourseBuilder.populate", "recourse/builder.py:_RecourseBuilderPythonMIP.remove_feature_combination", "recourse/builder.py:_RecourseBuilderCPX.remove_feature_combination"]}
{"id": "C38", "title": "Enumeration is in order of cost and locally optimal", "statement": "With total or local cost, the costs of the actions returned by populate never decrease, and each returned action is cheapest among all acceptable actions not excluded by the earlier ones (in particular cheapest for its own feature set).", "quantifier": "every instance and every sequence of valid completed solver runs", "why_tests_cant": "quantifies over all actions and enumeration steps", "anchors": ["recourse/builder.py:RecourseBuilder.populate"]}
{"id": "C39", "title": "Enumeration terminates and is exhaustive", "statement": "populate(total_items = inf) stops after finitely many solver calls; when it stops because the solver finds nothing, every acceptable action changes a feature set already returned (distinct_subsets) or shares a feature with a returned action (mutually_exclusive).", "quantifier": "every instance and every sequence of valid completed solver runs", "why_tests_cant": "termination and exhaustiveness of an unbounded loop", "anchors": ["recourse/builder.py:RecourseBuilder.populate"]}
{"id": "C40", "title": "Repeated populate calls never repeat themselves", "statement": "Across any sequence of populate calls on one builder, with either enumeration type, no two returned actions change the same feature set, and at most total_items actions are returned per call.", "quantifier": "every history of populate calls between assignments of x", "why_tests_cant": "history property", "anchors": ["recourse/builder.py:RecourseBuilder.populate", "recourse/flipset.py:Flipset.populate"]}
{"id": "C41", "title": "Results depend only on the current individual", "statement": "What fit returns after assigning x depends only on x, the action set, the classifier and the settings - not on individuals, enumerations or failed assignments processed before.", "quantifier": "every history of x assignments, fit and populate calls", "why_tests_cant": "history property including failing assignments", "anchors": ["recourse/builder.py:RecourseBuilder.x", "recourse/builder.py:RecourseBuilder.fit"]}
{"id": "C42", "title": "Reported infeasible only when certified", "statement": "fit reports feasible = False only when the solver has proved that no acceptable action exists; when the solver holds an acceptable action fit reports it.", "quantifier": "every solver status (optimal, stopped with an incumbent, stopped without, infeasible)", "why_tests_cant": "needs solver runs stopped by limits", "anchors": ["recourse/builder.py:_RecourseBuilderPythonMIP.solution_info", "recourse/builder.py:_RecourseBuilderCPX.solution_info"]}
{"id": "C43", "title": "Limits apply per call", "statement": "A call of fit or populate without time_limit/node_limit runs without that limit even if an earlier call on the same problem had one; the limit reported by the builder is the one in force; non-positive limits are rejected.", "quantifier": "every history of limit settings and calls", "why_tests_cant": "history property", "anchors": ["recourse/builder.py:RecourseBuilder.mip_node_limit", "recourse/builder.py:RecourseBuilder.mip_time_limit", "recourse/builder.py:RecourseBuilder.mip_display", "recourse/builder.py:_RecourseBuilderPythonMIP._set_mip_node_limit", "recourse/cplex_helper.py:set_cpx_node_limit"]}
{"id": "C44", "title": "A flipset contains only prediction-flipping actions", "statement": "An action is accepted into a flipset exactly when the prediction at x + a differs from the prediction at x (for well-formed, non-zero actions of positive cost).", "quantifier": "every x, classifier and action", "why_tests_cant": "universal over real-valued scores; the faulty comparison only shows off the +-1 scores", "anchors": ["recourse/flipset.py:Flipset._validate_action", "recourse/flipset.py:Flipset.yhat"]}
{"id": "C45", "title": "populate for a denied individual always succeeds in filing its results", "statement": "For an individual lacking the desired outcome, every action the builder returns is accepted by the flipset, so populate adds exactly the returned actions, and every added action is permitted and reaches the desired side.", "quantifier": "every denied individual, classifier, action set and valid solver", "why_tests_cant": "end-to-end over all instances", "anchors": ["recourse/flipset.py:Flipset.populate", "recourse/flipset.py:Flipset._add", "recourse/flipset.py:Flipset._validate_item"]}
{"id": "C46", "title": "Flipset table rows describe their items", "statement": "The table has one row per item; each row's size, features, feature_idx, x, x_new, score_new, yhat_new and cost are those of the corresponding action, with score_new = w0 + w.(x + a).", "quantifier": "every history of additions", "why_tests_cant": "universal over items", "anchors": ["recourse/flipset.py:Flipset._item_to_df_row", "recourse/flipset.py:Flipset._add_to_df"]}
{"id": "C47", "title": "Flipset table is sorted", "statement": "After any additions the table is sorted by the sort keys last chosen (by default size, then cost, then new score).", "quantifier": "every history of additions and sorts", "why_tests_cant": "history property", "anchors": ["recourse/flipset.py:Flipset.sort", "recourse/flipset.py:Flipset._add_to_df"]}
{"id": "C48", "title": "Flipset additions are all-or-nothing", "statement": "If one of the items being added is invalid the flipset is unchanged; otherwise all are appended in order and earlier items are kept.", "quantifier": "every flipset state and list of items", "why_tests_cant": "failure atomicity", "anchors": ["recourse/flipset.py:Flipset._add"]}
{"id": "C49", "title": "Audit output has one row per input row, in order", "statement": "audit(X) returns exactly one result per row of X, in the order of X and carrying X's index.", "quantifier": "every table, duplicates included", "why_tests_cant": "universal over tables", "anchors": ["recourse/auditor.py:RecourseAuditor.audit"]}
{"id": "C50", "title": "Audit leaves already-approved rows blank", "statement": "A row of the audit is blank (feasible and cost NaN) exactly when the individual already attains the desired outcome.", "quantifier": "every table and classifier", "why_tests_cant": "universal over tables", "anchors": ["recourse/auditor.py:RecourseAuditor.audit"]}
{"id": "C51", "title": "Audit treats equal individuals equally", "statement": "Rows of X with equal feature values get equal results, and permuting the rows of X permutes the results.", "quantifier": "every table and permutation, deterministic solver", "why_tests_cant": "universal over tables and permutations", "anchors": ["recourse/auditor.py:RecourseAuditor.audit"]}
{"id": "C52", "title": "Audit verdicts are correct", "statement": "For a denied individual the audit reports feasible = True exactly when some permitted action attains the desired side, and feasible = False with infinite cost exactly when none does.", "quantifier": "every table, unconstrained action set with increasing percentiles, valid completed solver runs", "why_tests_cant": "quantifies over all action vectors of all individuals", "anchors": ["recourse/auditor.py:RecourseAuditor.audit"]}
{"id": "C53", "title": "Audit honours its y_desired argument", "statement": "audit(X, y_desired = -1) evaluates recourse towards the outcome -1: a reported action cost is the cost of reaching a non-positive score.", "quantifier": "every table, classifier and y_desired", "why_tests_cant": "only y_desired = 1 is tested", "anchors": ["recourse/auditor.py:RecourseAuditor.audit"]}
{"id": "C54", "title": "Audit works when everyone is approved", "statement": "audit(X) on a table where every individual already attains the desired outcome returns an all-blank result.", "quantifier": "every table of approved individuals", "why_tests_cant": "the empty work list is never tested", "anchors": ["recourse/auditor.py:RecourseAuditor.audit"]}
{"id": "C55", "title": "Builder verdicts refer to the builder's own classifier", "statement": "A builder created for a classifier gives the recourse verdict for that classifier even if the action set was previously aligned with another one.", "quantifier": "every pair of classifiers", "why_tests_cant": "requires sharing an action set between models", "anchors": ["recourse/builder.py:RecourseBuilder.__init__", "recourse/action_set.py:ActionSet.alignment_known"]}
{"id": "C56", "title": "Audit report counts", "statement": "print_recourse_audit_report prints, per outcome group, the number of rows that already have the desired outcome and the number of rows certified to have no recourse.", "quantifier": "every audit table", "why_tests_cant": "report output is never tested", "anchors": ["recourse/print_recourse_audit_report.py:subset_data_and_plot", "recourse/print_recourse_audit_report.py:print_recourse_audit_report"]}
{"id": "C57", "title": "Flat flipset table lists every change once", "statement": "to_flat_df lists, for every item, each changed feature exactly once with its current and required value, grouped by item, and nothing else.", "quantifier": "every flipset state", "why_tests_cant": "universal over flipsets", "anchors": ["recourse/flipset.py:Flipset.to_flat_df"]}
{"id": "C58", "title": "Solver variable names never clash", "statement": "The names under which actions, indicators and costs are registered with the solver are pairwise different for different features and grid positions.", "quantifier": "all feature indices and grid positions", "why_tests_cant": "universal over indices", "anchors": ["recourse/builder.py:RecourseBuilder._get_mip_build_info"]}
{"id": "C59", "title": "A one-element list is broadcast as its element", "statement": "Assigning a list or array with one value to an attribute of the whole action set gives every feature that value, as assigning the bare value does.", "quantifier": "every action set with more than one feature, every attribute and value", "why_tests_cant": "universal over attributes and values; broadcasting is never tested", "anchors": ["recourse/action_set.py:_expand_values", "recourse/action_set.py:ActionSet.__setattr__"]}
{"id": "C60", "title": "populate honours its cost_type", "statement": "The items filed by flipset.populate(cost_type = c) carry the cost of their action under cost function c (sum of percentile shifts, sum of log shifts, or largest shift).", "quantifier": "every history of populate, sort and add calls on a flipset, every cost type", "why_tests_cant": "history property: only a second call with another cost type shows the difference", "anchors": ["recourse/flipset.py:Flipset.populate"]}
{"id": "C61", "title": "Flat table follows the table order", "statement": "to_flat_df lists the items in the order in which the (sorted) flipset table lists them.", "quantifier": "every flipset state and sort order", "why_tests_cant": "universal over flipsets and sort keys", "anchors": ["recourse/flipset.py:Flipset.to_flat_df"]}
{"id": "C62", "title": "A supplied builder answers for the flipset's individual", "statement": "Every action populate files is permitted for the flipset's own individual, also when the flipset was created with a ready-made builder.", "quantifier": "every builder and individual", "why_tests_cant": "universal over pairs of builder and individual", "anchors": ["recourse/flipset.py:Flipset.__init__", "recourse/flipset.py:Flipset.populate"]}
{"id": "C63", "title": "The flipped column is truthful", "statement": "A row of the flipset table has flipped = True exactly when the prediction at x + a differs from the prediction at x.", "quantifier": "every flipset history", "why_tests_cant": "universal over scores and items", "anchors": ["recourse/flipset.py:Flipset._item_to_df_row"]}
{"id": "C64", "title": "Assigning an individual does not raise", "statement": "Assigning any individual of the right length to a builder succeeds (no exception) when every feature answers percentile queries and the permitted values have strictly increasing percentiles.", "quantifier": "every builder history, classifier, cost type and individual", "why_tests_cant": "universal over real coefficients, grids and individuals; the failing assertions are reached only by rare values", "anchors": ["recourse/builder.py:RecourseBuilder.x", "recourse/builder.py:RecourseBuilder._get_mip_build_info", "recourse/builder.py:RecourseBuilder._check_mip_build_info"]}
{"id": "C65", "title": "Audits do not raise", "statement": "audit(X) of a table of individuals whose permitted values have strictly increasing percentiles returns a table and raises no exception.", "quantifier": "every auditor history and table", "why_tests_cant": "universal over tables", "anchors": ["recourse/auditor.py:RecourseAuditor.audit"]}
{"id": "C66", "title": "Audit results do not depend on the other rows or on earlier audits", "statement": "With a deterministic solver the result of a row is the same whether it is audited alone, in another table, in another order, after other audits, or by another auditor created from the same action set and classifier.", "quantifier": "every table, sub-table and history of audits", "why_tests_cant": "universal over tables and histories", "anchors": ["recourse/auditor.py:RecourseAuditor.audit", "recourse/builder.py:RecourseBuilder.x"]}
{"id": "C67", "title": "Verdicts follow edits of the action set", "statement": "After the action set of a builder is edited, the next assignment and fit give the verdict for the edited action set.", "quantifier": "every edit history and individual", "why_tests_cant": "universal over edit histories", "anchors": ["recourse/builder.py:RecourseBuilder.__init__", "recourse/builder.py:RecourseBuilder.max_items"]}
{"id": "C68", "title": "Reading an attribute lists it feature by feature", "statement": "Reading an attribute of an action set returns one value per feature, in the order of the columns; reading it through an index returns the values of the selected features in the order of the selection; each value is the feature's current setting (nan for flip direction and compatibility before alignment).", "quantifier": "every action set and history, every distinct selection, every readable attribute", "why_tests_cant": "universal over settings and histories", "anchors": ["recourse/action_set.py:ActionSet.__getattribute__", "recourse/action_set.py:_ActionSlice.__getattr__", "recourse/action_set.py:_ActionElement"]}
{"id": "C69", "title": "Writing back what was read changes nothing", "statement": "Assigning to an attribute the list of values just read from it, for the whole action set or a selection, succeeds and leaves every feature as it was.", "quantifier": "every action set and history, every settable attribute", "why_tests_cant": "universal over settings and histories", "anchors": ["recourse/action_set.py:ActionSet.__setattr__", "recourse/action_set.py:_ActionElement.lb", "recourse/action_set.py:_ActionElement.flip_direction"]}
{"id": "C70", "title": "Summary and printed tables", "statement": "df and the printed form of an action set or selection have one row per feature, in order, showing its current settings, whatever the print flag.", "quantifier": "every action set and history", "why_tests_cant": "universal over settings and histories", "anchors": ["recourse/action_set.py:ActionSet.df", "recourse/action_set.py:tabulate_actions", "recourse/action_set.py:ActionSet.__repr__"]}
{"id": "C71", "title": "The LaTeX table of an action set is truthful", "statement": "to_latex shows for each feature its name, bounds, grid size and step, whether it is binary, integer or real, and whether it can change, only increase or only decrease.", "quantifier": "every action set and history", "why_tests_cant": "universal over settings and histories", "anchors": ["recourse/action_set.py:texify_action_set"]}
{"id": "C72", "title": "Items of a flipset are keyed by feature", "statement": "items returns, for every stored item in order, a dictionary from all feature names to the changes of the item; actions returns the change vectors.", "quantifier": "every flipset and history", "why_tests_cant": "universal over settings and histories", "anchors": ["recourse/flipset.py:Flipset.items", "recourse/flipset.py:Flipset.actions"]}
{"id": "C73", "title": "The LaTeX table of a flipset names each feature once", "statement": "to_latex succeeds for every flipset and shows each changed feature's name wrapped in the formatter once.", "quantifier": "every flipset and history, all feature names and formatters", "why_tests_cant": "universal over settings and histories", "anchors": ["recourse/flipset.py:Flipset.to_latex"]}
{"id": "C74", "title": "Replacing a feature", "statement": "A[name] = element replaces the feature called name and nothing else, is rejected for unknown names, and leaves an action set whose features are called as before.", "quantifier": "every action set, name and element", "why_tests_cant": "universal over settings and histories", "anchors": ["recourse/action_set.py:ActionSet.__setitem__"]}
{"id": "C75", "title": "The package works with either solver", "statement": "The package can be imported and used whenever CPLEX or Python-MIP is installed; with neither it fails with ModuleNotFoundError.", "quantifier": "every combination of installed solvers", "why_tests_cant": "universal over installations", "anchors": ["recourse/defaults.py", "recourse/__init__.py", "recourse/builder.py", "recourse/cplex_helper.py"]}
{"id": "C76", "title": "The requested solver is used", "statement": "A builder, auditor or flipset created with solver=s uses s if s is installed, the default solver if s is None, and raises for every other value.", "quantifier": "every value of solver, installation, classifier and action set", "why_tests_cant": "universal over values and settings", "anchors": ["recourse/defaults.py:set_default_solver", "recourse/builder.py:RecourseBuilder.__new__", "recourse/auditor.py:RecourseAuditor.__init__", "recourse/flipset.py:Flipset.populate"]}
{"id": "C77", "title": "A failed creation leaves the action set unchanged", "statement": "If creating a builder or an auditor raises, the caller's action set is as before.", "quantifier": "every action set history, argument list and failure point", "why_tests_cant": "the failure can happen at any step of the constructor", "anchors": ["recourse/builder.py:RecourseBuilder.__init__", "recourse/auditor.py:RecourseAuditor.__init__"]}
{"id": "C78", "title": "Builder and flipset agree on scores", "statement": "A builder and a flipset created with the same classifier give the same score and prediction for every point; score() without argument is that of the current individual.", "quantifier": "every classifier, individual and point", "why_tests_cant": "universal over points", "anchors": ["recourse/builder.py:RecourseBuilder.score", "recourse/builder.py:RecourseBuilder.prediction", "recourse/flipset.py:Flipset.score", "recourse/flipset.py:Flipset.prediction"]}
{"id": "C79", "title": "display_flag shows the solver's progress", "statement": "fit and populate of a CPLEX builder show the solver's progress exactly when display_flag is True.", "quantifier": "every builder, parameter dictionary and history of calls", "why_tests_cant": "depends on the history of calls", "anchors": ["recourse/builder.py:RecourseBuilder.mip_display", "recourse/cplex_helper.py:set_cpx_display_options", "recourse/cplex_helper.py:set_cpx_parameters"]}
{"id": "C80", "title": "cplex_parameters are in force", "statement": "Every entry of the cplex_parameters of a builder is in force in each of its solves; complete dictionaries are accepted.", "quantifier": "every dictionary and history of calls", "why_tests_cant": "depends on the history of calls", "anchors": ["recourse/cplex_helper.py:set_cpx_parameters", "recourse/builder.py:_RecourseBuilderCPX"]}
{"id": "C81", "title": "A copied Cplex object is a copy", "statement": "copy_cplex returns an object with the same variables and the same parameters.", "quantifier": "every Cplex object and parameter", "why_tests_cant": "universal over objects", "anchors": ["recourse/cplex_helper.py:copy_cplex"]}
{"id": "C82", "title": "add_variable_cpx adds the described variables", "statement": "add_variable_cpx adds one variable per name, with the objective, bounds and type given for it, scalars and one-element lists being used for all; other shapes are rejected.", "quantifier": "every argument shape and value", "why_tests_cant": "universal over argument shapes", "anchors": ["recourse/cplex_helper.py:add_variable_cpx"]}
{"id": "C83", "title": "Preprocessing can be switched off and on again", "statement": "Switching CPLEX preprocessing off and on again restores all parameters.", "quantifier": "every Cplex object", "why_tests_cant": "universal over objects", "anchors": ["recourse/cplex_helper.py:toggle_cpx_preprocessing"]}
{"id": "C84", "title": "Results of fit and populate are consistent", "statement": "The dictionary returned by fit either shows a solution (feasible, with a finite cost, one action and one cost per feature) or that there is none (infeasible, infinite cost, actions all NaN), never a mixture; its runtime is the time of the call. The dictionaries returned by populate show the enumerated solutions, with the time each took.", "quantifier": "every builder, solver, solver report and history", "why_tests_cant": "universal over builders and solver outcomes, including stopped runs", "anchors": ["recourse/builder.py:RecourseBuilder.fit", "recourse/builder.py:RecourseBuilder.populate", "recourse/builder.py:RecourseBuilder._empty_mip_solution_info", "recourse/builder.py:solution_info"]}
{"id": "C85", "title": "The reported lower bound is one", "statement": "The lowerbound of a result is at most the cost of every permitted action that attains the desired outcome, provided the solver's own bound is correct.", "quantifier": "every individual, classifier, action set, cost type and solver with correct bounds", "why_tests_cant": "quantifies over all actions that were not returned and all solver behaviours", "anchors": ["recourse/builder.py:RecourseBuilder.fit", "recourse/builder.py:solution_info"]}
{"id": "C86", "title": "The reported upper bound is the cost", "statement": "The upperbound of a result is the cost of the returned action.", "quantifier": "every individual, classifier, action set, cost type, sound solver and history of calls", "why_tests_cant": "universal over programs and solver answers", "anchors": ["recourse/builder.py:RecourseBuilder.fit", "recourse/builder.py:solution_info"]}
{"id": "C87", "title": "populate accepts exactly its documented arguments", "statement": "populate of builders and flipsets accepts as total_items positive ints and inf, and only the documented enumeration and cost types; everything else is rejected before anything is solved or added.", "quantifier": "every value of every argument", "why_tests_cant": "universal over dynamic values", "anchors": ["recourse/builder.py:RecourseBuilder.populate", "recourse/flipset.py:Flipset.populate"]}
{"id": "C88", "title": "Unknown cost types are rejected", "statement": "Creating a builder with a mip_cost_type other than 'total', 'local' and 'max' raises.", "quantifier": "every cost type, action set, classifier and individual", "why_tests_cant": "universal over inputs", "anchors": ["recourse/builder.py:RecourseBuilder.__init__", "recourse/builder.py:build_mip", "recourse/defaults.py:VALID_MIP_COST_TYPES"]}
{"id": "C89", "title": "Rescaling the classifier changes nothing", "statement": "Multiplying all coefficients and the intercept by the same positive number changes neither the verdict nor the optimal value, and the individual is accepted by one builder iff by the other (as long as no coefficient is below 1e-8 in absolute value).", "quantifier": "every classifier, positive factor, action set, individual, cost type, limits, back ends, sound finishing solvers and histories", "why_tests_cant": "a relation between the answers to two questions, for all pairs of inputs", "anchors": ["recourse/builder.py:RecourseBuilder.fit", "recourse/builder.py:build_mip"]}
{"id": "C90", "title": "Mirrored questions have mirrored answers", "statement": "Asking for the opposite desired outcome of the classifier with all coefficients and the intercept negated gives the same verdict and optimal value; action sets built for y_desired = 1 and -1 differ in that field only.", "quantifier": "every data table, classifier, individual, cost type, limits, back ends, sound finishing solvers and histories", "why_tests_cant": "a relation between the answers to two questions, for all pairs of inputs", "anchors": ["recourse/action_set.py:ActionSet.set_alignment", "recourse/builder.py:build_mip"]}
{"id": "C91", "title": "A more lenient classifier never hurts", "statement": "Moving the intercept towards the desired outcome never takes recourse away and never raises the optimal value; whether the individual is accepted does not depend on the intercept.", "quantifier": "every classifier, pair of intercepts, individual, action set, solver and history", "why_tests_cant": "a relation between the answers to two questions, for all pairs of inputs", "anchors": ["recourse/builder.py:build_mip", "recourse/builder.py:RecourseBuilder.fit"]}
{"id": "C92", "title": "Wider item limits never hurt", "statement": "Lowering min_items or raising max_items never takes recourse away and never raises the optimal value; whether the individual is accepted does not depend on the limits.", "quantifier": "every pair of limits, individual, classifier, action set, solver and history", "why_tests_cant": "a relation between the answers to two questions, for all pairs of inputs", "anchors": ["recourse/builder.py:RecourseBuilder.min_items", "recourse/builder.py:RecourseBuilder.max_items"]}
{"id": "C93", "title": "The answer does not depend on the solver", "statement": "Two builders asked the same question, on any back ends, with any correct solvers and any earlier calls, give the same verdict and the same optimal value.", "quantifier": "every pair of sound finishing solvers, back ends and histories", "why_tests_cant": "a relation between the answers to two questions, for all pairs of inputs", "anchors": ["recourse/builder.py:RecourseBuilder.fit"]}
{"id": "C94", "title": "Enumerations can be resumed", "statement": "Calling populate for n and then for m more items returns, taken together, what populate returns for n + m items.", "quantifier": "every individual, action set, n, m, enumeration type, sound finishing solver and earlier calls", "why_tests_cant": "universal over inputs and call sequences", "anchors": ["recourse/builder.py:RecourseBuilder.populate"]}
{"id": "C95", "title": "Mutually exclusive enumerations are short", "statement": "Over all calls of populate with 'mutually_exclusive' no feature is changed twice, so the numbers of changed features add up to at most the number of actionable features, and populate ends after at most that many items.", "quantifier": "every individual, action set, classifier, sound solver and sequence of calls", "why_tests_cant": "universal over inputs and call sequences", "anchors": ["recourse/builder.py:RecourseBuilder.populate", "recourse/builder.py:remove_all_features"]}
{"id": "C96", "title": "Row order does not matter", "statement": "An action set does not depend on the order of the rows of the data table, and the description of a feature depends on no column but its own.", "quantifier": "every data table, permutation of its rows, and pair of tables sharing a column", "why_tests_cant": "universal over inputs and call sequences", "anchors": ["recourse/action_set.py:ActionSet.__init__", "recourse/action_set.py:_ActionElement.__init__"]}
{"id": "C97", "title": "Small solver tolerances do not change what an item means", "statement": "If the solver's answers are right only up to a small tolerance d (bounds, integrality, rows and optimality each violated by at most d), the action returned by fit still stands for an exactly permitted action: every reported change is within a small multiple of d of a permitted one, the number of changed features respects the item limits, the score reached is on the desired side up to d, and the reported cost is at most d above that of every acceptable action; 'no recourse' is still reported only if there is none.", "quantifier": "every environment, builder, individual, tolerance d that is small for the numbers of features and grid values, and every solver that is right up to d", "why_tests_cant": "the set of almost-feasible points is a continuum and differs by solver, version and machine; tests see one of them", "anchors": ["recourse/builder.py:fit", "recourse/builder.py:_CPXBuilder.solution_info", "recourse/builder.py:_PythonMIPBuilder.solution_info", "recourse/builder.py:build_mip"]}
{"id": "C98", "title": "Enumeration works with solver tolerances", "statement": "With a solver that is right up to a small tolerance, populate still ends, returns no item twice (in the sense of its enumeration type), and exhausts the acceptable actions.", "quantifier": "every builder, individual, enumeration type and every solver that is right up to d", "why_tests_cant": "the faulty points depend on the solver's arithmetic; termination is a statement about every run", "anchors": ["recourse/builder.py:populate", "recourse/builder.py:remove_all_features", "recourse/builder.py:remove_feature_combination"]}
{"id": "C99", "title": "Reported per-feature costs belong to the reported changes despite tolerances", "statement": "With a solver that is right up to a small tolerance, the reported cost of each feature is, up to small errors, the cost of the change reported for that feature.", "quantifier": "every builder, individual and every solver that is right up to d", "why_tests_cant": "tests only see the points their solver happens to return", "anchors": ["recourse/builder.py:_CPXBuilder.solution_info", "recourse/builder.py:_PythonMIPBuilder.solution_info"]}
{"id": "C100", "title": "Grids of whole numbers are computed without rounding errors", "statement": "For an integer-valued feature (or any feature with whole bounds) with an absolute whole step, and for every integer feature with the default relative step of 1%, the grid computed in binary64 arithmetic is exactly the grid of exact arithmetic, for bounds up to 2^50.", "quantifier": "every feature with whole bounds up to 2^50 in magnitude and every such step; every rounding function with the guarantees of IEEE 754", "why_tests_cant": "rounding errors depend on the exact bounds; there are 2^100 pairs of bounds", "anchors": ["recourse/action_set.py:_ActionElement.update_grid"]}
{"id": "C101", "title": "A relative step on an integer feature is ceil(step size x range)", "statement": "The grid of an integer feature with relative step size r has exactly the step ceil(r (ub - lb)), although r (ub - lb) is computed in floating-point arithmetic.", "quantifier": "every integer feature and every relative step size in (0, 1]", "why_tests_cant": "fails only where the product lies next to an integer", "anchors": ["recourse/action_set.py:_ActionElement.update_grid"]}
{"id": "C102", "title": "Grids of real-valued features stay in place despite rounding", "statement": "The grid of a real-valued feature, computed in floating-point arithmetic, starts at the lower bound, increases strictly, follows the multiples of the step, and with a step that divides the range ends at the upper bound.", "quantifier": "every real-valued feature with representable bounds and every step size", "why_tests_cant": "the length of np.arange depends on the last bit of a quotient", "anchors": ["recourse/action_set.py:_ActionElement.update_grid"]}
{"id": "C103", "title": "Percentiles increase along the grid despite rounding", "statement": "Computed in floating-point arithmetic, the percentiles of the values increase strictly, so that every move has a positive cost; they lie in (0, 1].", "quantifier": "every increasing grid, every list of representable densities, every value", "why_tests_cant": "depends on the last bits of the cumulated densities, which come from an estimator", "anchors": ["recourse/action_set.py:_ActionElement.update_interpolator", "recourse/action_set.py:_ActionElement.percentile"]}
{"id": "C104", "title": "Predictions are right despite rounding", "statement": "The prediction of a builder is the sign of the exact score, although the score is computed in floating-point arithmetic, in whatever order the terms are added.", "quantifier": "every classifier, individual, order of additions and use of fused multiply-adds", "why_tests_cant": "the order of additions depends on the machine; errors show only next to the boundary", "anchors": ["recourse/builder.py:score", "recourse/builder.py:prediction"]}
{"id": "C105", "title": "Allowing more never takes recourse away", "statement": "When an action set is relaxed - features made actionable or free in direction, bounds widened, constraints removed or loosened - every individual who had recourse still has it, both for a builder (fit) and in an audit.", "quantifier": "every action set and relaxation of it, classifier, individual, solver, back end and builder history", "why_tests_cant": "compares the answers to two different problems for every individual; grids shift with the bounds", "anchors": ["recourse/action_set.py:_ActionElement.update_grid", "recourse/action_set.py:ActionSet.feasible_grid", "recourse/builder.py:RecourseBuilder.fit", "recourse/auditor.py:RecourseAuditor.audit"]}
{"id": "C106", "title": "Audits, builders and flipsets agree", "statement": "For every denied individual, the line of an audit, the answer of a new builder and the items of a new flipset (populate) for the same action set and classifier agree: recourse is reported by one exactly when it is by the others, and with cost type 'max' the cost in the audit is that of the builder's answer and of the first item.", "quantifier": "every action set, classifier, table, history of the auditor, individual, solver and back end", "why_tests_cant": "relates three entry points over all inputs and histories; the auditor reuses one builder for everybody", "anchors": ["recourse/auditor.py:RecourseAuditor.audit", "recourse/builder.py:RecourseBuilder.fit", "recourse/flipset.py:Flipset.populate"]}
{"id": "C107", "title": "Asking again gives the same answer", "statement": "Calls that hand out no item (fit, or a populate that finds nothing) do not change what a builder answers next: verdict and optimal value stay the same after any number of them, at any point of an enumeration; with a solver that answers equal questions equally, so do the items.", "quantifier": "every builder, individual, history of the enumeration, number of calls and solver", "why_tests_cant": "ranges over all histories and all solvers, which may return different optima each time", "anchors": ["recourse/builder.py:RecourseBuilder.fit", "recourse/builder.py:RecourseBuilder.populate"]}
{"id": "C108", "title": "Results do not depend on the run", "statement": "Running the same script again (another hash seed) gives the same results: the same builders, verdicts, items and audit tables, although Python iterates sets of strings in an order chosen at random at start-up.", "quantifier": "every action set, classifier, individual, table, solver, and every two iteration orders", "why_tests_cant": "a test runs under one hash seed; the order of string sets changes from run to run", "anchors": ["recourse/action_set.py:_ConstraintRegistry.constrained_names", "recourse/action_set.py:ActionSet.feasible_grid", "recourse/builder.py:RecourseBuilder._get_mip_build_info"]}
{"id": "C109", "title": "Every answer passes the builder's own check", "statement": "The builder's check of a solution (the prediction changes, between min_items and max_items features change, only actionable ones, changed features cost something and unchanged ones nothing) accepts every answer of fit and every item of populate, without an exception or a warning.", "quantifier": "every environment, sound solver, builder, individual, history of calls and answer", "why_tests_cant": "the check looks at the solver's answer; tests exercise it on a few individuals and never on all scores, action sets and histories", "anchors": ["recourse/builder.py:RecourseBuilder._check_mip_solution", "recourse/builder.py:RecourseBuilder.fit", "recourse/builder.py:RecourseBuilder.populate"]}
{"id": "C110", "title": "The HTML page of a flipset is truthful", "statement": "to_html shows 'No Recourse' exactly if the individual has no recourse; otherwise the page lists every change of every item once with its current and required value, whole numbers without decimals, rows of the same item with the same background and neighbouring items with different ones.", "quantifier": "every flipset and history, sorter, tie-breaking, number of items and changes", "why_tests_cant": "page contents depend on all items, their labels after re-sorting and the parity of labels; tests render one page", "anchors": ["recourse/flipset.py:Flipset.to_html", "recourse/flipset.py:Flipset.to_flat_df"]}
{"id": "C111", "title": "Statistics in audit reports", "statement": "The tables that an audit report prints for an outcome group show the mean, the median and the number of the costs of exactly those members of the group who have recourse, and their number; no line is printed if nobody has.", "quantifier": "every audited table with unique index labels, every labelling, set order, classifier, action set and solver", "why_tests_cant": "the figures depend on the whole table and its grouping; tests compare a few printed reports", "anchors": ["recourse/print_recourse_audit_report.py:subset_data_and_plot", "recourse/helper_functions.py:print_recourse_audit_report"]}
{"id": "C112", "title": "Statistics of a Cplex object", "statement": "get_stats_cpx reports each of its two groups of statistics (progress; solution) completely, as the solver states them, or not at all (documented initial values); has_mipstats and has_solution say which; it never raises CplexError.", "quantifier": "every state of the Cplex object, i.e. every combination of answers and refusals of the solver's queries", "why_tests_cant": "which queries CPLEX refuses depends on the state of the run; tests see a few", "anchors": ["recourse/cplex_helper.py:get_stats_cpx"]}
{"id": "C113", "title": "Cutoff values never cost optimality", "statement": "After set_mip_cutoff_values(cpx, objval, increment), if different objective values of the problem differ by at least the increment, every solution the solver may end with is optimal, and a run without a solution shows that none has a value of at most objval; no other setting changes; negative numbers and NaN raise AssertionError and change nothing.", "quantifier": "every Cplex object, objval, increment and set of attainable objective values, every run the parameters permit", "why_tests_cant": "ranges over all problems and solver runs", "anchors": ["recourse/cplex_helper.py:set_mip_cutoff_values"]}
{"id": "C114", "title": "MIP starts", "statement": "add_mip_start_cpx adds exactly one start, in which the j-th variable has the j-th value of the solution, lists and arrays alike, with the effort level and name given; solutions longer than the list of variables raise CplexError.", "quantifier": "every Cplex object, solution vector, effort level and name", "why_tests_cant": "ranges over all vectors", "anchors": ["recourse/cplex_helper.py:add_mip_start_cpx"]}
{"id": "C115", "title": "Parameters can be read back", "statement": "get_cpx_parameters returns the values of the CPLEX parameters, in particular those that set_cpx_parameters has set.", "quantifier": "every Cplex object and parameter dictionary", "why_tests_cant": "ranges over all objects", "anchors": ["recourse/cplex_helper.py:get_cpx_parameters", "recourse/cplex_helper.py:set_cpx_parameters"]}
{"id": "C116", "title": "Undoing the standardisation of a classifier", "statement": "undo_coefficient_scaling(clf or coefficients, intercept, scaler) returns coefficients and an intercept that give every raw data point the score that the classifier gives to the standardised data point; without a scaler they are those of the classifier.", "quantifier": "every linear classifier, fitted StandardScaler and data point", "why_tests_cant": "ranges over all classifiers, scalers and points", "anchors": ["examples/paper/initialize.py:undo_coefficient_scaling", "recourse/helper_functions.py:parse_classifier_args"]}
{"id": "C117", "title": "Nothing in an answer is superfluous", "statement": "Every change of a feature that fit or populate returns moves the score towards the desired outcome (features under a constraint excepted). Without constraints, if fit's answer makes several changes, then no proper non-empty part of these changes that is large enough for the builder's limits already reaches the desired side (for cost type 'max', if percentiles increase strictly).", "quantifier": "every builder, person, sound solver and session of fit/populate calls; every part of the returned changes", "why_tests_cant": "ranges over all problems and all subsets of an answer's changes", "anchors": ["recourse/builder.py:RecourseBuilder.fit", "recourse/builder.py:RecourseBuilder._get_mip_build_info", "recourse/builder.py:RecourseBuilder.populate"]}
{"id": "C118", "title": "Accepted settings are the ones asked for", "statement": "Assigning actionable, step_direction, step_type, step_size or variable_type of a feature is accepted exactly when the value is a documented one (a bool; a finite number; 'relative' or 'absolute'; a positive number, at most 1 for relative steps; bool/int/float or None). The setting then has that value (for directions: its sign), and nothing else changes. The same holds for the arguments of the constructor.", "quantifier": "every feature and every assigned Python value", "why_tests_cant": "ranges over all values that can be assigned", "anchors": ["recourse/action_set.py:_ActionElement.actionable", "recourse/action_set.py:_ActionElement.step_direction", "recourse/action_set.py:_ActionElement.step_type", "recourse/action_set.py:_ActionElement.step_size", "recourse/action_set.py:_ActionElement.variable_type", "recourse/action_set.py:_ActionElement.__init__"]}
{"id": "C119", "title": "Column order does not matter", "statement": "Listing the features in another order - the columns of the table, the names, the coefficients and the individual's values rearranged alike - changes neither whether the individual is accepted, nor whether recourse is found, nor the cost of the answer.", "quantifier": "every table, classifier, individual, permutation of the columns, cost type, back end and solver", "why_tests_cant": "ranges over all permutations of all questions", "anchors": ["recourse/action_set.py:ActionSet.__init__", "recourse/builder.py:RecourseBuilder._get_mip_build_info", "recourse/builder.py:_RecourseBuilderCPX.build_mip", "recourse/builder.py:_RecourseBuilderPythonMIP.build_mip", "recourse/builder.py:RecourseBuilder.fit"]}
{"id": "C120", "title": "Actionability and direction settings bind every later answer", "statement": "After A[...].actionable = False (by name, position, list, mask or slice) no answer a builder on that action set gives for an individual assigned afterwards, and none filed by the first populate of a flipset, changes one of the selected features; after A[...].step_direction = d no such answer moves a selected feature against d. Unlike bounds and step sizes (C06), these settings need no update_grid().", "quantifier": "every history of builder and action set, every selection of distinct features, every individual, sequence of fit/populate calls and solver", "why_tests_cant": "ranges over all histories, selections, individuals and solver answers", "anchors": ["recourse/action_set.py:ActionSet.__getitem__", "recourse/action_set.py:_ActionSlice.__setattr__", "recourse/action_set.py:_ActionElement.actionable", "recourse/action_set.py:_ActionElement.step_direction", "recourse/action_set.py:_ActionElement.feasible_values", "recourse/builder.py:RecourseBuilder.fit", "recourse/builder.py:RecourseBuilder.populate"]}
{"id": "C121", "title": "Audit verdicts despite solver tolerances", "statement": "An audit whose solver works with a small tolerance says \"feasible\" exactly of those whom some permitted action helps, \"infeasible\" exactly of the others, and reports costs that are those of a best action up to small errors.", "quantifier": "every auditor, table of individuals, desired outcome, back end, tolerance and solver that is right up to that tolerance", "why_tests_cant": "ranges over all solvers' rounding behaviour, tables and tolerances", "anchors": ["recourse/auditor.py:RecourseAuditor.audit", "recourse/builder.py:RecourseBuilder.fit", "recourse/builder.py:_RecourseBuilderCPX.solution_info", "recourse/builder.py:_RecourseBuilderPythonMIP.solution_info"]}
{"id": "C122", "title": "Flipsets despite solver tolerances", "statement": "With a solver that works with a small tolerance, a flipset's populate ends, files every item its builder finds, and every filed item changes the prediction.", "quantifier": "every action set, classifier, individual, cost and enumeration type, back end, tolerance and solver that is right up to that tolerance", "why_tests_cant": "ranges over all solvers' rounding behaviour and tolerances", "anchors": ["recourse/flipset.py:Flipset.populate", "recourse/flipset.py:Flipset._add", "recourse/flipset.py:Flipset._validate_item", "recourse/builder.py:RecourseBuilder.populate"]}
{"id": "C123", "title": "Objects sharing an action set do not disturb each other", "statement": "Builders, auditors and flipsets created with the same action set interact only through it: calls on one object never change another object's answers, items or table; a call leaves the action set as it is (a flipset's first populate and creations may at most set flip directions); and every object behaves as it would alone with a caller who edits the action set.", "quantifier": "every history of edits of one action set, successful or failing creations of any number of builders, auditors and flipsets with arbitrary classifiers and solvers, and calls on them in any order", "why_tests_cant": "ranges over all interleavings of calls on arbitrarily many objects that alias one mutable action set", "anchors": ["recourse/builder.py:RecourseBuilder.__init__", "recourse/auditor.py:RecourseAuditor.__init__", "recourse/flipset.py:Flipset.__init__", "recourse/flipset.py:Flipset.populate"]}
{"id": "C124", "title": "Edits of a shared action set take effect on existing objects", "statement": "Once the caller has changed the action set, the answers of existing builders, auditors and flipsets respect the change.", "quantifier": "every history of edits, creations and calls, every object in it and every later call", "why_tests_cant": "ranges over all interleavings of edits and calls on objects that alias the action set", "anchors": ["recourse/builder.py:RecourseBuilder.x", "recourse/builder.py:RecourseBuilder.fit", "recourse/flipset.py:Flipset.populate", "recourse/auditor.py:RecourseAuditor.audit"]}
{"id": "C125", "title": "Features that cannot matter do not matter", "statement": "Two questions with the same score, constraints, desired outcome and settings that differ only in features taking part in neither search (not actionable, ignored by the classifier, or unable to move in a helpful direction) get exactly the same answers: the same acceptance, the same sequence of actions and costs from fit and populate, the same audit verdicts.", "quantifier": "every pair of reachable builders or auditors, every pair of individuals and any sequence of fits and populates, for a solver whose answers depend only on the program", "why_tests_cant": "ranges over all pairs of action sets, classifiers and individuals that agree on the features that can act", "anchors": ["recourse/builder.py:RecourseBuilder._get_mip_build_info", "recourse/action_set.py:ActionSet.feasible_grid", "recourse/builder.py:RecourseBuilder.fit", "recourse/builder.py:RecourseBuilder.populate", "recourse/auditor.py:RecourseAuditor.audit"]}
{"id": "C126", "title": "The list a new flipset gets", "statement": "For a denied individual, populate on a new flipset lists only actions that are permitted, keep the constraints, reach the desired outcome and flip the prediction, with their true costs; in order of cost for 'total' and 'local'; never two with the same set of features (distinct_subsets) or a common feature (mutually_exclusive); at most total_items. If the individual's values fit their grids, percentiles increase over the offered values and constraints are in line with the columns, each item costs no more than any way to the outcome not covered by an earlier item, and when fewer items than asked for come back, every way to the outcome is covered: it shares a feature with an item (mutually_exclusive) or changes all the features of one (distinct_subsets).", "quantifier": "every reachable action set, classifier, individual, backend, cost type, enumeration type and number of items, every sound solver that finishes, and every action whatsoever", "why_tests_cant": "compares the list with all actions, over all inputs and all solvers", "anchors": ["recourse/flipset.py:Flipset.populate", "recourse/flipset.py:Flipset._add", "recourse/builder.py:RecourseBuilder.populate", "recourse/builder.py:RecourseBuilder.fit"]}
{"id": "C127", "title": "Flipsets created with the same ready-made builder", "statement": "Flipsets created with the same ready-made builder each list what a flipset created with it alone would list. (False: the builder keeps the combinations it has already given out, so the first populate takes them. What holds: together the flipsets hold one list, each the part it asked for; every item is permitted and reaches the outcome; nothing is listed twice among them; when one of them gets fewer items than it asked for, the items of all of them together rule out every acceptable action, and no later populate adds anything to any of them.)", "quantifier": "every builder with an assigned denied individual, any number of flipsets created with it for that individual, every interleaving of calls on the flipsets and of fit and populate on the builder, every sound solver", "why_tests_cant": "ranges over all interleavings of calls on objects sharing a mutable builder", "anchors": ["recourse/flipset.py:Flipset.__init__", "recourse/flipset.py:Flipset.populate", "recourse/builder.py:RecourseBuilder.populate", "recourse/builder.py:RecourseBuilder.remove_feature_combination"]}
{"id": "C128", "title": "What feasible_grid lists", "statement": "feasible_grid lists each feature once: all of them if incompatible features are asked for, otherwise those under a constraint and those that are actionable, have a non-zero coefficient and may move in the direction that helps (before alignment: all). For a listed feature whose grid can represent the current value, exactly the permitted values are listed, in increasing order, without those against the direction that helps unless the feature is under a constraint; as differences from the current value if actions are asked for, each with its percentile if those are asked for. A point of the wrong dimension, and actions before alignment, are refused.", "quantifier": "every reachable action set, every point, every combination of the three flags", "why_tests_cant": "ranges over all action sets, all points and all values", "anchors": ["recourse/action_set.py:ActionSet.feasible_grid", "recourse/action_set.py:_ActionElement.feasible_values", "recourse/action_set.py:_ActionElement.compatible"]}
{"id": "C129", "title": "Allowing more never makes the answer dearer", "statement": "When an action set allows more changes at the same prices (features made actionable or free in direction, constraints removed), the fitted action for the same person, classifier and cost type costs no more than before. (True for 'total' and 'local' costs; false for 'max', whose tie-breaking term can prefer a newly available action with a higher maximum; there the cost and the sum of the single costs cannot both get worse.)", "quantifier": "every pair of builders whose action sets allow more at the same prices, every individual denied the outcome, all sound solvers", "why_tests_cant": "ranges over all action sets, individuals and solver behaviours", "anchors": ["recourse/builder.py:RecourseBuilder.fit", "recourse/builder.py:RecourseBuilder.set_mip_objective", "recourse/action_set.py:ActionSet"]}
{"id": "C130", "title": "A more lenient classifier never hurts", "statement": "When the intercept moves towards the desired outcome and everything else stays the same, nobody with recourse loses it, in fits as in audits, and nobody's recourse becomes dearer. (Recourse is indeed never lost; for 'total' and 'local' costs it never becomes dearer; for 'max', which audits use, the reported cost can rise, but not together with the sum of the single costs.)", "quantifier": "every action set, coefficient vector, pair of intercepts, individual, table, all sound solvers", "why_tests_cant": "ranges over all action sets, thresholds, individuals and solver behaviours", "anchors": ["recourse/builder.py:RecourseBuilder.fit", "recourse/auditor.py:RecourseAuditor.audit"]}
{"id": "C131", "title": "Following the advice, at once or in steps", "statement": "Whoever carries out a listed action is left blank by the next audit with the same classifier. Whoever carries out only some of its changes still has recourse (if still denied), and what those changes cost plus the cost of the new answer does not exceed the cost first quoted. (The first claim fails for y_desired=-1 when the action ends at score exactly 0; the costs are claimed for 'total' and 'local'.)", "quantifier": "every action set, classifier, individual, solver, listed action and part of it", "why_tests_cant": "ranges over all action sets, individuals, solver answers and subsets of the advised changes", "anchors": ["recourse/builder.py:RecourseBuilder.fit", "recourse/builder.py:RecourseBuilder.populate", "recourse/auditor.py:RecourseAuditor.audit"]}
{"id": "C132", "title": "Out of the box: set up an action set from data, edit it, use it", "statement": "Create an action set from data, edit it (attributes other than the variable type, on the set, single features or slices; grids; desired outcome; alignment), without constraints or exchanged elements, and hand it to an auditor. Then every individual like the data (whole values in whole-number columns; the rows of the data in particular) gets: a blank if it has the outcome; if its score is on the wrong side, the largest percentile shift of a permitted action reaching the right side, or (False, inf) and no permitted action reaches it. No condition on grids, percentiles or alignment is left to check. The same for a builder of a set that was not aligned with another classifier.", "quantifier": "every data matrix, every sequence of such edits, classifier, table, solver and backend", "why_tests_cant": "ranges over all data matrices and edit sequences, and claims that no permitted action exists", "anchors": ["recourse/action_set.py:ActionSet.__init__", "recourse/action_set.py:ActionSet.__setattr__", "recourse/auditor.py:RecourseAuditor.audit", "recourse/builder.py:RecourseBuilder.fit"]}
{"id": "C133", "title": "Units of measure do not matter", "statement": "Measure a feature in other units (multiply its column by a positive factor, its coefficient by the inverse), create the action set from the rescaled data and edit it alike (percentile bounds, relative steps): the same actions are permitted (in the new units), audits and fits find recourse for the same people, and the costs are the same. (Refuted when the type of a column changes, for costs - the percentile scale adds 1e-6 to densities, which are per unit - and when a weight per new unit falls below 1e-8.)", "quantifier": "every data matrix, change of units, edit sequence, classifier, individual, table, solver, backend and cost type", "why_tests_cant": "relates two runs over all data matrices, factors, edits and solver answers", "anchors": ["recourse/action_set.py:_BoundElement.__init__", "recourse/action_set.py:_ActionElement.update_grid", "recourse/action_set.py:_ActionElement.update_interpolator", "recourse/action_set.py:_determine_variable_type", "recourse/builder.py:RecourseBuilder._check_mip_build_info"]}
{"id": "C134", "title": "Where zero lies does not matter", "statement": "Measure features from other zeros (shift each column by an amount of its own, lower the intercept by the score of the shift), create the action set from the shifted data and edit it alike (percentile bounds; steps may be amounts): the same actions are permitted, at the same scores and costs, and fits, enumerations and audits return the same results, when the density estimates move along with the data. (Refuted when a shift changes the type of a column - whole numbers shifted by a half lose the rounding of their bounds, a rare 0/1 flag coded 1/2 makes creation raise - and with limits on groups of features, where the value 0 is special.)", "quantifier": "every data matrix, shift, edit sequence, classifier, individual, sequence of tables, solver, backend and cost type", "why_tests_cant": "relates two runs over all data matrices, shifts, edits and solver answers", "anchors": ["recourse/action_set.py:_BoundElement.__init__", "recourse/action_set.py:_ActionElement.update_grid", "recourse/action_set.py:_ActionElement.percentile", "recourse/action_set.py:_ActionElement.feasible_values", "recourse/builder.py:RecourseBuilder._get_mip_build_info", "recourse/auditor.py:RecourseAuditor.audit"]}
{"id": "C135", "title": "Flags change no result", "statement": "print_flag and check_flag of action sets, builders and auditors, and the display flag of fit and populate, change no result: with any accepted values (left out, None, True, False) the same objects are created and the same exceptions raised, the internal checks never fail on them, and the solver runs with the same limits. Other values are rejected without a trace, and objects can be shown whatever the flag. (Refuted: action sets reject check_flag=None; a builder rejected for its flag leaves the action set aligned; auditors accept any value at creation; an action set with print_flag=False cannot be shown.)", "quantifier": "every data matrix, argument list, reachable action set, classifier, individual, solver and pair of flag values", "why_tests_cant": "relates runs with different flags over all inputs and histories", "anchors": ["recourse/action_set.py:ActionSet.check_flag", "recourse/action_set.py:ActionSet._check_rep", "recourse/builder.py:RecourseBuilder._check_rep", "recourse/builder.py:RecourseBuilder.check_flag", "recourse/auditor.py:RecourseAuditor.print_flag"]}
{"id": "C136", "title": "Only finite numbers", "statement": "nan, inf and -inf are rejected wherever data goes in: data matrices, individuals (builder.x, builder and flipset creation), feasible_grid, tables to audit; a rejected call leaves no trace and influences no later result. (Refuted: builder.x shows the rejected individual while fit answers for the one before; flipsets are created for any vector and only populate raises.)", "quantifier": "every matrix, vector, table, argument list and history of assignments and calls", "why_tests_cant": "ranges over all positions of non-finite numbers, all arguments and all histories around the rejected call", "anchors": ["recourse/action_set.py:ActionSet.__init__", "recourse/action_set.py:_ActionElement.__init__", "recourse/action_set.py:ActionSet.feasible_grid", "recourse/builder.py:RecourseBuilder.x", "recourse/auditor.py:RecourseAuditor.audit", "recourse/flipset.py:Flipset.__init__"]}
{"id": "C137", "title": "Leaving features out", "statement": "Features that cannot be changed, or have coefficient 0, may be left out of the table, the classifier (their contribution to the individual's score moves into the intercept) and the individual, and the others may be put in any order: the verdict and the cost of the answer stay the same. (Refuted with constraints: a feature that is not actionable in front of constrained ones displaces the constraint.)", "quantifier": "every table, selection and order of columns that keeps all actionable ones, classifier, individual, backend, cost type and solver", "why_tests_cant": "compares two runs on different tables over all tables, selections and solver choices", "anchors": ["recourse/action_set.py:ActionSet.__init__", "recourse/builder.py:RecourseBuilder._get_mip_build_info", "recourse/builder.py:_PyomoRecourseBuilder.build_mip", "recourse/builder.py:RecourseBuilder.fit"]}
