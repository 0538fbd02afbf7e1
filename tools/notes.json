{
 "C05": "False of the code: np.arange(start, stop+step, step) can pass ub. Refuted by a witness; proved that the overshoot is less than one step and that there is none exactly when the step divides the range.",
 "C06": "False of the code: the setters never recompute the grid. Refuted; proved for the grid after an explicit update_grid().",
 "C07": "False of the code: a constant column other than 0/1 raises ValueError. Refuted; exact characterisation of the accepted tables proved.",
 "C08": "False of the code: an integer grid truncates a fractional current value. Refuted; proved for every other case.",
 "C12": "False of the code: switching step_type does not revalidate step_size. Refuted; proved for histories that do not switch the type.",
 "C14": "False of the code: the cached interpolator survives update_grid. Refuted; proved when no percentile was queried before.",
 "C15": "False of the code for y_desired = 0 assigned while it is -1. Refuted; proved along every history that assigns +1/-1.",
 "C18": "False of the code for Python lists (bools are ints). Refuted; proved for numpy boolean arrays, and what a list selects is characterised.",
 "C19": "False of the code: a prefix of the features is modified. Refuted; exact prefix behaviour proved.",
 "C20": "False of the code on single elements. Refuted; rejection on slices proved, and silent storage on elements characterised.",
 "C22": "False of the code when the caller has used a numeral as id. Refuted; proved for histories without numeral ids.",
 "C59": "False of the code for lists. Refuted; proved for one-element arrays.",
 "C26": "False of the code at score exactly 0 (the MIP row is not strict). Refuted; the non-strict form is proved for every session of fit/populate calls.",
 "C27": "False of the code when a current value is not representable on an integer grid (the feature is silently skipped). Refuted; proved for every individual (constraints, if any, in line: see C34) with respect to all actions that leave such features alone, including an exact verdict for newly created builders. An exact verdict for every individual that can be assigned, whatever the constraints: C34_applied_to_lineup_partial.",
 "C28": "False of the code: a density that vanishes on the grid makes the assignment raise. Refuted; when both assignments succeed the verdicts agree, for every individual (constraints, if any, in line: see C34).",
 "C29": "Reported costs proved in general. Optimality false of the code outside the grid; proved when percentiles increase strictly over the permitted values, also under constraints that are in line (see C34). For every individual, among the changes with a positive price and with the limits as applied: C34_applied_to_lineup_partial.",
 "C30": "Reported cost proved. Optimality false of the code (epsilon tie-breaking); proved up to less than one price difference, also under constraints that are in line (see C34). C30_applied_to_lineup_partial: the minimised quantity for every listed action, constraints in any order.",
 "C32": "False of the code (wrong value written to the max_items row, unbound variable, one-sided calls ignored). Refuted; behaviour of each kind of call characterised.",
 "C34": "False of the code when a feature before a constrained one offers no change (index mix-up). Refuted; proved when every feature up to the last constrained one can be changed (in_line) and constrained values are non-negative. C34_applied_to_lineup_partial says, without any proviso on the individual or the order, what the limits do bind: the same positions in the line-up of the features that take part; with that reading fit is sound, complete and optimal among the actions whose changes have a positive price (all, for regular individuals: C34_all_considered).",
 "C35": "False of the code for 'total' and 'local' (always raises). Refuted; proved for 'max', fit and populate.",
 "C37": "False of the code for CPLEX with multi-valued constrained features. Refuted; proved for Python-MIP always and for CPLEX with on/off features.",
 "C38": "Order of cost proved in general; local optimality proved for strictly increasing percentiles and constraints, if any, in line (with CPLEX: constrained features that are on can only be switched off). C38_applied_to_lineup_partial: without the proviso on the order of the features, for the limits as they are applied (line-up). False in general: C38_each_is_cheapest_refuted (a current value outside the grid).",
 "C39": "Termination proved in general with bound 2^n; exhaustiveness for strictly increasing percentiles and constraints, if any, in line (with CPLEX: constrained features that are on can only be switched off). C39_applied_to_lineup_partial: without the proviso on the order of the features, for the limits as they are applied (line-up). False in general: C39_exhaustive_refuted (a current value an integer grid cannot represent).",
 "C40": "Proved for Python-MIP always and CPLEX under the same proviso as C37 (false otherwise: C37_distinct_subsets_refuted). C40_never_repeats_refuted: two calls of populate that change the same features, for every sound solver.",
 "C41": "False of the code after a failed assignment. Refuted; proved after every successful assignment.",
 "C42": "False of the code for Python-MIP stopped with an incumbent and for stopped runs. Refuted; proved for conclusive runs; CPLEX reports every incumbent.",
 "C44": "False of the code: yhat is the raw score, compared with a sign. Refuted twice (direct addition; populate for an approved individual). Proved: flipping actions are always accepted; the equivalence for scores 0, 1, -1; what happens for all other scores.",
 "C47": "False of the code after sort(inplace=False) and for list-valued sort keys. Refuted; proved for histories whose sorts are in place and by scalar columns.",
 "C60": "False of the code: the builder created by the first populate is reused. Refuted; proved when all populate calls use the same cost type.",
 "C61": "False of the code: lines are ordered by item label. Refuted; after the first addition the order is the order of addition.",
 "C62": "False of the code: a supplied builder is not checked. Refuted; proved for builders created for the flipset's own individual.",
 "C63": "False of the code: the flag compares a sign with the raw score. Refuted; proved that every row says True.",
 "C45": "Holds for the flipset's own builder and scalar sort keys; fuel 2^n only says the enumeration is run to its end.",
 "C50": "Denied means score < 0 for y_desired = 1 and score >= 0 otherwise, as the auditor's prediction counts a score of 0 as positive.",
 "C52": "Verdicts proved for every individual, for the outcome the action set is set up for, with respect to actions that leave features with unrepresentable current values alone, constraints (if any) in line (false otherwise: C53, C27, C34); shape and cost of every line proved without provisos. C52_applied_to_lineup_partial: what a verdict says exactly, for any y_desired argument, any constraints and any order of the features. C52_verdicts_refuted: an individual audited as infeasible whom a permitted action helps.",
 "C53": "False of the code: y_desired only selects the rows. Refuted; proved when it agrees with the action set's own y_desired. What the verdict says when it does not agree: C52_applied_to_lineup_partial.",
 "C54": "False of the code, always: proved that every such table raises KeyError; with at least one denied row the blanks are right.",
 "C55": "False of the code: an aligned action set is not realigned (refuted three ways). Proved for action sets without directions or with those of the builder's classifier.",
 "C64": "False of the code for tiny non-zero coefficients and for constrained features that may move both ways (both refuted; see also C28, C35). Proved otherwise: constraints, if any, in line and on features that move one way, and, for 'total'/'local', at least one worthwhile change exists. C64_accepted_iff_partial gives the exact boundary for regular individuals, for any constraints and any order of the features.",
 "C65": "False of the code when everyone is approved (C54). Proved when at least one row is denied, for coefficients that are 0 or above 1e-8 and constraints, if any, as in C64. C65_audited_iff_partial gives the exact boundary for tables of regular individuals.",
 "C67": "False of the code when features are made actionable after creation (stale item limit). Refuted; proved whenever the limit is at least the current number of actionable features.",
 "C43": "False of the code: with Python-MIP a node limit outlives the call it was given to while the builder reports none; limits below 1 run with 0 nodes; a rejected call leaves the display flag as the reported node limit; nothing can be read before the first call. Refuted each; proved: time limits always, CPLEX node limits always, Python-MIP node limits while none was given since the assignment, rejection of non-positive limits.",
 "C56": "False of the code: the count of individuals without recourse is always printed as 0 (infinite costs are blanked first), every report raises NameError (plt) after the first group, duplicated index labels are multiplied. Refuted each; proved: size and desired-outcome count of the group that is reported, for unique indexes.",
 "C69": "False of the code: bounds read from a percentile-bounded feature are values but are assigned as percentiles; the flip direction of an unaligned set reads as nan, which is rejected. Refuted; proved for all other settable attributes, for absolute bounds and aligned features (relative steps at most 1, see C12).",
 "C70": "False of the code: printing a selection always fails an assertion, and repr raises TypeError when printing is switched off. df is proved in full; the printed table of a set with printing on is proved.",
 "C71": "False of the code: features that may only decrease are labelled 'only increases' (operator precedence) and every feature is shown as real (types compared with a string). Refuted; the exact content is proved, and that the mutability column is right exactly for the other features.",
 "C73": "False of the code: names are wrapped by textual replacement, so a name inside another name corrupts it, and an empty flipset raises AttributeError. Refuted; proved when no name occurs in another wrapped name.",
 "C74": "False of the code: an element with another name is accepted, after which the set reports a wrong list of names. Refuted; everything else is proved, and that replacing by an element of the same name gives a set covered by all other theorems.",
 "C75": "False of the code: without CPLEX the import raises NameError (cplex_helper uses names that were not imported). Refuted; proved that the package can be imported exactly when CPLEX is installed.",
 "C77": "False of the code: the auditor and the builder align the action set before they look at the solver or the individual. Refuted; proved that only the directions can differ, and nothing for a builder without an individual.",
 "C79": "False of the code: with the default parameters the streams are closed for good, and one quiet call silences all later ones. Refuted; the exact condition is proved.",
 "C80": "False of the code for four entries and for limits. Refuted; proved for all other entries, and that complete dictionaries are accepted and incomplete ones rejected.",
 "C82": "False of the code: bounds of binary variables are ignored, one-element lists raise TypeError, lists longer than one are accepted for one variable. Refuted; whatever is accepted is characterised.",
 "C83": "False of the code for parameters that were not at CPLEX's default. Refuted; the exact effect is proved.",
 "C84": "False of the code for the runtime of populated results, which is always 0. Refuted; proved for fit, and for everything else in the results of populate.",
 "C85": "False of the code for stopped runs without a solution (lowerbound inf) and for 'max' (epsilon terms of the objective). Refuted; proved for 'total' and 'local' whenever an action is returned or the solver finishes, and for 'max' up to one price difference.",
 "C86": "False of the code for 'max', where it is always larger. Refuted; equal for 'total' and 'local', and for 'max' within one price difference.",
 "C88": "False of the code: accepted wherever 'total' is. Refuted; proved that no action is ever returned for such a builder.",
 "C98": "False of the code: np.isclose's 1e-8 is finer than the integrality tolerances of the solvers. Refuted for tolerance 1e-6 (the same item forever; this theorem uses the standard library's classical axioms); proved for tolerances up to 1e-8.",
 "C99": "False of the code for 'total' and 'local': np.flatnonzero on indicators. Refuted for tolerance 1e-12 (uses the standard library's classical axioms); proved when the indicators are exactly 0 or 1, and for 'max'.",
 "C101": "False of the code: 0.07 * 100 exceeds 7 in binary64, so the step is 8. Refuted; proved that the grid is equidistant with a whole step at most one off (and exact for the default step: C100).",
 "C102": "False of the code: between 0 and 21 with the default step the grid has a point 21.21. Refuted; proved when the step is at least 2^-22 of the bounds: starts at lb, increases, each point within 1/16 step of its place, less than two steps beyond ub.",
 "C103": "False of the code: tiny densities are absorbed (equal percentiles), and interpolation between grid points can exceed the upper one. Refuted; proved that at grid points percentiles are in (0,1] and never decrease. C103_between_partial bounds the percentiles between grid points, C103_accurate_partial the error at grid points.",
 "C104": "False of the code next to the boundary. Refuted; proved that the score is off by at most a slack of about 2(n+1)2^-53 times the sum of magnitudes, and predictions further than that from the boundary are right.",
 "C105": "False of wider bounds (lowering the bound shifts the grid). Refuted; proved for every relaxation that drops no grid value (actionability, direction, constraints, bounds with absolute step keeping the lowest value), for builders and audits.",
 "C106": "False of individuals with nothing left to change: the audit reports no recourse, populate raises KeyError (cost types 'total' and 'local'). Refuted; proved whenever populate succeeds, for every individual and current percentiles: same verdict for all solvers and cost types, same cost for one stateless solver and cost type 'max'.",
 "C108": "False with constraints on two features that cannot help: the verdict changes with the hash seed. Refuted; proved (identical builders, audits, flipsets) if at most one constrained feature is useless on its own, in particular without constraints.",
 "C109": "False for individuals who already have the desired outcome by at most 1e-4 (AssertionError). Refuted; proved for everyone who lacks it, with an exact characterisation of when the check raises; no reported change is negligible.",
 "C110": "False of the message: it is shown for every flipset without items, also before populate. Refuted; proved for the message after a populate (as a certificate), and for the table in full.",
 "C115": "False of the code: p.threads.set.get() raises AttributeError for every CPLEX object (refuted). Should it return (a CPLEX offering the three misspelt paths), the entries are the values in force (C115_values_partial).",
 "C116": "False of the code: with a column that does not vary, var_ is 0 and the coefficient becomes inf or nan (StandardScaler itself divides by scale_ = 1); parse_classifier_args then rejects the classifier. Refuted for every such scaler; proved when all columns vary.",
 "C118": "False of the code for lists: actionable = [False] is accepted and makes the feature actionable. Exact acceptance and effect proved for all other values (an infinite absolute step size, which the code accepts, is not modelled).",
 "C119": "False of the code with constraints: they are applied to positions among the features that can act, so the verdict depends on the order of the columns. Proved for action sets without constraints (answers fully related), including creation from rearranged tables; with constraints in line in both orders: same verdict, and same cost for 'total' and 'local' (C119_constrained_partial).",
 "C97": "C97_max_cost: the 'max' objective; C97_no_recourse: the negative verdict for all actions.",
 "C121": "The exact property is false of the code (C121_verdict_refuted): MIP tolerances make audits call hopeless individuals feasible. C121_audit_partial says what every row means, C121_clear_cut_partial when the verdict is exact, C121_bounds that the error bounds exist.",
 "C122": "False of the code for every tolerance > 0 (C122_lost_refuted, C122_not_flipped_refuted: filed items are validated against the predicted label with no tolerance). C122_populate_partial: what holds of the first populate.",
 "C124": "False of the code (C124_fit_refuted, C124_populate_refuted): the program is built when the individual is assigned, and a populated flipset keeps it. Holds after the individual is assigned again, for audits and for a flipset's first populate (the _partial theorems). Missing: what bd_max, fixed at creation, does to feature counts (C67).",
 "C127": "The claim as stated is refuted (C127_second_refuted, every backend, cost type and enumeration type): the second flipset gets nothing. The theorems say what holds instead for flipsets for one individual; adding items by hand, other individuals assigned to the builder in between, and changed limits are left out.",
 "C129": "Refuted for the cost type 'max' (C129_max_refuted, both back ends). Proved for 'total' and 'local' under the hypotheses of C29 (denied, orderly, regular); for 'max' the cost and the sum of costs cannot both get worse.",
 "C130": "Refuted for costs of type 'max' (C130_max_refuted, both back ends). Proved: recourse is never lost (builders and audits), 'total' and 'local' costs never rise, under the hypotheses of C27/C29/C52.",
 "C131": "Refuted for y_desired=-1 at score exactly 0 (C131_exact_zero_refuted). Proved: an executed action leaves the row blank otherwise, whatever the solver; after part of it there is still recourse, and for 'total'/'local' the two costs add up to at most the first quote, under the hypotheses of C27/C29.",
 "C132": "Proved as stated, for the scores the property names (clearly on the wrong side; a score of exactly 0 with y_desired=-1 is C52/C131) and audits that return (when they do: C65).",
 "C133": "Refuted in full: a column that becomes whole-numbered gets another grid (C133_types_refuted), the absolute 1e-6 buffers make costs unit-dependent (C133_costs_refuted), weights below 1e-8 per new unit raise (C133_weights_refuted). Proved for real-valued columns: same permitted actions and scores, same verdicts of fits and audits (when both return), percentiles within 1e-6/mass + 1e-6/mass'. Missing: equality of costs, which is false.",
 "C134": "Refuted in full: whole numbers shifted by a fraction become real-valued and bounds are no longer rounded (C134_types_refuted), a rare 0/1 flag coded 1/2 makes creation raise (C134_flags_refuted), with limits on groups the value 0 is special (C134_limits_refuted). Proved for shifts that keep column types, sets without limits and percentile bounds: same actions, scores, costs; same results of fit, populate and audits from the same solver.",
 "C135": "Refuted in full: check_flag=None is rejected by action sets (C135_none_refuted), a builder rejected for its flag leaves the set aligned with its coefficients (C135_trace_refuted), an auditor accepts any print_flag at creation (C135_auditor_refuted), repr of an action set with print_flag=False raises TypeError (C135_shown_refuted). Proved: all accepted flags give the same objects, exceptions and limits.",
 "C136": "Refuted in two points: builder.x shows a rejected individual while fit answers for the one before (C136_shown_refuted), and Flipset accepts any vector at creation (C136_flipset_refuted). Proved: every entry point rejects (for flipsets: every populate), and rejected assignments influence no later result. Flipsets with a supplied builder are left out.",
 "C137": "Refuted with constraints (C137_fewer_refuted, the displacement of C34). Proved when constraints, if any, are in line in both questions, and from tables to answers without constraints; verdicts of audits, row by row; acceptance of the individual without constraints. Missing: equal cost for cost type 'max' (tie-breaking term, C30)."
}