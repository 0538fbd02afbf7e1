# Formal model of ustunb/actionable-recourse in Rocq (Coq 8.16.1)

## Approach

Shallow, executable Gallina model of `recourse/action_set.py`, `builder.py`, `flipset.py`,
`auditor.py`, `helper_functions.py`, `print_recourse_audit_report.py`, function by function, with
exceptions as values (`res A := Ok a | Err e`). Numbers are exact canonical rationals (`Qc`):
every finite IEEE double is such a rational, but float rounding is not modelled (except for C100-C104). External
components are parameters: the density estimate (`kde`), `np.log`, Python's set iteration order and
the MIP solver. A solver answer is only assumed *valid* for the MIP it was given.

## Plan per property

- **C01** Stored bounds are ordered and integral for integer features. BoundElement constructor over Qc; direct case analysis.
- **C02** Percentile bounds are real percentiles of the data. np.percentile (linear) on the sorted column; monotonicity by induction on the sorted list.
- **C03** Variable-type inference. _determine_variable_type as boolean folds; iff theorem.
- **C04** Shape of the action grid. update_grid/arange over Qc with Qceiling; arithmetic on ceil.
- **C05** Offered values stay inside the bounds. Expected false of the code (arange(start, stop+step, step) can overshoot): refute by witness, prove the exact condition under which it holds.
- **C06** Changing bounds or step takes effect. Expected false (setters do not call update_grid): refute; prove it for histories ending in update_grid.
- **C07** An action set can be built from any finite numeric table. Expected false (zero relative step on constant columns raises): refute; prove the positive part.
- **C08** Feasible values include the current value. Expected false for integer features at fractional x (np.insert casts): refute; prove otherwise.
- **C09** Feasible values are permitted values. feasible_values model; membership characterisation.
- **C10** No permitted value is omitted from the feasible values. same, converse direction, sortedness.
- **C11** Bound setters are independent. lb/ub setters re-create the bound element; case analysis on bound type.
- **C12** Step-size validity over histories. history over step_type/step_size: refute, and prove for histories that do not change the type.
- **C13** Percentiles are a proper, monotone scale. kde is an oracle (values -> density function or exception); cdf by cumsum, linear interpolation; induction over the grid.
- **C14** Percentiles follow the current grid. cache modelled as optional (grid, cdf) pair: refute, prove the uncached case.
- **C15** Flip directions always match model and desired outcome. state machine over alignment/y_desired operations; invariant for values +-1, refutation for value 0.
- **C16** Meaning of compatible. direct.
- **C17** Attribute assignment touches only what it names. setattr on element / slice / set over a dynamic value type pyval; induction over the selection.
- **C18** Boolean-list selection is a mask. getitem on bool lists: refute by witness and characterise what is selected.
- **C19** Failed bulk assignments leave the action set unchanged. bulk assignment returns the partially updated state with the exception: refute; prove for length mismatch.
- **C20** Unknown attributes are rejected. element __dict__ for unknown attributes: refute for single elements, prove rejection for slices.
- **C21** Constraint registry stays well-formed. registry state machine, invariant by induction over operation lists.
- **C22** Adding a constraint never destroys another. refute with a user-chosen id; prove for histories without user ids.
- **C23** Adding then removing a constraint is a round trip; failed calls change nothing. direct on the registry model.
- **C24** Classifier argument parsing. argument record with optional fields; case analysis.
- **C25** fit returns only permitted actions. MIP as data (variables, linear constraints, SOS sets, objective); a valid solver answer is any assignment satisfying it; decode to one grid choice per feature.
- **C26** fit attains the desired outcome. score constraint; the weak inequality gives y*score >= 0; strict version refuted at score 0.
- **C27** Infeasible is a certificate of no recourse. exchange argument: replace non-improving coordinates by 0; build the MIP assignment; contradiction with solver infeasibility.
- **C28** Recourse verdict does not depend on the density estimate. refute: a flat density deletes the actions needed.
- **C29** fit is cost-optimal for total and local costs. as C27 plus objective comparison.
- **C30** fit minimises the largest percentile shift for max cost. reported cost = max proved; optimality refuted; optimal up to one minimal cost step proved (partial).
- **C31** Size of the returned action. max_items/min_items rows.
- **C32** set_mip_item_limits enforces exactly the requested limits. model of the method with its two slips; refute; prove what still holds.
- **C33** The two solver backends pose the same problem. two build functions, equivalence of satisfaction and objective for every assignment.
- **C34** Subset-limit constraints are respected. refute by the index mix-up; prove for the case that all features up to the last constrained one can act. Exactly what is limited (any order): the rows count slots of the program, the slots are the participating features (`Spec_lineup.v`), and a choice of the program and an action correspond one to one.
- **C35** Individuals with nothing to change are reported, not crashed on. max: proved; local/total: refuted (KeyError).
- **C36** Mutually exclusive enumeration. enumeration invariant over the populate loop.
- **C37** Distinct-subset enumeration. same; binary-vector exclusion lemma; CPLEX variant refuted for multi-valued constrained features.
- **C38** Enumeration is in order of cost and locally optimal. feasible region shrinks; optimality of each step.
- **C39** Enumeration terminates and is exhaustive. counting argument on excluded subsets; fuel bound 2^n.
- **C40** Repeated populate calls never repeat themselves. induction over a list of populate calls.
- **C41** Results depend only on the current individual. x setter rebuilds the MIP: determinism theorem; refuted after a failing assignment.
- **C42** Reported infeasible only when certified. status mapping of both backends; refuted for Python-MIP stopped with incumbent.
- **C43** Limits apply per call. limit state machine; refuted for Python-MIP node limits.
- **C44** A flipset contains only prediction-flipping actions. accepts all flips proved; only-if refuted.
- **C45** populate for a denied individual always succeeds in filing its results. end-to-end theorem builder -> flipset.
- **C46** Flipset table rows describe their items. row construction; induction over additions.
- **C47** Flipset table is sorted. insertion sort by key; sortedness invariant.
- **C48** Flipset additions are all-or-nothing. direct.
- **C49** Audit output has one row per input row, in order. unique/inverse/reindex pipeline as list functions.
- **C50** Audit leaves already-approved rows blank. same.
- **C51** Audit treats equal individuals equally. same, plus solver determinism as a function.
- **C52** Audit verdicts are correct. composition of C49-C50 with C25-C27.
- **C53** Audit honours its y_desired argument. refuted by witness.
- **C54** Audit works when everyone is approved. refuted (KeyError from set_index on an empty frame).
- **C55** Builder verdicts refer to the builder's own classifier. refuted by witness for completeness; soundness proved.
- **C56** Audit report counts. refuted: inf is replaced by NaN before counting finite costs.
- **C57** Flat flipset table lists every change once. list model of explode/merge.
- **C58** Solver variable names never clash. string formatting injectivity via DecimalString.
- **C59** A one-element list is broadcast as its element. expand_values model; refuted for lists, proved for arrays.
- **C60** populate honours its cost_type. flipset history with a kept builder; refuted for mixed cost types, proved for one cost type.
- **C61** Flat table follows the table order. merge/sort pipeline; refuted, exact order proved after the first addition.
- **C62** A supplied builder answers for the flipset's individual. refuted; proved for the flipset's own builder.
- **C63** The flipped column is truthful. refuted; proved that the column is constantly True.
- **C64** Assigning an individual does not raise. totality of the whole build pipeline; the exact side conditions of _check_mip_build_info.
- **C65** Audits do not raise. lifting C64 over the audit loop.
- **C66** Audit results do not depend on the other rows or on earlier audits. same_problem simulation between auditors; induction over the audit loop.
- **C67** Verdicts follow edits of the action set. C27 with an edited shared action set; refuted for the stale item limit.
- **C68** Reading an attribute lists it feature by feature. getters as a function to dynamic values; mapM.
- **C69** Writing back what was read changes nothing. setter after getter, per attribute; refuted for percentile bounds.
- **C70** Summary and printed tables. column list; refuted for slices and with printing off.
- **C71** The LaTeX table of an action set is truthful. cells as a record; refuted, exact characterisation proved.
- **C72** Items of a flipset are keyed by feature. dict(zip ...) as a fold; flipset invariant.
- **C73** The LaTeX table of a flipset names each feature once. str.replace model; refuted, proved for non-overlapping names.
- **C74** Replacing a feature. list update; refuted for names; same-name replacement is part of every history (OReplace).
- **C75** The package works with either solver. module-level code as a function of what is installed; refuted.
- **C76** The requested solver is used. case analysis over dynamic values of solver.
- **C77** A failed creation leaves the action set unchanged. constructors as functions returning the action set also on failure; refuted, what differs is proved.
- **C78** Builder and flipset agree on scores. vectors; parse_classifier_args shared.
- **C79** display_flag shows the solver's progress. stream state of the Cplex object along histories of calls; refuted, exact condition by induction.
- **C80** cplex_parameters are in force. parameters as a finite map along histories; refuted for some entries.
- **C81** A copied Cplex object is a copy. get_changed/set as folds.
- **C82** add_variable_cpx adds the described variables. argument shapes as sums; refuted, success characterised.
- **C83** Preprocessing can be switched off and on again. map updates; refuted, exact effect proved.
- **C84** Results of fit and populate are consistent. the whole dictionary as a record; refuted for populated runtimes.
- **C85** The reported lower bound is one. solver reports as an oracle with correct bounds (`honest`); encoding of every action as a feasible point; refuted for stopped runs and 'max'.
- **C86** The reported upper bound is the cost. objective of the assignment; refuted for 'max', gap bounded.
- **C87** populate accepts exactly its documented arguments. dynamic values.
- **C88** Unknown cost types are rejected. build without objective; refuted, no action ever returned.
- **C89** Rescaling the classifier changes nothing. The two programs differ in the score row only; equivalent rows.
- **C90** Mirrored questions have mirrored answers. As C89, with negated rows.
- **C91** A more lenient classifier never hurts. Inclusion of feasible sets at equal objectives.
- **C92** Wider item limits never hurt. As C91.
- **C93** The answer does not depend on the solver. C91 in both directions.
- **C94** Enumerations can be resumed. Induction over the loop; a finishing solver repeats an infeasible verdict.
- **C95** Mutually exclusive enumerations are short. Disjoint sets of actionable features.
- **C96** Row order does not matter. Sorted lists of equal multisets are equal.
- **C97** Solver tolerances. Solvers right up to d (`solver_within`); a point met up to d is rounded to a choice, the errors are counted.
- **C98** Enumeration with tolerances. As C97, for the loop of populate; a solver that returns an indicator of 1e-7 refutes it.
- **C99** Costs with tolerances. As C97, for the reported costs; an indicator of 1e-12 refutes it.
- **C100** Whole grids. Floats as exact arithmetic followed by a rounding function (monotone, symmetric, idempotent, exact on integers up to 2^53, relative error 2^-53); update_grid in that arithmetic; proved equal to the exact grid. The concrete rounding `rnd64` is proved equal to the one the Flocq library defines.
- **C101** Relative steps. 0.07 of 0..100 refutes it (step 8 instead of 7); proved that the step is at most one off.
- **C102** Real grids. np.arange's length formula on 0..21 refutes it; error analysis of np.arange for the rest.
- **C103** Percentiles. np.cumsum and np.interp in the rounded arithmetic; an absorbed density refutes strictness; monotonicity of rounding gives the rest.
- **C104** Scores. Any tree of additions in any order, with or without fused multiply-adds: forward error bound (1+u)^(n+1)-1; 2^53+1-2^53 refutes the unrestricted claim.
- **C105** Relaxing an action set. Any action of the original is permitted and compliant in the relaxed one, so C25/C26/C34 for the first and C27/C52 for the second give monotonicity; refuted for lower bounds (0..10 vs -1..10 with step 4).
- **C106** Audit vs builder vs flipset. Verdicts through C52 and C45 (both equivalent to the existence of a permitted action that flips); costs by showing that the auditor's builder and a new one hold the same programme. Refuted by an individual with nothing to change.
- **C107** Repeated fit. Calls that hand out no item leave the programme unchanged (induction over histories), hence equal optimal values for any solver, equal items for stateless solvers.
- **C108** Hash seeds. Two environments that differ in `set_order` only; overwriting existing keys of a dictionary commutes, so the build information is equal (induction over permutations); refuted by a concrete action set and the reversed order.
- **C109** The builder's own check (builder.py 480-521) as a function from builder and answer to a list of warnings or an exception; every answer of a session of a denied individual gives no exception, by the invariants of C02-C07; exact iff for the exception.
- **C110** to_html up to markup: rows with labels, colours and cells, computed from the modelled flat table; invariant: every filed item changes something; adjacency argument on the sorted labels for the colours; refuted on a new flipset.
- **C111** The whole text of a report, including the tables of lines 59-65; the selected rows are collected by induction over the audited table, the median by counting in the sorted list.
- **C112** The ten solver queries as arbitrary answers or exceptions; case analysis.
- **C113** CPLEX's documented meaning of uppercutoff, objdifference and absmipgap as a specification of the runs; the factor 0.95 leaves room below the increment.
- **C114** List of starts; indices are 0..n-1.
- **C115** Attribute paths of the parameters; `threads.set.get()` asks a method for an attribute (refuted).
- **C116** The helper over Qc with IEEE inf/nan for divisions by zero; algebra on dot products. Expected false for constant columns (var_ = 0, where StandardScaler uses scale_ = 1).
- **C117** From the grids (only directions of the coefficients' signs) and optimality: a part of an answer's changes is a strictly cheaper choice, so it cannot be feasible.
- **C118** Case analysis on the dynamic value assigned. Expected false for lists: actionable = [False] makes the feature actionable, since bool of a non-empty list is True.
- **C119** Choices over the rearranged list of changeable features correspond to choices over the original one with the same gain, size, validity and cost; hence equal optima (lemma `related_gen`). Creation: per-column construction commutes with rearranging. Expected false with constraints, whose indices count changeable features only (see C34). With constraints in line in both orders: the carried-over answer meets the hypotheses of the C27/C29 theorems of the other order.
- **C120** Composition of the assignment theorems (C17) with the permitted-action theorem (C25) along arbitrary histories; the same for flipsets through C45.
- **C121** Refuted (a solver with tolerance 1e-6 calls someone feasible whom nothing helps). Prove what each row means up to explicit slacks (C97 through `set_x`/`fit` of the audit loop), and that verdicts are exact for individuals of whom no permitted action misses the side by less than the slack.
- **C122** Refuted twice (all items lost; an item that does not flip filed). Prove, for the first populate with tolerance at most 1e-8: it ends, items stand for permitted actions, all are filed or the stated reason for raising applies.
- **C123** Model a workspace (`Model_shared.v`): one action set, a list of objects, every step propagating the action set to all of them. Invariant over histories: each object is reachable in the single-object sense, by replaying other objects' effects on the action set as alignments by the caller. Frame theorems for calls elsewhere.
- **C124** Refuted (a builder with an individual, a flipset already populated: their program was built before the edit). Prove it for individuals assigned after the edit, for audits and for first populates, from C123 and C25/C26/C45/C52.
- **C125** Show that the build information, and with it the whole program, depends only on the features that take part and on the score (`Proofs_idle.v`); runs of builders holding the same program agree step by step (`Proofs_idle2.v`). Acceptance from C64's exact criterion.
- **C126** Compose C25/C26/C34/C36-C40/C45 through `fresh` (limits 0 and number of actionable features) into statements about one populate call; for ways with useless or harmful changes, show that dropping those changes leaves a cheaper way that the builder looks for (`trim` in `Proofs_list.v`).
- **C127** Model one builder with the flipsets created with it (`Model_pool.v`), all referring to it; show by induction over the calls that there is one enumeration of the builder of which each flipset holds its share, and carry over C25/C26/C36/C37/C39. Refute the English claim with two flipsets populated in turn.
- **C128** Characterise both passes of `feasible_grid` (comprehension over columns, then overwriting the constrained features) for arbitrary flags, and combine with C08-C10 for the values of one feature.
- **C129** The old answer is permitted, compliant and equally priced in the wider action set (C105), so optimality of the new answer (C29; C30 for 'max') bounds its cost; refute the claim for 'max' by a three-feature scenario.
- **C130** The old answer still flips the prediction under the more lenient intercept, so C27/C52 keep the verdict and C29/C30 bound the cost; refute the claim about 'max' costs by two intercepts for one three-feature scenario.
- **C131** C26 puts x + a on the desired side and C50 leaves such rows blank, except at score 0 with y_desired = -1 (refuted by a two-feature scenario); what remains of a partly executed action is permitted, compliant and priced as before, so C27 finds recourse and C29 bounds its cost.
- **C132** Such edits keep, feature by feature, the absence of a fitted interpolator and the type of the column (induction on the edits); so the provisos of C50, C52 and C27 hold for every individual like the data.
- **C133** Element construction, grids, percentile bounds and every unit-free edit commute with scaling a real-valued column by c > 0 (function by function), so the second set is the first one scaled; permitted actions and scores correspond, and C132 gives the verdicts; the percentile scales differ by at most 1e-6 over the density they rest on. Three concrete scenarios refute the rest (column type, costs, weights below 1e-8).
- **C134** Creation, percentile bounds, grids, alignment and every edit that mentions no position commute with translating a column (function by function), so the second set is the first one translated; offered actions, percentiles (for estimates that move along) and hence the MIPs are equal, so the same solver sees the same problems through fit, populate and a sequence of audits (sorting of rows commutes too). Three concrete scenarios refute the rest (column type twice, limits on groups).
- **C135** The constructors with their flags and internal checks (`Model_flags.v`) are proved to return what the constructors without them return, for all accepted flags; the checks are shown to hold of every object created. Rejected flags raise; four theorems refute the rest.
- **C136** `Model_finite.v` models what the constructors, the x setter, feasible_grid and populate do with vectors over floats including nan and infinities; rejection is proved for every position of the bad number, and by induction over histories that leaving out the rejected assignments changes no later state of the builder. Finite input is shown to be treated as in the rest of the model.
- **C137** `Spec_fewer.narrowed` relates a question to the one with a selection of its features. Permitted actions, their costs, sizes, scores and constraint counts are carried over in both directions (`Proofs_fewer.v`), and the exact verdict (C27) and optimality (C29) theorems do the rest; `Proofs_fewer2.v` goes from tables to builders. `Proofs_fewer6.v` carries C52's exact audit verdicts over (actions trimmed to the useful changes); `Proofs_fewer4.v` the acceptance test.

Constraints of the action set: the theorems on verdicts, optimality, enumeration, assignment and audits (C27-C30, C32,
C38, C39, C42, C52, C55, C64, C65, C67) cover action sets with constraints, provided these are *in line* (`orderly`,
`in_line`, `one_way` in `Spec_recourse.v`): every feature up to the last constrained one can be changed. Otherwise the
code applies constraints to the wrong features (C34). `constrained_case` in `Props_builder.v` is a concrete case.

## What is modelled, file by file

| code | model | specification |
|---|---|---|
| `action_set.py` `_BoundElement`, `_ActionElement`, `_determine_variable_type` | `Model_element.v` | `Spec_element.v` |
| `action_set.py` `ActionSet`, `_ActionSlice`, `_ActionConstraints`, `_expand_values`, `_check_variable_names` | `Model_actionset.v` | `Spec_actionset.v` |
| `helper_functions.py` | `Model_helpers.v` | in `Props_actionset.v` (C24) |
| CPLEX / Python-MIP interface as used by `builder.py` | `Model_mip.v` | (a feasible point of a MIP, optimality: definitions in the same file) |
| `builder.py` `RecourseBuilder`, `_RecourseBuilderCPX`, `_RecourseBuilderPyMIP` | `Model_builder.v` | `Spec_recourse.v` |
| `builder.py` limits, `cplex_helper.py:404-443` | `Model_limits.v` | `Spec_limits.v` |
| `defaults.py`, `__init__.py`, constructors of builders, auditors and flipset builders | `Model_backend.v` | `Spec_backend.v` |
| `cplex_helper.py` `copy_cplex`, `add_variable_cpx`, display options, parameters, preprocessing | `Model_cplex.v` | `Spec_cplex.v` |
| `cplex_helper.py` `get_cpx_parameters`, `set_mip_cutoff_values`, `get_stats_cpx`, `add_mip_start_cpx` | `Model_cplex2.v` | `Spec_cplex2.v` |
| `examples/paper/initialize.py` `undo_coefficient_scaling` | `Model_scaling.v` | `Spec_scaling.v` |
| parts of answers (C117), settings of features (C118), order of features (C119), settings and answers (C120; no new models) | | `Spec_minimal.v`, `Spec_settings.v`, `Spec_columns.v`, `Spec_lineup.v` (C34), `Spec_settable.v` (C64, C65) |
| `builder.py` result dictionaries, arguments of populate, unknown cost types | `Model_info.v` | `Spec_info.v` |
| comparisons of two questions (C89-C96; no new model) | | `Spec_compare.v` |
| several objects sharing one action set (C123, C124) | `Model_shared.v` | `Spec_shared.v` |
| flipsets sharing a ready-made builder (C127) | `Model_pool.v` (flipset.py 46, 173-177) | `Spec_pool.v` |
| allowing more at the same prices (C129) | (builder, action set) | `Spec_cheaper.v` |
| other intercepts (C130) | (builder, auditor) | `Spec_lenient.v` |
| nan and infinities in data (C136) | action_set.py, builder.py, flipset.py | `Model_finite.v`, `Spec_finite.v` |
| flags, internal checks (C135) | action_set.py, builder.py, auditor.py | `Model_flags.v`, `Spec_flags.v` |
| changes of zeros, edits without positions (C134) | action_set.py, builder.py, auditor.py | `Spec_origin.v` |
| changes of units, unit-free edits (C133) | action_set.py | `Spec_units.v` |
| action sets set up from data, individuals like the data (C132) | action_set.py, auditor.py | `Spec_setup.v` |
| what part of an action costs (C131) | (builder, auditor) | `Spec_steps.v` |
| what feasible_grid lists (C128) | (action set) | `Spec_grid.v` |
| the list a new flipset gets (C126) | (flipset) | `Spec_list.v` |
| features that play no role (C125) | (builder, auditor) | `Spec_idle.v` |
| solvers with tolerances (C97-C99, C121, C122; no new model) | | `Spec_tolerance.v` |
| update_grid 765-790, update_interpolator/percentile 801-821, builder.py score/prediction 195-205, in floating-point arithmetic (C100-C104) | `Model_float.v`, `Model_rounding.v` | `Spec_rounding.v` |
| `builder.py` names of variables and rows | `Model_names.v` | `Spec_names.v` |
| `flipset.py` | `Model_flipset.v` | `Spec_flipset.v` |
| `auditor.py` | `Model_audit.v` | `Spec_audit.v` |
| `action_set.py` getters, `df`, `tabulate_actions`, `texify_action_set`; `flipset.py` `items`, `actions`, `to_latex` | `Model_views.v` | `Spec_views.v` |
| `print_recourse_audit_report.py` | `Model_report.v` | `Spec_report.v` |

`Num.v` and `Py.v` hold the numpy and Python primitives (sorting, arange, cumsum, searchsorted, insert, isclose,
dict, list indexing, dynamic values, exceptions). `Proofs_*.v` are lemmas, `Props_*.v` hold the theorems, one
group per property, each with a non-vacuity `Example`.

### Not modelled

- Float rounding: outside C100-C104 all finite numbers are exact rationals. C100-C104 treat grids, percentiles and scores in rounded arithmetic (no overflow, no subnormals; the kernel density estimator and np.log stay oracles). NaN and infinities exist where users can pass them.
- scipy's gaussian_kde (an oracle: values -> exception or density function), np.log (oracle), the solver (any
  function from calls and programs to outcomes; *sound* and *finishing* are hypotheses where needed), Python's set
  order (oracle `set_order`), pandas' tie-breaking (oracle `sorter`, `order`).
- interp1d on a one-point grid is modelled as the constant; scipy's own special cases are not.
- `ActionSet.__setitem__` is part of the histories for elements of the same name only (C74 treats the others);
  `tqdm`, number formatting and layout of printed and LaTeX tables, and plots are not modelled.
- Builders with other cost-type strings beyond creation and the first fit (C88); string-valued columns; infinite absolute bounds; assignment over
  methods or private attributes (all marked `Unmodelled`).
- The builder's percentile queries fill interpolator caches; this is not recorded in the builder's action set,
  justified by `C14_answers_undisturbed` (filled caches change no answer); histories contain `OQuery` at any point, so the
  theorems also cover the states in which caches were filled and the grid recomputed afterwards.
- If creating a builder inside `Flipset.populate` fails, the alignment it may have done is recorded only in `Model_shared.v` (C123, C124). A flipset given a builder that is used elsewhere too (flipset.py:46) is not part of those histories; `Model_pool.v` has its own (C127).
- What a solver does with its limits and parameters.
- Columns of X named feasible/cost/y in the report; `np.float` (removed from newer numpy) in `Flipset.score`.
- `cplex_helper.py`: CPLEX's own range checks of parameter values; `debug.py`, examples (except `undo_coefficient_scaling`, C116).
- solver arguments that are numpy arrays.

## Trusted base

- Coq 8.16.1's kernel, and its vm (used for `vm_compute; reflexivity` on concrete witnesses).
- `Print Assumptions` of every theorem listed in MANIFEST.json prints *Closed under the global context* (no axiom), except
  for `C100_binary64` (Flocq's rounding is defined on the standard library's real numbers: `ClassicalDedekindReals.sig_not_dec`,
  `ClassicalDedekindReals.sig_forall_dec`, `FunctionalExtensionality.functional_extensionality_dep`, `Classical_Prop.classic`; Flocq itself adds no axiom)
  and for `C98_repeats_refuted`, `C99_slipped_costs_refuted`, `C121_verdict_refuted`, `C122_lost_refuted` and `C122_not_flipped_refuted`, which use the standard library's
  `Coq.Logic.ClassicalEpsilon.constructive_indefinite_description` and `Coq.Logic.Classical_Prop.classic` to construct a
  solver (`ideal_solver_exists` in `Proofs_solver.v`, `prefers` in `Proofs_tol6.v`). So does the non-vacuity
  `Example solvers_exist`; no other theorem depends on them. `Coq.ssr.ssrunder.*` is merely loaded with a library and not used.
- No axioms, parameters, section-less variables, admitted proofs, functors or module types of our own.
- The reading of the Python code as the Gallina model (each definition cites its lines).
- Oracle assumptions appear as hypotheses of the theorems that need them: `ok_env` (a set is iterated in some order,
  each element once), `density` (densities are non-negative), `is_log` (increasing on positive numbers, log 1 = 0), `sound_solver`, `finishing_solver`,
  `stateless`, `ok_sorter`, `ok_order`, `decides`, `ok_set`, `ok_maxima`, `honest` (the solver's reported bound is one), `solver_within` and `whole_indicators` (C97-C99, C121, C122), `rounding` (C100-C104; `rnd64` is proved to be one).

## Findings about the code

Each is a theorem (`..._refuted`, with the restricted claim that does hold next to it):
C05 grids pass ub; C06 setters do not recompute grids; C07 constant columns crash; C08/C27 fractional values of integer
features are truncated, and the feature is silently dropped from recourse; C12 step_type is not revalidated;
C14 stale interpolator; C15 y_desired = 0; C18 boolean lists; C19 partial bulk assignment; C20 silent unknown
attributes; C22 numeral ids overwrite; C26 score exactly 0; C28 vanishing density; C30 epsilon too large;
C32 set_mip_item_limits; C34 index mix-up of subset limits; C35 KeyError with nothing to change; C37 CPLEX exclusion by
nullifying indicators; C41 stale program after a failed assignment; C42 incumbents hidden by Python-MIP; C43 node limits
outlive calls; C44/C63 sign compared with raw score; C47, C61 sort order; C53 y_desired ignored by the audit; C54
KeyError when all are approved; C55 no realignment; C56 report counts and NameError; C60 cost_type ignored on reuse; C62
foreign builder; C64 tiny coefficients; C67 stale item limit; C69 percentile bounds do not
read back; C70 slices cannot be printed; C71 wrong mutability and types; C73 names inside names; C74 foreign names; C75 import without CPLEX;
C77 failed constructors realign; C79 no progress shown; C80 unused parameters; C82 binary bounds, lists; C83 custom preprocessing;
C84 runtime 0; C85, C86 bounds of 'max'; C88 unknown cost types accepted; C98 items repeated forever because
np.isclose's 1e-8 is finer than the solvers' integrality tolerances; C99 costs slip to other features;
C101 a relative step of 0.07 on 0..100 becomes 8 instead of 7; C102 grids of real features can have an extra point beyond the upper bound (0..21, default step: 21.21);
C38 a current value above the grid makes the listed action dearer than an acceptable one; C39, C52 a current value that an integer grid cannot represent loses all recourse; C40 the CPLEX back end can list the same set of features twice; C103 tiny densities are absorbed, two grid points get the same percentile, and the builder's check that costs are distinct then fails with AssertionError; C104 scores next to the boundary; C129 with 'max' costs, making a feature actionable can raise the reported cost; C130 so can a more lenient intercept; C131 with y_desired=-1 someone who followed the advice to a score of exactly 0 is still audited as denied; C134 zeros matter: whole numbers shifted by a half lose their last step, a rare flag coded 1/2 instead of 0/1 makes ActionSet raise, with limits on groups individuals must be able to reach 0; C135 ActionSet(check_flag=None) raises AssertionError, RecourseBuilder with a rejected flag still aligns the action set, RecourseAuditor accepts any print_flag; C137 leaving out a feature that is not actionable can change the verdict when constraints are present; C136 builder.x = [nan, ..] raises but builder.x then shows the rejected vector, Flipset(x = [nan, ..]) is created; C133 units of measure matter: in units about 10^7 times smaller the cheapest action changes another feature, 10^12 times smaller and the individual cannot be assigned at all (AssertionError); C105 lowering a lower bound can take recourse away, because the grid starts there; C106 for someone with nothing to change the audit reports no recourse where a flipset's populate raises KeyError; C108 with subset limits over features that cannot help, recourse exists or not depending on the hash seed of the Python process; C109 the builder's own check raises AssertionError on answers for individuals who already have the desired outcome by at most 1e-4; C110 to_html says 'No Recourse' for flipsets that were never populated; C115 get_cpx_parameters always raises AttributeError; C116 undo_coefficient_scaling gives inf/nan for constant columns; C118 actionable = [False] makes a feature actionable; C119 with constraints the verdict depends on the order of the columns; C121 audits call individuals feasible whom nothing helps, within the solver's tolerance; C122 with any tolerance flipsets lose all items, or file items that do not change the prediction; C124 a feature made non-actionable is still changed by a builder that already has an individual, and by a flipset that has been populated; C127 two flipsets given the same builder: the first populate takes all items, the second gets none.
