(** Property theorems for the recourse builder: C25-C42.  Vocabulary: Spec_recourse.v.
    [assigned E sv b x b0]: builder [b] has an arbitrary history (creation, assignments, solver calls, limit
    changes, changes of the shared action set, all with environment [E] and solver [sv]) and assigning [x] to it
    succeeds, giving [b0].  [session sv b0 l b1]: any sequence of fit/populate calls after that, [l] is everything
    they return. *)
From Verif Require Import Spec_recourse Proofs_concrete Proofs_solver Proofs_builder Proofs_builder2 Proofs_builder3 Proofs_builder4 Proofs_builder5 Proofs_scen Proofs_scen2 Proofs_builder6 Proofs_builder7 Proofs_builder8 Proofs_constrained Proofs_pareto Proofs_setters Proofs_settled.
#[local] Open Scope string_scope.
#[local] Open Scope list_scope.
#[local] Open Scope Qc_scope.

(** * The assumptions can be met *)
(** There is a sound solver that finishes; [env0] is a lawful environment. *)
Example solvers_exist : exists sv, sound_solver sv /\ finishing_solver sv.
Proof. exact ideal_solver_exists. Qed.
Example environments_exist : ok_env env0 /\ density env0 /\ is_log env0.
Proof. exact (conj env0_ok (conj env0_density env0_log)). Qed.
(** For both back ends and all cost types: a builder, an individual (0,1) with score -2, actions reaching the
    desired side, all features offered, strictly increasing percentiles. *)
Example regular_case : forall k ct, exists b b0, (forall sv, assigned env0 sv b [z 0; z 1] b0) /\
  plain_setup env0 b [z 0; z 1] /\ regular env0 (bd_A b) [z 0; z 1] /\ fits_grids (bd_A b) [z 0; z 1] /\ all_offered (bd_A b) [z 0; z 1] /\
  bd_kind b = k /\ bd_cost b = ct /\ n_actionable b = Z.of_nat (as_len (bd_A b)) /\
  acceptable b [z 0; z 1] [z 2; z 0] /\ acceptable b [z 0; z 1] [z 3; z 2] /\
  forall sv, sound_solver sv -> finishing_solver sv -> exists b1 s, fit sv b0 = Ok (b1, Some s).
Proof. exact regular_case. Qed.
(** The same with an intercept that leaves no recourse. *)
Example hopeless_case : forall k ct, exists b b0, (forall sv, assigned env0 sv b [z 0; z 1] b0) /\
  plain_setup env0 b [z 0; z 1] /\ regular env0 (bd_A b) [z 0; z 1] /\ fits_grids (bd_A b) [z 0; z 1] /\ bd_kind b = k /\ bd_cost b = ct /\
  forall sv, sound_solver sv -> finishing_solver sv -> exists b1, fit sv b0 = Ok (b1, None).
Proof. exact hopeless_case. Qed.

(** A case under a constraint: at most one of two indicators; the first one is on and the way to the desired
    outcome is to switch it off although that alone lowers the score.  The cheaper action is not compliant. *)
Example constrained_case : forall k ct, exists b b0, (forall sv, assigned env0 sv b x100 b0) /\
  (exists c, stored (as_cons (bd_A b)) "one" c /\ c_indices c = [0; 1]%nat /\ c_lb c = 0%Z /\ c_ub c = 1%Z) /\
  good_setup env0 b x100 /\ regular env0 (bd_A b) x100 /\ fits_grids (bd_A b) x100 /\ switches_off env0 (bd_A b) x100 /\ one_way (bd_A b) x100 /\
  bd_kind b = k /\ bd_cost b = ct /\
  acceptable b x100 [- z 1; z 1; z 1] /\
  (permitted_action (bd_A b) x100 [z 0; z 1; z 0] /\ on_side (as_y (bd_A b)) (score (bd_w b) (bd_t b) (vadd x100 [z 0; z 1; z 0])) /\ ~ compliant (bd_A b) x100 [z 0; z 1; z 0]) /\
  forall sv, sound_solver sv -> finishing_solver sv -> exists b1 s, fit sv b0 = Ok (b1, Some s) /\ s_actions s = [- z 1; z 1; z 1].
Proof. exact constrained_case. Qed.

(** * C25 *)
Theorem C25_only_permitted_actions : forall E sv b x b0 l b1 s,
  ok_env E -> sound_solver sv -> assigned E sv b x b0 -> session sv b0 l b1 -> In s l ->
  permitted_action (bd_A b) x (s_actions s).
Proof. exact c25_thm. Qed.
Print Assumptions C25_only_permitted_actions.

(** * C26: the score constraint is not strict; the boundary counts as reached. *)
Theorem C26_attains_outcome_refuted : exists b b0 x, (forall sv, assigned env0 sv b x b0) /\ as_y (bd_A b) = 1%Z /\
  forall sv, sound_solver sv -> finishing_solver sv ->
  exists b1 s, fit sv b0 = Ok (b1, Some s) /\ ~ attains 1 (score (bd_w b) (bd_t b) (vadd x (s_actions s))).
Proof. exact c26_refuted. Qed.
Print Assumptions C26_attains_outcome_refuted.
Theorem C26_reaches_desired_side_partial : forall E sv b x b0 l b1 s,
  ok_env E -> sound_solver sv -> assigned E sv b x b0 -> session sv b0 l b1 -> In s l ->
  on_side (as_y (bd_A b)) (score (bd_w b) (bd_t b) (vadd x (s_actions s))).
Proof. exact c26_thm. Qed.
Print Assumptions C26_reaches_desired_side_partial.

(** * C27: false of the code for a current value that an integer grid cannot represent. *)
Theorem C27_no_recourse_certificate_refuted : exists b b0 x a, (forall sv, assigned env0 sv b x b0) /\ plain_setup env0 b x /\
  permitted_action (bd_A b) x a /\ (Z.of_nat (n_changed a) <= bd_max b)%Z /\ on_side (as_y (bd_A b)) (score (bd_w b) (bd_t b) (vadd x a)) /\
  forall sv, sound_solver sv -> finishing_solver sv -> exists b1, fit sv b0 = Ok (b1, None).
Proof. exact c27_skip. Qed.
Print Assumptions C27_no_recourse_certificate_refuted.
(** For every individual, infeasible certifies that nothing helps that leaves such features alone ([movable_only]).  Missing: actions that change
    them (false, above). *)
Theorem C27_no_recourse_certificate_partial : forall E sv b x b0 b1 a,
  ok_env E -> sound_solver sv -> finishing_solver sv -> density E -> log_ok E (bd_cost b) -> assigned E sv b x b0 ->
  good_setup E b x ->
  fit sv b0 = Ok (b1, None) -> permitted_action (bd_A b) x a -> movable_only (bd_A b) x a -> (Z.of_nat (n_changed a) <= bd_max b)%Z -> compliant (bd_A b) x a ->
  ~ on_side (as_y (bd_A b)) (score (bd_w b) (bd_t b) (vadd x a)).
Proof. exact c27_thm. Qed.
Print Assumptions C27_no_recourse_certificate_partial.
(** A newly created builder: the verdict of fit is exact, in terms of the action set and the classifier the
    caller supplied, with no further assumptions on limits or alignment. *)
Theorem C27_new_builder_verdict_partial : forall E sv k A args ct w t x b0,
  ok_env E -> sound_solver sv -> finishing_solver sv -> density E -> log_ok E ct ->
  aset_reachable E A -> parse_classifier_args args = Ok (w, t) -> mk_builder E k A args ct (Some x) = Ok b0 ->
  orderly E A w x -> (alignment_known A = false \/ flips_match A w) -> current_percentiles A ->
  denied (as_y A) (score w t x) ->
  exists b1 r, fit sv b0 = Ok (b1, r) /\
    match r with
    | Some s => permitted_action A x (s_actions s) /\ movable_only A x (s_actions s) /\ on_side (as_y A) (score w t (vadd x (s_actions s))) /\ compliant A x (s_actions s)
    | None => forall a, permitted_action A x a -> movable_only A x a -> compliant A x a -> ~ on_side (as_y A) (score w t (vadd x a))
    end.
Proof. exact fresh_verdict. Qed.
Print Assumptions C27_new_builder_verdict_partial.

(** * C28: false of the code: with a density that vanishes on the grid the individual cannot even be assigned. *)
Theorem C28_density_independence_refuted : exists E1 E2 b b0 x, ok_env E1 /\ ok_env E2 /\ density E1 /\ density E2 /\ plain_setup E1 b x /\
  (forall sv, assigned E1 sv b x b0) /\ (forall sv, sound_solver sv -> finishing_solver sv -> exists b1 s, fit sv b0 = Ok (b1, Some s)) /\
  (forall sv, builder_reachable E2 sv b) /\ snd (set_x E2 b x) = Err ValueError.
Proof. exact c28_flat. Qed.
Print Assumptions C28_density_independence_refuted.
Theorem C28_density_independence_partial : forall E1 E2 sv1 sv2 b x b1 b2,
  ok_env E1 -> ok_env E2 -> sound_solver sv1 -> sound_solver sv2 -> finishing_solver sv1 -> finishing_solver sv2 ->
  density E1 -> density E2 -> log_ok E1 (bd_cost b) -> log_ok E2 (bd_cost b) ->
  assigned E1 sv1 b x b1 -> assigned E2 sv2 b x b2 -> good_setup E1 b x -> good_setup E2 b x ->
  exists c1 r1 c2 r2, fit sv1 b1 = Ok (c1, r1) /\ fit sv2 b2 = Ok (c2, r2) /\ (r1 = None <-> r2 = None).
Proof. exact c28_thm. Qed.
Print Assumptions C28_density_independence_partial.

(** * C29: optimality is false of the code outside the grid, where percentile shifts can have the wrong sign. *)
Theorem C29_cost_optimal_refuted : exists b b0 x a cs, (forall sv, assigned env0 sv b x b0) /\ plain_setup env0 b x /\ resolvable (bd_A b) x /\ bd_cost b = CTotal /\
  permitted_action (bd_A b) x a /\ (Z.of_nat (n_changed a) <= bd_max b)%Z /\ on_side (as_y (bd_A b)) (score (bd_w b) (bd_t b) (vadd x a)) /\
  action_costs env0 CTotal (bd_A b) x a cs /\
  forall sv, sound_solver sv -> finishing_solver sv -> exists b1 s, fit sv b0 = Ok (b1, Some s) /\ qsum cs < s_cost s.
Proof. exact c29_outside. Qed.
Print Assumptions C29_cost_optimal_refuted.
Theorem C29_reported_costs : forall E sv b x b0 l b1 s,
  ok_env E -> sound_solver sv -> assigned E sv b x b0 -> bd_cost b <> CMax -> session sv b0 l b1 -> In s l ->
  action_costs E (bd_cost b) (bd_A b) x (s_actions s) (s_costs s) /\ s_cost s = qsum (s_costs s).
Proof. exact c29_costs. Qed.
Print Assumptions C29_reported_costs.
Theorem C29_cost_optimal_partial : forall E sv b x b0 b1 s a cs,
  ok_env E -> sound_solver sv -> finishing_solver sv -> density E -> log_ok E (bd_cost b) -> assigned E sv b x b0 ->
  good_setup E b x -> regular E (bd_A b) x -> bd_cost b <> CMax ->
  fit sv b0 = Ok (b1, Some s) -> permitted_action (bd_A b) x a -> (Z.of_nat (n_changed a) <= bd_max b)%Z ->
  on_side (as_y (bd_A b)) (score (bd_w b) (bd_t b) (vadd x a)) -> compliant (bd_A b) x a ->
  action_costs E (bd_cost b) (bd_A b) x a cs -> s_cost s <= qsum cs.
Proof. exact c29_thm. Qed.
Print Assumptions C29_cost_optimal_partial.

(** * C30: the tie-breaking term distorts the minimum; optimal up to one price difference. *)
Theorem C30_max_cost_refuted : exists E b b0 x a cs m, ok_env E /\ density E /\ (forall sv, assigned E sv b x b0) /\ plain_setup E b x /\ regular E (bd_A b) x /\ bd_cost b = CMax /\
  permitted_action (bd_A b) x a /\ (Z.of_nat (n_changed a) <= bd_max b)%Z /\ on_side (as_y (bd_A b)) (score (bd_w b) (bd_t b) (vadd x a)) /\
  action_costs E CMax (bd_A b) x a cs /\ largest cs m /\
  forall sv, sound_solver sv -> finishing_solver sv -> exists b1 s, fit sv b0 = Ok (b1, Some s) /\ m < s_cost s.
Proof. exact c30_refuted. Qed.
Print Assumptions C30_max_cost_refuted.
Theorem C30_reported_cost : forall E sv b x b0 l b1 s,
  ok_env E -> sound_solver sv -> finishing_solver sv -> assigned E sv b x b0 -> bd_cost b = CMax -> session sv b0 l b1 -> In s l ->
  action_costs E (bd_cost b) (bd_A b) x (s_actions s) (s_costs s) /\ largest (s_costs s) (s_cost s).
Proof. exact c30_costs. Qed.
Print Assumptions C30_reported_cost.
(** The excess is smaller than the difference of the prices of any two changes offered for one feature. *)
Theorem C30_max_cost_partial : forall E sv b x b0 b1 s a cs m j e xj u v c c',
  ok_env E -> sound_solver sv -> finishing_solver sv -> density E -> log_ok E (bd_cost b) -> assigned E sv b x b0 ->
  good_setup E b x -> regular E (bd_A b) x -> bd_cost b = CMax ->
  fit sv b0 = Ok (b1, Some s) -> permitted_action (bd_A b) x a -> (Z.of_nat (n_changed a) <= bd_max b)%Z ->
  on_side (as_y (bd_A b)) (score (bd_w b) (bd_t b) (vadd x a)) -> compliant (bd_A b) x a ->
  action_costs E (bd_cost b) (bd_A b) x a cs -> largest cs m ->
  nth_error (as_elems (bd_A b)) j = Some e -> nth_error x j = Some xj -> (exists wj, nth_error (bd_w b) j = Some wj /\ wj <> 0) ->
  permitted e xj u -> improving e xj u -> permitted e xj v -> improving e xj v ->
  move_cost E (bd_cost b) e xj u c -> move_cost E (bd_cost b) e xj v c' -> c < c' ->
  s_cost s < m + (c' - c).
Proof. exact c30_thm. Qed.
Print Assumptions C30_max_cost_partial.
(** What is minimised: the largest cost plus a small multiple of the sum of all costs. *)
Theorem C30_minimised_partial : forall E sv b x b0, ok_env E -> sound_solver sv -> finishing_solver sv -> density E -> log_ok E (bd_cost b) -> assigned E sv b x b0 ->
  good_setup E b x -> regular E (bd_A b) x -> bd_cost b = CMax ->
  exists eps, 0 < eps /\ forall b1 s a cs m, fit sv b0 = Ok (b1, Some s) -> permitted_action (bd_A b) x a -> (Z.of_nat (n_changed a) <= bd_max b)%Z ->
    on_side (as_y (bd_A b)) (score (bd_w b) (bd_t b) (vadd x a)) -> compliant (bd_A b) x a ->
    action_costs E (bd_cost b) (bd_A b) x a cs -> largest cs m ->
    s_cost s + eps * qsum (s_costs s) <= m + eps * qsum cs.
Proof. exact c30_pareto. Qed.
Print Assumptions C30_minimised_partial.
(** So no acceptable action is better in the largest cost and no worse in the sum, or the other way round. *)
Theorem C30_undominated_partial : forall E sv b x b0 b1 s a cs m, ok_env E -> sound_solver sv -> finishing_solver sv -> density E -> log_ok E (bd_cost b) -> assigned E sv b x b0 ->
  good_setup E b x -> regular E (bd_A b) x -> bd_cost b = CMax ->
  fit sv b0 = Ok (b1, Some s) -> permitted_action (bd_A b) x a -> (Z.of_nat (n_changed a) <= bd_max b)%Z ->
  on_side (as_y (bd_A b)) (score (bd_w b) (bd_t b) (vadd x a)) -> compliant (bd_A b) x a ->
  action_costs E (bd_cost b) (bd_A b) x a cs -> largest cs m ->
  (m <= s_cost s -> qsum (s_costs s) <= qsum cs) /\ (qsum cs <= qsum (s_costs s) -> s_cost s <= m).
Proof. exact c30_undominated. Qed.
Print Assumptions C30_undominated_partial.

(** * C31 *)
Theorem C31_size_and_positive_cost : forall E sv b x b0 l b1 s,
  ok_env E -> sound_solver sv -> assigned E sv b x b0 -> session sv b0 l b1 -> In s l ->
  (1 <= n_changed (s_actions s))%nat /\ (bd_min b <= Z.of_nat (n_changed (s_actions s)) <= bd_max b)%Z /\ 0 < s_cost s.
Proof. exact c31_thm. Qed.
Print Assumptions C31_size_and_positive_cost.

(** * C32: set_mip_item_limits gives the row "max_items" the value meant for "min_items". *)
Theorem C32_item_limits_refuted : exists b b0 x a, (forall sv, assigned env0 sv b x b0) /\ plain_setup env0 b x /\ all_offered (bd_A b) x /\
  permitted_action (bd_A b) x a /\ size_between 1 2 a /\ on_side (as_y (bd_A b)) (score (bd_w b) (bd_t b) (vadd x a)) /\
  let '(b1, r) := set_mip_item_limits b0 (Some 1%Z) (Some 2%Z) in
  r = Ok tt /\ bd_min b1 = 1%Z /\ bd_max b1 = 2%Z /\
  forall sv, sound_solver sv -> finishing_solver sv -> exists b2, fit sv b1 = Ok (b2, None).
Proof. exact c32_slip. Qed.
Print Assumptions C32_item_limits_refuted.
(** Changing only the minimum works as documented. *)
Theorem C32_minimum_only_partial : forall E sv b x b0 lo,
  ok_env E -> sound_solver sv -> assigned E sv b x b0 -> (1 <= lo <= bd_max b)%Z -> lo <> bd_min b ->
  all_offered (bd_A b) x -> n_actionable b = Z.of_nat (as_len (bd_A b)) ->
  exists b1, set_mip_item_limits b0 (Some lo) (Some (bd_max b)) = (b1, Ok tt) /\ bd_min b1 = lo /\ bd_max b1 = bd_max b /\
    (forall l b2 s, session sv b1 l b2 -> In s l -> size_between lo (bd_max b) (s_actions s)) /\
    (finishing_solver sv -> density E -> log_ok E (bd_cost b) -> orderly E (bd_A b) (bd_w b) x -> flips_match (bd_A b) (bd_w b) -> regular E (bd_A b) x ->
     exists b2 r, fit sv b1 = Ok (b2, r) /\
      (r = None <-> ~ exists a, permitted_action (bd_A b) x a /\ worthwhile (bd_A b) (bd_w b) a /\ size_between lo (bd_max b) a /\
                                on_side (as_y (bd_A b)) (score (bd_w b) (bd_t b) (vadd x a)) /\ compliant (bd_A b) x a)).
Proof. exact c32_min_user. Qed.
Print Assumptions C32_minimum_only_partial.
(** Changing both enforces "exactly lo" instead. *)
Theorem C32_both_limits_enforce_lower_partial : forall E sv b x b0 lo hi b1,
  ok_env E -> sound_solver sv -> assigned E sv b x b0 -> (1 <= lo <= hi)%Z -> lo <> bd_min b -> hi <> bd_max b ->
  all_offered (bd_A b) x -> n_actionable b = Z.of_nat (as_len (bd_A b)) -> (lo <= n_actionable b)%Z ->
  set_mip_item_limits b0 (Some lo) (Some hi) = (b1, Ok tt) ->
  forall b2 s, fit sv b1 = Ok (b2, Some s) -> Z.of_nat (n_changed (s_actions s)) = lo.
Proof. exact c32_both_user. Qed.
Print Assumptions C32_both_limits_enforce_lower_partial.
(** Giving one limit does nothing; changing only the maximum raises. *)
Theorem C32_one_limit_ignored_partial : forall b k,
  set_mip_item_limits b None k = (b, Ok tt) /\ set_mip_item_limits b k None = (b, Ok tt).
Proof. exact c32_one_limit. Qed.
Print Assumptions C32_one_limit_ignored_partial.
Theorem C32_only_maximum_raises_partial : forall b hi, (bd_min b <= hi)%Z -> hi <> bd_max b ->
  set_mip_item_limits b (Some (bd_min b)) (Some hi) = (b, Err UnboundLocalError).
Proof. exact c32_only_max. Qed.
Print Assumptions C32_only_maximum_raises_partial.
(** The attributes report what was set - capped by the number of actionable features - and have no effect on the individual already assigned:
    whatever the solver, fit and populate answer the same. *)
Theorem C32_min_attribute_partial : forall b k, (forall b', set_min_items b k = Ok b' -> bd_min b' = match k with None => 0%Z | Some k => k end /\ bd_max b' = bd_max b /\
    (forall sv r, (exists b1, fit sv b = Ok (b1, r)) <-> (exists b1, fit sv b' = Ok (b1, r))) /\
    (forall sv fuel total et l, (exists b1, populate sv fuel total et b = Some (Ok (b1, l))) <-> (exists b1, populate sv fuel total et b' = Some (Ok (b1, l))))) /\
  ((exists e, set_min_items b k = Err e) <-> exists m, k = Some m /\ (m < 0)%Z).
Proof. exact min_setter. Qed.
Print Assumptions C32_min_attribute_partial.
Theorem C32_max_attribute_partial : forall b k, (forall b', set_max_items b k = Ok b' -> bd_max b' = match k with None => n_actionable b | Some k => Z.min k (n_actionable b) end /\ bd_min b' = bd_min b /\
    (forall sv r, (exists b1, fit sv b = Ok (b1, r)) <-> (exists b1, fit sv b' = Ok (b1, r))) /\
    (forall sv fuel total et l, (exists b1, populate sv fuel total et b = Some (Ok (b1, l))) <-> (exists b1, populate sv fuel total et b' = Some (Ok (b1, l))))) /\
  ((exists e, set_max_items b k = Err e) <-> exists m, k = Some m /\ (m < 0)%Z).
Proof. exact max_setter. Qed.
Print Assumptions C32_max_attribute_partial.
(** Limits set before x is assigned are enforced in both directions (see also C31). *)
Theorem C32_limits_before_assignment_partial : forall E sv b x b0 b1 r,
  ok_env E -> sound_solver sv -> finishing_solver sv -> density E -> log_ok E (bd_cost b) -> assigned E sv b x b0 ->
  orderly E (bd_A b) (bd_w b) x -> flips_match (bd_A b) (bd_w b) -> regular E (bd_A b) x ->
  fit sv b0 = Ok (b1, r) ->
  (r <> None <-> exists a, acceptable b x a).
Proof. exact c32_before. Qed.
Print Assumptions C32_limits_before_assignment_partial.

(** * C33 *)
Theorem C33_same_program : forall E b x,
  let '(b1, r1) := set_x E (on_kind CPX b) x in let '(b2, r2) := set_x E (on_kind PyMIP b) x in
  r1 = r2 /\ (r1 = Ok tt -> exists m1 m2, bd_mip b1 = Some m1 /\ bd_mip b2 = Some m2 /\ same_mip (ms_mip m1) (ms_mip m2)).
Proof. exact c33_thm. Qed.
Print Assumptions C33_same_program.
Theorem C33_same_verdict_and_cost : forall E sv sv' b x b1 b2,
  ok_env E -> sound_solver sv -> finishing_solver sv -> sound_solver sv' -> finishing_solver sv' ->
  assigned E sv (on_kind CPX b) x b1 -> assigned E sv' (on_kind PyMIP b) x b2 ->
  exists c1 r1 c2 r2, fit sv b1 = Ok (c1, r1) /\ fit sv' b2 = Ok (c2, r2) /\ (r1 = None <-> r2 = None) /\
    (bd_cost b <> CMax -> option_map s_cost r1 = option_map s_cost r2).
Proof. exact c33_cost. Qed.
Print Assumptions C33_same_verdict_and_cost.
Theorem C33_creation_agrees : forall E A a ct x,
  match mk_builder E CPX A a ct x, mk_builder E PyMIP A a ct x with
  | Ok b1, Ok b2 => same_problem b1 (on_kind CPX b2) /\ forall m1, bd_mip b1 = Some m1 -> exists m2, bd_mip b2 = Some m2 /\ same_mip (ms_mip m1) (ms_mip m2)
  | Err e1, Err e2 => e1 = e2
  | _, _ => False end.
Proof. exact c33_create_thm. Qed.
Print Assumptions C33_creation_agrees.
Example C33_nonvacuous : exists b x, forall k, exists b1, set_x env0 (on_kind k b) x = (b1, Ok tt).
Proof. exact c33_case. Qed.

(** * C34: constraints are applied to the wrong features when an earlier feature cannot act. *)
Theorem C34_subset_limits_refuted : exists b b0 x c, (forall sv, assigned env0 sv b x b0) /\ Forall (fun v => v = 0) x /\
  stored (as_cons (bd_A b)) "one" c /\ c_indices c = [1; 2]%nat /\ c_ub c = 1%Z /\
  forall sv, sound_solver sv -> finishing_solver sv -> exists b1 s, fit sv b0 = Ok (b1, Some s) /\ n_on (vadd x (s_actions s)) (c_indices c) = 2%nat.
Proof. exact c34_mixup. Qed.
Print Assumptions C34_subset_limits_refuted.
Theorem C34_subset_limits_partial : forall E sv b x b0 l b1 s id c,
  ok_env E -> sound_solver sv -> assigned E sv b x b0 -> all_offered (bd_A b) x -> session sv b0 l b1 -> In s l ->
  stored (as_cons (bd_A b)) id c -> (forall j xj, In j (c_indices c) -> nth_error x j = Some xj -> 0 <= xj) ->
  (c_lb c <= Z.of_nat (n_on (vadd x (s_actions s)) (c_indices c)) <= c_ub c)%Z.
Proof. exact c34_thm. Qed.
Print Assumptions C34_subset_limits_partial.
(** It is enough that every feature up to the last constrained one can be changed. *)
Theorem C34_constraints_in_line_partial : forall E sv b x b0 l b1 s,
  ok_env E -> sound_solver sv -> assigned E sv b x b0 -> in_line (bd_A b) (bd_w b) x -> flips_match (bd_A b) (bd_w b) ->
  (forall j xj, constrained_at (bd_A b) j -> nth_error x j = Some xj -> 0 <= xj) ->
  session sv b0 l b1 -> In s l -> compliant (bd_A b) x (s_actions s).
Proof. exact c34_line_thm. Qed.
Print Assumptions C34_constraints_in_line_partial.
(** Hypotheses met: three 0/1 features, at most one of the first two; the cheapest compliant action is forced. *)
Example C34_nonvacuous : exists b b0 c, (forall sv, assigned env0 sv b [z 0; z 0; z 0] b0) /\ all_offered (bd_A b) [z 0; z 0; z 0] /\ stored (as_cons (bd_A b)) "one" c /\ c_ub c = 1%Z /\
  (forall sv, sound_solver sv -> finishing_solver sv -> exists b1 s, fit sv b0 = Ok (b1, Some s) /\ n_on (vadd [z 0; z 0; z 0] (s_actions s)) (c_indices c) = 1%nat).
Proof. exact c34_case. Qed.

(** * C35: KeyError for 'total' and 'local'; works for 'max'. *)
Theorem C35_nothing_to_change_refuted : exists b x, (forall sv, builder_reachable env0 sv b) /\ bd_cost b = CTotal /\ length x = as_len (bd_A b) /\ nothing_to_change (bd_A b) x /\
  unconstrained (bd_A b) /\ snd (set_x env0 b x) = Err KeyError.
Proof. exact c35_keyerror. Qed.
Print Assumptions C35_nothing_to_change_refuted.
(** In fact never without an exception for 'total' and 'local'. *)
Theorem C35_nothing_to_change_raises_partial : forall E sv b x, ok_env E -> builder_reachable E sv b -> bd_cost b <> CMax ->
  nothing_to_change (bd_A b) x -> snd (set_x E b x) <> Ok tt.
Proof. exact c35_raises. Qed.
Print Assumptions C35_nothing_to_change_raises_partial.
Theorem C35_nothing_to_change_max_partial : forall E sv b x, ok_env E -> sound_solver sv -> builder_reachable E sv b -> bd_cost b = CMax -> unconstrained (bd_A b) ->
  length x = length (bd_w b) -> alignment_known (bd_A b) = true -> answers E (bd_A b) -> nothing_to_change (bd_A b) x ->
  exists b0 b1, set_x E b x = (b0, Ok tt) /\ fit sv b0 = Ok (b1, None) /\
    forall fuel total et, total <> Some 0%nat -> exists b2, populate sv (S fuel) total et b0 = Some (Ok (b2, [])).
Proof. exact c35_thm. Qed.
Print Assumptions C35_nothing_to_change_max_partial.
Example C35_nonvacuous : exists b x, (forall sv, builder_reachable env0 sv b) /\ bd_cost b = CMax /\ unconstrained (bd_A b) /\ length x = length (bd_w b) /\
  alignment_known (bd_A b) = true /\ answers env0 (bd_A b) /\ nothing_to_change (bd_A b) x.
Proof. exact c35_case. Qed.

(** * C36 *)
Theorem C36_mutually_exclusive : forall E sv b x b0 l b1 i j s et' s',
  ok_env E -> sound_solver sv -> assigned E sv b x b0 -> enumeration sv b0 l b1 -> (i < j)%nat ->
  nth_error l i = Some (MutuallyExclusive, s) -> nth_error l j = Some (et', s') ->
  forall f, ~ (changes (s_actions s) f /\ changes (s_actions s') f).
Proof. exact c36_thm. Qed.
Print Assumptions C36_mutually_exclusive.

(** * C37: the CPLEX back end excludes the wrong thing for multi-valued constrained features. *)
Theorem C37_distinct_subsets_refuted : exists b b0 x, (forall sv, assigned env0 sv b x b0) /\ bd_kind b = CPX /\
  forall sv fuel b1 l, sound_solver sv -> finishing_solver sv -> populate sv fuel (Some 2%nat) DistinctSubsets b0 = Some (Ok (b1, l)) ->
    exists s s', l = [s; s'] /\ same_features (s_actions s) (s_actions s').
Proof. exact c37_repeat. Qed.
Print Assumptions C37_distinct_subsets_refuted.
(** Python-MIP: always. CPLEX: whenever constrained features that are on can only be switched off. *)
Theorem C37_distinct_subsets_partial : forall E sv b x b0 l b1 i j s et' s',
  ok_env E -> sound_solver sv -> assigned E sv b x b0 -> (bd_kind b = CPX -> switches_off E (bd_A b) x) ->
  enumeration sv b0 l b1 -> (i < j)%nat -> nth_error l i = Some (DistinctSubsets, s) -> nth_error l j = Some (et', s') ->
  ~ same_features (s_actions s) (s_actions s').
Proof. exact c37_thm. Qed.
Print Assumptions C37_distinct_subsets_partial.
Theorem C37_unconstrained : forall E A x, ok_env E -> unconstrained A -> switches_off E A x.
Proof. exact c37_unconstrained. Qed.
Print Assumptions C37_unconstrained.

(** * C38 *)
Theorem C38_costs_nondecreasing : forall E sv b x b0 l b1 i j et s et' s',
  ok_env E -> sound_solver sv -> finishing_solver sv -> assigned E sv b x b0 -> bd_cost b <> CMax -> enumeration sv b0 l b1 -> (i < j)%nat ->
  nth_error l i = Some (et, s) -> nth_error l j = Some (et', s') -> s_cost s <= s_cost s'.
Proof. exact c38_mono_thm. Qed.
Print Assumptions C38_costs_nondecreasing.
(** False in general of the code: a current value above the grid has a smaller percentile than the top of the grid (as in C29). *)
Theorem C38_each_is_cheapest_refuted : exists b b0 x a cs, (forall sv, assigned env0 sv b x b0) /\ plain_setup env0 b x /\ resolvable (bd_A b) x /\ bd_cost b = CTotal /\ acceptable b x a /\
  action_costs env0 CTotal (bd_A b) x a cs /\
  forall sv fuel et, sound_solver sv -> finishing_solver sv -> (4 < fuel)%nat -> exists b1 s, populate sv fuel (Some 1%nat) et b0 = Some (Ok (b1, [s])) /\ qsum cs < s_cost s.
Proof. exact c38_outside. Qed.
Print Assumptions C38_each_is_cheapest_refuted.
Theorem C38_each_is_cheapest_partial : forall E sv b x b0 l b1 i et s a cs,
  ok_env E -> sound_solver sv -> finishing_solver sv -> density E -> log_ok E (bd_cost b) -> assigned E sv b x b0 ->
  orderly E (bd_A b) (bd_w b) x -> flips_match (bd_A b) (bd_w b) -> regular E (bd_A b) x -> (bd_kind b = CPX -> switches_off E (bd_A b) x) -> bd_cost b <> CMax ->
  enumeration sv b0 l b1 -> nth_error l i = Some (et, s) -> acceptable b x a ->
  (forall i' et' s', (i' < i)%nat -> nth_error l i' = Some (et', s') -> ~ rules_out et' (s_actions s') a) ->
  action_costs E (bd_cost b) (bd_A b) x a cs -> s_cost s <= qsum cs.
Proof. exact c38_best_thm. Qed.
Print Assumptions C38_each_is_cheapest_partial.
(** In particular each action is cheapest for its own feature set. *)
Theorem C38_cheapest_for_its_features_partial : forall E sv b x b0 l b1 i s a cs,
  ok_env E -> sound_solver sv -> finishing_solver sv -> density E -> log_ok E (bd_cost b) -> assigned E sv b x b0 ->
  orderly E (bd_A b) (bd_w b) x -> flips_match (bd_A b) (bd_w b) -> regular E (bd_A b) x -> (bd_kind b = CPX -> switches_off E (bd_A b) x) -> bd_cost b <> CMax ->
  enumeration sv b0 l b1 -> nth_error l i = Some (DistinctSubsets, s) -> acceptable b x a -> same_features (s_actions s) a ->
  action_costs E (bd_cost b) (bd_A b) x a cs -> s_cost s <= qsum cs.
Proof. exact c38_own_thm. Qed.
Print Assumptions C38_cheapest_for_its_features_partial.

(** * C39 *)
Theorem C39_terminates : forall E sv b x b0 l b1 fuel total et,
  ok_env E -> sound_solver sv -> assigned E sv b x b0 -> enumeration sv b0 l b1 -> total <> Some 0%nat -> (2 ^ as_len (bd_A b) < fuel)%nat ->
  exists b2 l2, populate sv fuel total et b1 = Some (Ok (b2, l2)) /\ (length l2 <= 2 ^ as_len (bd_A b))%nat.
Proof. exact c39_term_thm. Qed.
Print Assumptions C39_terminates.
(** False in general of the code: a current value that an integer grid cannot represent (as in C27). *)
Theorem C39_exhaustive_refuted : exists b b0 x a, (forall sv, assigned env0 sv b x b0) /\ plain_setup env0 b x /\ acceptable b x a /\
  forall sv fuel et, sound_solver sv -> finishing_solver sv -> (0 < fuel)%nat -> exists b1, populate sv fuel None et b0 = Some (Ok (b1, [])).
Proof. exact c39_missed. Qed.
Print Assumptions C39_exhaustive_refuted.
Theorem C39_exhaustive_partial : forall E sv b x b0 l b1 fuel total et l2 b2 a,
  ok_env E -> sound_solver sv -> finishing_solver sv -> density E -> log_ok E (bd_cost b) -> assigned E sv b x b0 ->
  orderly E (bd_A b) (bd_w b) x -> flips_match (bd_A b) (bd_w b) -> regular E (bd_A b) x -> (bd_kind b = CPX -> switches_off E (bd_A b) x) ->
  enumeration sv b0 l b1 -> populate sv fuel total et b1 = Some (Ok (b2, l2)) -> total <> Some (length l2) -> acceptable b x a ->
  exists et' s', In (et', s') (l ++ map (pair et) l2) /\ rules_out et' (s_actions s') a.
Proof. exact c39_exh_thm. Qed.
Print Assumptions C39_exhaustive_partial.

(** * C40: false of the CPLEX back end in general, as C37. *)
Theorem C40_never_repeats_refuted : exists b b0 x, (forall sv, assigned env0 sv b x b0) /\ bd_kind b = CPX /\
  forall sv fuel fuel', sound_solver sv -> finishing_solver sv -> (4 < fuel)%nat -> (4 < fuel')%nat ->
    exists b1 s b2 s', populate sv fuel (Some 1%nat) DistinctSubsets b0 = Some (Ok (b1, [s])) /\ populate sv fuel' (Some 1%nat) DistinctSubsets b1 = Some (Ok (b2, [s'])) /\
      same_features (s_actions s) (s_actions s').
Proof. exact c40_repeat. Qed.
Print Assumptions C40_never_repeats_refuted.
(** With the CPLEX back end under the same proviso as C37. *)
Theorem C40_never_repeats_partial : forall E sv b x b0 l b1 i j et s et' s',
  ok_env E -> sound_solver sv -> assigned E sv b x b0 -> (bd_kind b = CPX -> switches_off E (bd_A b) x) ->
  enumeration sv b0 l b1 -> (i < j)%nat -> nth_error l i = Some (et, s) -> nth_error l j = Some (et', s') ->
  ~ same_features (s_actions s) (s_actions s').
Proof. exact c40_thm. Qed.
Print Assumptions C40_never_repeats_partial.
Theorem C40_at_most_total_items : forall E sv b x b0 l0 n b1 b2 fuel et l,
  ok_env E -> sound_solver sv -> assigned E sv b x b0 -> enumeration sv b0 l0 b1 ->
  populate sv fuel (Some n) et b1 = Some (Ok (b2, l)) -> (length l <= n)%nat.
Proof. exact c40_count_thm. Qed.
Print Assumptions C40_at_most_total_items.
(** A run that the hypotheses of C36-C40 describe: three 0/1 features, all subsets of size two or more wanted;
    the enumeration returns exactly four actions. *)
Example enumeration_case : forall k, exists b b0, (forall sv, assigned env0 sv b [z 0; z 0; z 0] b0) /\ bd_kind b = k /\ unconstrained (bd_A b) /\
  flips_match (bd_A b) (bd_w b) /\ regular env0 (bd_A b) [z 0; z 0; z 0] /\
  forall sv, sound_solver sv -> finishing_solver sv -> exists b1 l, populate sv 9 (Some 4%nat) DistinctSubsets b0 = Some (Ok (b1, l)) /\ length l = 4%nat.
Proof. exact enumeration_case. Qed.

(** * C41: false of the code after a failed assignment: x is the new individual, the program the old one. *)
Theorem C41_current_individual_refuted : exists b x x1 x2 b1 b2, (forall sv, builder_reachable env0 sv b) /\
  set_x env0 (fst (set_x env0 b x1)) x = (b1, Err AssertionError) /\ set_x env0 (fst (set_x env0 b x2)) x = (b2, Err AssertionError) /\
  bd_x b1 = Some x /\ bd_x b2 = Some x /\ same_problem b1 b2 /\
  forall sv, sound_solver sv -> finishing_solver sv -> exists c1 c2 s1 s2, fit sv b1 = Ok (c1, Some s1) /\ fit sv b2 = Ok (c2, Some s2) /\ s_actions s1 <> s_actions s2.
Proof. exact c41_stale. Qed.
Print Assumptions C41_current_individual_refuted.
(** After a successful assignment nothing else matters, for a solver whose answers depend on the program only. *)
Theorem C41_current_individual_partial : forall E sv b b' x, stateless sv -> same_problem b b' ->
  snd (set_x E b x) = snd (set_x E b' x) /\
  (snd (set_x E b x) = Ok tt -> forall l b1, session sv (fst (set_x E b x)) l b1 -> exists b1', session sv (fst (set_x E b' x)) l b1').
Proof. exact c41_user. Qed.
Print Assumptions C41_current_individual_partial.
(** Assignments of x, fits and enumerations leave the problem the same. *)
Theorem C41_calls_keep_the_problem : forall E sv b x l b1,
  same_problem b (fst (set_x E b x)) /\ (session sv b l b1 -> same_problem b b1).
Proof. exact c41_keep. Qed.
Print Assumptions C41_calls_keep_the_problem.

(** * C42: Python-MIP hides a feasible point the solver holds; both report a stopped run as infeasible. *)
Theorem C42_certified_refuted : exists b b0 x a ms sv s0, (forall sv', assigned env0 sv' b x b0) /\ plain_setup env0 b x /\ bd_kind b = PyMIP /\ acceptable b x a /\
  sound_solver sv /\ bd_mip b0 = Some ms /\ has_point (sv (bd_calls b0) (ms_mip ms)) = Some s0 /\ exists b1, fit sv b0 = Ok (b1, None).
Proof. exact c42_pymip. Qed.
Print Assumptions C42_certified_refuted.
Theorem C42_stopped_run_refuted : forall k, exists b b0 x a sv, (forall sv', assigned env0 sv' b x b0) /\ plain_setup env0 b x /\ bd_kind b = k /\ acceptable b x a /\
  sound_solver sv /\ exists b1, fit sv b0 = Ok (b1, None).
Proof. exact c42_stopped. Qed.
Print Assumptions C42_stopped_run_refuted.
(** CPLEX reports an action exactly when the solver holds one. *)
Theorem C42_cplex_reports_incumbent_partial : forall sv b ms b1 r,
  bd_kind b = CPX -> bd_mip b = Some ms -> fit sv b = Ok (b1, r) -> (r = None <-> has_point (sv (bd_calls b) (ms_mip ms)) = None).
Proof. exact c42_cpx. Qed.
Print Assumptions C42_cplex_reports_incumbent_partial.
(** When this call of the solver is conclusive, "infeasible" means there is no acceptable action, and
    conversely. *)
Theorem C42_conclusive_partial : forall E sv b x b0 ms b1 r,
  ok_env E -> sound_solver sv -> density E -> log_ok E (bd_cost b) -> assigned E sv b x b0 ->
  orderly E (bd_A b) (bd_w b) x -> flips_match (bd_A b) (bd_w b) -> regular E (bd_A b) x ->
  bd_mip b0 = Some ms -> conclusive (sv (bd_calls b0) (ms_mip ms)) -> fit sv b0 = Ok (b1, r) ->
  (r = None <-> ~ exists a, acceptable b x a).
Proof. exact c42_thm. Qed.
Print Assumptions C42_conclusive_partial.
