(** Theorems C133: units of measure. *)
From Verif Require Import Spec_units Spec_setup Proofs_concrete Proofs_scen Proofs_audit4 Proofs_units Proofs_units2 Proofs_units3 Proofs_units4.
#[local] Open Scope string_scope.
#[local] Open Scope list_scope.
#[local] Open Scope Qc_scope.

(** * C133: the same data in other units.
      Refuted three times.  A feature that turns into whole numbers in other units turns into an integer feature, and whether there is recourse may change: here
      lengths 0, 1/2, 1, 3/2, in half the unit 0, 1, 2, 3; the bound (99th percentile, 1.485) is rounded to 3. *)
Theorem C133_types_refuted : exists A A', mk_action_set X133 ["a"] 1 [] default_bounds default_step_type = Ok A /\ mk_action_set (map (in_units [z 2]) X133) ["a"] 1 [] default_bounds default_step_type = Ok A' /\
  set_up env0 X133 A /\ set_up env0 (map (in_units [z 2]) X133) A' /\
  (forall a, permitted_action A [z 0] a -> ~ on_side 1 (score [z 1] (- qfrac 3 2) (vadd [z 0] a))) /\
  exists a, permitted_action A' (in_units [z 2] [z 0]) a /\ on_side 1 (score (per_unit [z 2] [z 1]) (- qfrac 3 2) (vadd (in_units [z 2] [z 0]) a)).
Proof. exact types_refuted. Qed.
Print Assumptions C133_types_refuted.
(** Real-valued before and after, the costs still depend on the unit: the percentile scale adds 1e-6 to a sum of densities, and densities are per unit.
    One unit for about 10^7: the cheapest action changes the other feature. *)
Theorem C133_costs_refuted : exists A A' b b0 b' b0', other_units env_u X133b csM A A' /\
  mk_builder env_u PyMIP A (coef_args [z 2; z 1] (- qfrac 395 100)) CMax None = Ok b /\ (forall sv, assigned env_u sv b x133 b0) /\
  mk_builder env_u PyMIP A' (coef_args (per_unit csM [z 2; z 1]) (- qfrac 395 100)) CMax None = Ok b' /\ (forall sv, assigned env_u sv b' (in_units csM x133) b0') /\
  forall sv, sound_solver sv -> finishing_solver sv ->
    (exists b1 s, fit sv b0 = Ok (b1, Some s) /\ s_actions s = [qfrac 98 100; z 0]) /\
    (exists b1' s', fit sv b0' = Ok (b1', Some s') /\ s_actions s' = in_units csM [z 0; qfrac 196 100]).
Proof. exact costs_refuted. Qed.
Print Assumptions C133_costs_refuted.
(** One unit for about 10^12: the weight per new unit counts as zero, and assigning the individual raises. *)
Theorem C133_weights_refuted : exists A A' b b0 b' b1', other_units env_u X133b csT A A' /\
  mk_builder env_u PyMIP A (coef_args [z 2; z 1] (- qfrac 395 100)) CMax None = Ok b /\ (forall sv, assigned env_u sv b x133 b0) /\
  (forall sv, sound_solver sv -> finishing_solver sv -> exists b1 s, fit sv b0 = Ok (b1, Some s)) /\
  mk_builder env_u PyMIP A' (coef_args (per_unit csT [z 2; z 1]) (- qfrac 395 100)) CMax None = Ok b' /\ set_x env_u b' (in_units csT x133) = (b1', Err AssertionError).
Proof. exact weights_refuted. Qed.
Print Assumptions C133_weights_refuted.
(** The estimates of that environment are densities, which rescale exactly. *)
Theorem C133_estimates : ok_env env_u /\ density env_u /\ forall c vs, 0 < c -> unit_density env_u c (/ c) vs.
Proof. exact (conj env_u_ok (conj env_u_density env_u_units)). Qed.
Print Assumptions C133_estimates.
(** Proved, for sets created from the same data in different units and edited alike ([other_units]): an action permitted in one unit is the same action, in the other
    unit, permitted there (and any permitted one arises so); scores do not change. *)
Theorem C133_actions_partial : forall E X cs A A' w t x y, other_units E X cs A A' -> length w = as_len A ->
  (forall a, length a = as_len A -> (permitted_action A' (in_units cs x) (in_units cs a) <-> permitted_action A x a)) /\
  (forall a, score (per_unit cs w) t (vadd (in_units cs x) (in_units cs a)) = score w t (vadd x a)) /\
  ((exists a, permitted_action A x a /\ on_side y (score w t (vadd x a))) <-> (exists a, permitted_action A' (in_units cs x) a /\ on_side y (score (per_unit cs w) t (vadd (in_units cs x) a)))).
Proof. exact actions_units. Qed.
Print Assumptions C133_actions_partial.
(** So fits return an answer in both or in neither, whatever the solvers, back-ends and cost types. *)
Theorem C133_fit_partial : forall E sv sv' k k' X cs A A' args args' ct ct' w t x b0 b0' b1 b1' r r', ok_env E -> sound_solver sv -> finishing_solver sv -> sound_solver sv' -> finishing_solver sv' -> density E -> log_ok E ct -> log_ok E ct' ->
  other_units E X cs A A' -> parse_classifier_args args = Ok (w, t) -> parse_classifier_args args' = Ok (per_unit cs w, t) -> length w = as_len A ->
  alignment_known A = false \/ flips_match A w -> alignment_known A' = false \/ flips_match A' (per_unit cs w) ->
  mk_builder E k A args ct (Some x) = Ok b0 -> mk_builder E k' A' args' ct' (Some (in_units cs x)) = Ok b0' ->
  like_rows X x -> denied (as_y A) (score w t x) -> fit sv b0 = Ok (b1, r) -> fit sv' b0' = Ok (b1', r') -> (r = None <-> r' = None).
Proof. exact fit_units. Qed.
Print Assumptions C133_fit_partial.
(** Audits, line by line: the same labels; blank in both or in neither; a finite cost (of some action) in both or in neither. *)
Theorem C133_audit_partial : forall (I : Type) E sv sv' k k' X cs A A' w t b b' (rows : list (I * list Qc)) y c c' out out', ok_env E -> sound_solver sv -> finishing_solver sv -> sound_solver sv' -> finishing_solver sv' -> density E ->
  other_units E X cs A A' -> auditor_used E sv k A w t b -> auditor_used E sv' k' A' (per_unit cs w) t b' -> (0 <? y)%Z = (0 <? as_y A)%Z -> (forall p, In p rows -> like_rows X (snd p)) ->
  audit E sv b (table_of rows) y = (c, Ok out) -> audit E sv' b' (table_of (map (fun p => (fst p, in_units cs (snd p))) rows)) y = (c', Ok out') ->
  Forall2 (fun p qs => fst (fst qs) = fst p /\ fst (snd qs) = fst p /\ (snd (fst qs) = None <-> snd (snd qs) = None) /\
    (denied y (score w t (snd p)) -> ((exists v, snd (fst qs) = Some (true, Fin v)) <-> (exists v, snd (snd qs) = Some (true, Fin v))))) rows (combine out out').
Proof. exact @audit_units. Qed.
Print Assumptions C133_audit_partial.
(** Percentiles agree up to 1e-6 over the total density each scale rests on. *)
Theorem C133_percentiles_partial : forall E X cs A A' j c k e e' v p p' m m', other_units E X cs A A' -> nth_error cs j = Some c -> nth_error (as_elems A) j = Some e -> nth_error (as_elems A') j = Some e' ->
  0 < k -> unit_density E c k (e_values e) -> mass E e m -> mass E e' m' -> 0 < m ->
  percentile E e v = Ok p -> percentile E e' (c * v) = Ok p' -> qabs (p - p') <= qfrac 1 1000000 / m + qfrac 1 1000000 / m'.
Proof. exact set_percentiles. Qed.
Print Assumptions C133_percentiles_partial.
(** The sets of C133_costs_refuted: both have auditors; the individual is denied and like the rows; the scale of its second feature rests on a positive density. *)
Example C133_case : exists A A' b b' e, other_units env_u X133b csM A A' /\ auditor_created env_u PyMIP A [z 2; z 1] (- qfrac 395 100) b /\ auditor_created env_u PyMIP A' (per_unit csM [z 2; z 1]) (- qfrac 395 100) b' /\
  alignment_known A = false /\ denied (as_y A) (score [z 2; z 1] (- qfrac 395 100) x133) /\ like_rows X133b x133 /\ nth_error (as_elems A) 1 = Some e /\ (exists m, mass env_u e m /\ 0 < m) /\ e_grid e = [qfrac 1 50; z 1; qfrac 99 50].
Proof. exact units_case. Qed.
