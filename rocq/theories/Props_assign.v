(** Property theorems about assignments, audits that succeed, and edited action sets: C54 (continued), C64-C67. *)
From Verif Require Import Proofs_props_element Proofs_props_actionset Spec_audit Proofs_subset Proofs_builder Proofs_solver Proofs_concrete Proofs_scen Proofs_builder8 Proofs_constrained Proofs_assign Proofs_audit2 Proofs_audit3 Proofs_audit4 Proofs_assign2 Proofs_assign3 Spec_settable Proofs_assign4 Proofs_assign5.
#[local] Open Scope string_scope.
#[local] Open Scope list_scope.
#[local] Open Scope Qc_scope.

(** * C64: false of the code for a coefficient that is not 0 but within 1e-8 of it (an assertion fails, although
      recourse exists), besides flat densities (C28) and 'total'/'local' with nothing to change (C35). *)
Theorem C64_assignment_succeeds_refuted : exists b x, (forall sv, builder_reachable env0 sv b) /\ bd_cost b = CMax /\
  unconstrained (bd_A b) /\ flips_match (bd_A b) (bd_w b) /\ current_percentiles (bd_A b) /\
  length x = length (bd_w b) /\ answers env0 (bd_A b) /\ regular env0 (bd_A b) x /\ denied (as_y (bd_A b)) (score (bd_w b) (bd_t b) x) /\
  (exists a, acceptable b x a) /\ snd (set_x env0 b x) = Err AssertionError.
Proof. exact c64_refuted. Qed.
Print Assumptions C64_assignment_succeeds_refuted.
(** ... and for a feature under a constraint that may move both up and down. *)
Theorem C64_both_ways_refuted : exists b x, (forall sv, builder_reachable env0 sv b) /\ bd_cost b = CMax /\ orderly env0 (bd_A b) (bd_w b) x /\ flips_match (bd_A b) (bd_w b) /\ current_percentiles (bd_A b) /\
  length x = length (bd_w b) /\ answers env0 (bd_A b) /\ regular env0 (bd_A b) x /\ tiny_free (bd_w b) /\ denied (as_y (bd_A b)) (score (bd_w b) (bd_t b) x) /\
  (exists a, acceptable b x a) /\ snd (set_x env0 b x) = Err AssertionError.
Proof. exact c64_both_ways. Qed.
Print Assumptions C64_both_ways_refuted.
Theorem C64_assignment_succeeds_partial : forall E sv b x,
  ok_env E -> density E -> builder_reachable E sv b -> log_ok E (bd_cost b) -> in_line (bd_A b) (bd_w b) x -> one_way (bd_A b) x -> flips_match (bd_A b) (bd_w b) ->
  length x = length (bd_w b) -> answers E (bd_A b) -> regular E (bd_A b) x -> tiny_free (bd_w b) ->
  (bd_cost b = CMax \/ exists a, permitted_action (bd_A b) x a /\ worthwhile (bd_A b) (bd_w b) a /\ (1 <= n_changed a)%nat) ->
  snd (set_x E b x) = Ok tt.
Proof. exact assign_total. Qed.
Print Assumptions C64_assignment_succeeds_partial.
Theorem C64_without_constraints_partial : forall A w x, unconstrained A -> in_line A w x /\ one_way A x.
Proof. intros A w x H. exact (conj (unconstrained_in_line A w x H) (unconstrained_one_way A x H)). Qed.
Print Assumptions C64_without_constraints_partial.
Example C64_nonvacuous : forall ct, exists b x, (forall sv, builder_reachable env0 sv b) /\ bd_cost b = ct /\ unconstrained (bd_A b) /\ flips_match (bd_A b) (bd_w b) /\
  length x = length (bd_w b) /\ answers env0 (bd_A b) /\ regular env0 (bd_A b) x /\ tiny_free (bd_w b) /\
  exists a, permitted_action (bd_A b) x a /\ worthwhile (bd_A b) (bd_w b) a /\ (1 <= n_changed a)%nat.
Proof. exact c64_case. Qed.
Example C64_nonvacuous_constrained : forall ct, exists b x c, (forall sv, builder_reachable env0 sv b) /\ bd_cost b = ct /\ stored (as_cons (bd_A b)) "one" c /\ c_indices c = [0; 1]%nat /\
  in_line (bd_A b) (bd_w b) x /\ one_way (bd_A b) x /\ flips_match (bd_A b) (bd_w b) /\
  length x = length (bd_w b) /\ answers env0 (bd_A b) /\ regular env0 (bd_A b) x /\ tiny_free (bd_w b) /\
  exists a, permitted_action (bd_A b) x a /\ worthwhile (bd_A b) (bd_w b) a /\ (1 <= n_changed a)%nat.
Proof. exact c64_con_case. Qed.
(** The exact boundary, whatever the constraints and the order of the features: a regular individual is accepted if and only if every
    feature that takes part can be handled, every column named in a constraint has a number below the number of features that take part,
    and, for 'total' and 'local', some feature takes part. *)
Theorem C64_accepted_iff_partial : forall E sv b x,
  ok_env E -> density E -> builder_reachable E sv b -> log_ok E (bd_cost b) -> flips_match (bd_A b) (bd_w b) ->
  length x = length (bd_w b) -> answers E (bd_A b) -> regular E (bd_A b) x ->
  (snd (set_x E b x) = Ok tt <-> settable (bd_A b) (bd_w b) x /\ (bd_cost b = CMax \/ exists j, takes_part (bd_A b) (bd_w b) x j)).
Proof. exact assign_iff. Qed.
Print Assumptions C64_accepted_iff_partial.
Example C64_iff_nonvacuous : exists b x, (forall sv, builder_reachable env0 sv b) /\ bd_cost b = CMax /\ flips_match (bd_A b) (bd_w b) /\
  length x = length (bd_w b) /\ answers env0 (bd_A b) /\ regular env0 (bd_A b) x /\ ~ unconstrained (bd_A b) /\ settable (bd_A b) (bd_w b) x.
Proof. exact settable_case. Qed.
Example C64_iff_nonvacuous_rejected : exists b x, (forall sv, builder_reachable env0 sv b) /\ bd_cost b = CMax /\ flips_match (bd_A b) (bd_w b) /\
  length x = length (bd_w b) /\ answers env0 (bd_A b) /\ regular env0 (bd_A b) x /\ tiny_free (bd_w b) /\ ~ settable (bd_A b) (bd_w b) x.
Proof. exact unsettable_case. Qed.

(** * C65: an audit with at least one denied individual raises no exception. *)
Theorem C65_audit_succeeds_partial : forall (I : Type) E sv k A w t b (X : list (I * list Qc)) y,
  ok_env E -> sound_solver sv -> density E -> aset_reachable E A -> answers E A ->
  auditor_used E sv k A w t b -> tiny_free w -> label y -> (forall p, In p X -> length (snd p) = as_len A) ->
  (forall p, In p X -> ~ has_outcome y (score w t (snd p)) -> regular E A (snd p) /\ in_line A w (snd p) /\ one_way A (snd p)) ->
  (exists p, In p X /\ ~ has_outcome y (score w t (snd p))) -> exists b' out, audit E sv b (table_of X) y = (b', Ok out).
Proof. exact @audit_total. Qed.
Print Assumptions C65_audit_succeeds_partial.
Example C65_nonvacuous : exists A b, aset_reachable env0 A /\ auditor_created env0 PyMIP A [z 1; z 1] (- z 3) b /\ unconstrained A /\ answers env0 A /\ tiny_free [z 1; z 1] /\ as_len A = 2%nat /\
  (regular env0 A x01 /\ in_line A [z 1; z 1] x01 /\ one_way A x01) /\ ~ has_outcome 1 (score [z 1; z 1] (- z 3) x01) /\ has_outcome 1 (score [z 1; z 1] (- z 3) x44).
Proof. exact c65_case. Qed.
(** The exception that remains: C54, and rows the builder rejects, whatever else is in the table. *)
Theorem C65_audit_succeeds_refuted : forall (I : Type) E sv k A w t b (X : list (I * list Qc)) y,
  auditor_reachable E sv k A w t b -> label y -> X <> [] -> (forall p, In p X -> length (snd p) = length w) ->
  (forall p, In p X -> has_outcome y (score w t (snd p))) -> exists e, snd (audit E sv b (table_of X) y) = Err e.
Proof. intros. exists KeyError. erewrite @c54 by eauto. reflexivity. Qed.
Print Assumptions C65_audit_succeeds_refuted.
(** The exact boundary for tables of regular individuals: somebody is denied, and everybody who is denied can be handled. *)
Theorem C65_audited_iff_partial : forall (I : Type) E sv k A w t b (X : list (I * list Qc)) y,
  ok_env E -> sound_solver sv -> density E -> aset_reachable E A -> answers E A ->
  auditor_used E sv k A w t b -> label y -> (forall p, In p X -> length (snd p) = as_len A) ->
  (forall p, In p X -> ~ has_outcome y (score w t (snd p)) -> regular E A (snd p)) ->
  ((exists b' out, audit E sv b (table_of X) y = (b', Ok out)) <->
   (exists p, In p X /\ ~ has_outcome y (score w t (snd p))) /\ forall p, In p X -> ~ has_outcome y (score w t (snd p)) -> settable A w (snd p)).
Proof. exact @audit_iff. Qed.
Print Assumptions C65_audited_iff_partial.
(** * C54: with one denied (regular) individual in the table the others are reported as blank, as they should be. *)
Theorem C54_some_denied_partial : forall (I : Type) E sv k A w t b (X : list (I * list Qc)) y,
  ok_env E -> sound_solver sv -> density E -> aset_reachable E A -> answers E A ->
  auditor_used E sv k A w t b -> tiny_free w -> label y -> (forall p, In p X -> length (snd p) = as_len A) ->
  (forall p, In p X -> ~ has_outcome y (score w t (snd p)) -> regular E A (snd p) /\ in_line A w (snd p) /\ one_way A (snd p)) ->
  (exists p, In p X /\ ~ has_outcome y (score w t (snd p))) ->
  exists b' out, audit E sv b (table_of X) y = (b', Ok out) /\
    Forall2 (fun p q => fst q = fst p /\ (snd q = None <-> has_outcome y (score w t (snd p)))) X out.
Proof.
  intros. destruct (audit_total E sv k A w t b X y) as (b' & out & HA); auto. exists b', out. split; [exact HA|].
  eapply c50; [|exact HA]. eapply used_reachable; eauto.
Qed.
Print Assumptions C54_some_denied_partial.

(** * C66: for a solver whose answers depend on the program only, the result of a row depends on nothing but its
      values: not on the other rows audited with it, their order, the index, nor earlier audits by this or an
      equally created auditor. *)
Theorem C66_rows_independent : forall (I : Type) E sv k A w t b (X : list (I * list Qc)) y b1 out,
  stateless sv -> aset_reachable E A -> auditor_used E sv k A w t b -> audit E sv b (table_of X) y = (b1, Ok out) ->
  exists g, out = map (fun p => (fst p, g (snd p))) X /\
    forall J b' (X' : list (J * list Qc)), auditor_used E sv k A w t b' ->
      (forall r, In r (map snd X') -> In r (map snd X)) -> (exists p, In p X' /\ ~ has_outcome y (score w t (snd p))) ->
      exists b1', audit E sv b' (table_of X') y = (b1', Ok (map (fun p => (fst p, g (snd p))) X')).
Proof. exact @c66. Qed.
Print Assumptions C66_rows_independent.

(** * C67: the limit on the number of changes is the number of features that were actionable when the builder was
      created; making more features actionable afterwards yields wrong infeasibility claims. *)
Theorem C67_edited_action_set_refuted : exists b o x a b1, builder_created env0 b /\ b1 = with_aset b (aset_step env0 (bd_A b) o) /\ plain_setup env0 b1 x /\ fits_grids (bd_A b1) x /\
  permitted_action (bd_A b1) x a /\ on_side (as_y (bd_A b1)) (score (bd_w b1) (bd_t b1) (vadd x a)) /\
  forall sv, sound_solver sv -> finishing_solver sv -> exists c0 c1, set_x env0 b1 x = (c0, Ok tt) /\ fit sv c0 = Ok (c1, None).
Proof. exact c67_refuted. Qed.
Print Assumptions C67_edited_action_set_refuted.
(** Otherwise the verdict is the one for the action set as edited (whatever the history of builder and action set). *)
Theorem C67_edited_action_set_partial : forall E sv b x b0,
  ok_env E -> sound_solver sv -> finishing_solver sv -> density E -> log_ok E (bd_cost b) -> assigned E sv b x b0 -> good_setup E b x ->
  (Z.of_nat (n_actionable_features (bd_A b)) <= bd_max b)%Z ->
  exists b1 r, fit sv b0 = Ok (b1, r) /\
    match r with
    | Some s => permitted_action (bd_A b) x (s_actions s) /\ movable_only (bd_A b) x (s_actions s) /\ on_side (as_y (bd_A b)) (score (bd_w b) (bd_t b) (vadd x (s_actions s))) /\ compliant (bd_A b) x (s_actions s)
    | None => forall a, permitted_action (bd_A b) x a -> movable_only (bd_A b) x a -> compliant (bd_A b) x a -> ~ on_side (as_y (bd_A b)) (score (bd_w b) (bd_t b) (vadd x a))
    end.
Proof. exact c67. Qed.
Print Assumptions C67_edited_action_set_partial.
Example C67_nonvacuous : exists b o x b1, builder_created env0 b /\ b1 = with_aset b (aset_step env0 (bd_A b) o) /\ bd_A b1 <> bd_A b /\ (forall sv, exists b0, assigned env0 sv b1 x b0) /\ good_setup env0 b1 x /\ fits_grids (bd_A b1) x /\
  (Z.of_nat (n_actionable_features (bd_A b1)) <= bd_max b1)%Z.
Proof. exact c67_case. Qed.
