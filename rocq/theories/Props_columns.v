(** Theorems C119: the order of the features. *)
From Verif Require Import Spec_columns Proofs_concrete Proofs_scen Proofs_constrained Proofs_columns3 Proofs_columns4.
#[local] Open Scope string_scope.
#[local] Open Scope list_scope.
#[local] Open Scope Qc_scope.

(** * C119.  The full property: the order in which the features are listed changes neither the verdict nor the cost of the answer.  False of the
      code if there are constraints: they are applied to positions in the list of features that can act, so their meaning depends on the order. *)
Theorem C119_columns_refuted : exists p b x b' x' b0 b0', (forall sv, assigned env0 sv b x b0) /\ (forall sv, assigned env0 sv b' x' b0') /\ reordered p b x b' x' /\
  forall sv, sound_solver sv -> finishing_solver sv -> (exists b1 s, fit sv b0 = Ok (b1, Some s)) /\ exists b1, fit sv b0' = Ok (b1, None).
Proof. exact columns_refuted. Qed.
Print Assumptions C119_columns_refuted.
(** What holds without constraints. *)
Theorem C119_columns_partial : forall E sv sv' p b x b' x' b0 b0', ok_env E -> sound_solver sv -> finishing_solver sv -> sound_solver sv' -> finishing_solver sv' ->
  assigned E sv b x b0 -> assigned E sv' b' x' b0' -> reordered p b x b' x' -> unconstrained (bd_A b) -> answers_related (same_answer (bd_cost b)) sv sv' b0 b0'.
Proof. exact columns_thm. Qed.
Print Assumptions C119_columns_partial.
(** The individual is accepted by one iff by the other. *)
Theorem C119_assigned_partial : forall E sv sv' p b x b' x', ok_env E -> builder_reachable E sv b -> builder_reachable E sv' b' -> reordered p b x b' x' -> unconstrained (bd_A b) -> length x = length (bd_w b) ->
  snd (set_x E b x) = Ok tt <-> snd (set_x E b' x') = Ok tt.
Proof. exact columns_assigned. Qed.
Print Assumptions C119_assigned_partial.
(** A table with rearranged columns and the classifier with rearranged coefficients yield the rearranged builder. *)
Theorem C119_created : forall p X X' names names' y custom dflt dst A, Permutation p (seq 0 (length names)) -> Forall2 (rearranged p) X X' -> rearranged p names names' ->
  mk_action_set X names y custom dflt dst = Ok A -> exists A', mk_action_set X' names' y custom dflt dst = Ok A' /\
    forall E k k' w w' t ct b x x', rearranged p w w' -> rearranged p x x' -> mk_builder E k A (coef_args w t) ct None = Ok b ->
      exists b', mk_builder E k' A' (coef_args w' t) ct None = Ok b' /\ reordered p b x b' x'.
Proof. exact columns_builders. Qed.
Print Assumptions C119_created.
Example C119_case : forall k k' ct, exists A b A' b' b0 b0', mk_action_set tab2 ["a"; "b"] 1 [] default_bounds default_step_type = Ok A /\ mk_builder env0 k A (coef_args [qz 1; qz 2] (- qz 7)) ct None = Ok b /\
  mk_action_set tab2r ["b"; "a"] 1 [] default_bounds default_step_type = Ok A' /\ mk_builder env0 k' A' (coef_args [qz 2; qz 1] (- qz 7)) ct None = Ok b' /\
  reordered p10 b [qz 0; qz 1] b' [qz 1; qz 0] /\ unconstrained (bd_A b) /\ (forall sv, assigned env0 sv b [qz 0; qz 1] b0) /\ (forall sv, assigned env0 sv b' [qz 1; qz 0] b0') /\
  (forall sv, sound_solver sv -> finishing_solver sv -> exists b1 s, fit sv b0 = Ok (b1, Some s)).
Proof. exact columns_case. Qed.
(** With constraints that are in line in both orders, the verdict does not depend on the order, and nor does the cost of the answer for 'total' and 'local'. *)
Theorem C119_constrained_partial : forall E sv sv' p b x b' x' b0 b0', ok_env E -> sound_solver sv -> finishing_solver sv -> sound_solver sv' -> finishing_solver sv' -> density E -> log_ok E (bd_cost b) ->
  assigned E sv b x b0 -> assigned E sv' b' x' b0' -> reordered p b x b' x' -> good_setup E b x -> orderly E (bd_A b') (bd_w b') x' ->
  exists b1 r b1' r', fit sv b0 = Ok (b1, r) /\ fit sv' b0' = Ok (b1', r') /\
    match r, r' with
    | Some s, Some s' => regular E (bd_A b) x -> bd_cost b <> CMax -> s_cost s = s_cost s'
    | None, None => True
    | _, _ => False
    end.
Proof. exact columns_constrained. Qed.
Print Assumptions C119_constrained_partial.
Example C119_constrained_case : forall k k' ct, exists p b b' b0 b0', (forall sv, assigned env0 sv b x100 b0) /\ (forall sv, assigned env0 sv b' x010 b0') /\ reordered p b x100 b' x010 /\ p <> [0; 1; 2]%nat /\
  (exists c, stored (as_cons (bd_A b)) "one" c /\ c_indices c = [0; 1]%nat /\ c_lb c = 0%Z /\ c_ub c = 1%Z) /\
  good_setup env0 b x100 /\ orderly env0 (bd_A b') (bd_w b') x010 /\ regular env0 (bd_A b) x100 /\ bd_kind b = k /\ bd_kind b' = k' /\ bd_cost b = ct /\
  forall sv, sound_solver sv -> finishing_solver sv -> exists b1 s, fit sv b0 = Ok (b1, Some s).
Proof. exact constrained_columns. Qed.
