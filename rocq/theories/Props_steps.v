(** Theorem C131: following the advice, at once or in steps. *)
From Verif Require Import Spec_steps Proofs_concrete Proofs_scen Proofs_steps Proofs_steps2.
#[local] Open Scope list_scope.
#[local] Open Scope Qc_scope.

(** * C131: carrying out an action.
      Whoever changes their features as advised should no longer be audited.  False for y_desired = -1: the action may end at score exactly 0, which
      the program accepts as an answer and which the audit then takes for a rejection (it predicts with [sign], and compares with -1). *)
Theorem C131_exact_zero_refuted : forall k, exists A w t b x, aset_reachable env0 A /\ auditor_created env0 k A w t b /\ as_y A = (-1)%Z /\ unconstrained A /\ fits_grids A x /\ current_percentiles A /\
  forall sv, sound_solver sv -> finishing_solver sv -> exists b0 b1 s b' c, assigned env0 sv b x b0 /\ fit sv b0 = Ok (b1, Some s) /\
    audit env0 sv b (table_of [(0%nat, vadd x (s_actions s))]) (-1) = (b', Ok [(0%nat, Some (true, Fin c))]).
Proof. exact exact_zero. Qed.
Print Assumptions C131_exact_zero_refuted.
(** Every item an answer of the builder lists, once carried out, is left blank by every audit with the same classifier and outcome (y_desired = 1; or the
    action does not end at score exactly 0). *)
Theorem C131_acting_partial : forall (I : Type) E sv sv' k A w t b ba x b0 l b1 s (X : list (I * list Qc)) y c out, ok_env E -> sound_solver sv -> assigned E sv b x b0 -> session sv b0 l b1 -> In s l ->
  bd_w b = w -> bd_t b = t -> (0 <? y)%Z = (0 <? as_y (bd_A b))%Z -> (0 < y)%Z \/ score w t (vadd x (s_actions s)) <> 0 ->
  auditor_reachable E sv' k A w t ba -> audit E sv' ba (table_of X) y = (c, Ok out) ->
  forall i r q, nth_error X i = Some r -> snd r = vadd x (s_actions s) -> nth_error out i = Some q -> snd q = None.
Proof. exact @after_acting. Qed.
Print Assumptions C131_acting_partial.
(** After any part of the advised changes the individual, if still denied, still has recourse.  Missing from the full property: individuals outside the
    usual setting ([good_setup]; false by C34). *)
Theorem C131_part_partial : forall E sv sv' b b' x a' b0 b0' b1 s, ok_env E -> sound_solver sv -> sound_solver sv' -> finishing_solver sv' -> density E -> log_ok E (bd_cost b) ->
  assigned E sv b x b0 -> part_of a' (s_actions s) -> assigned E sv' b' (vadd x a') b0' -> same_problem b b' ->
  orderly E (bd_A b) (bd_w b) x -> good_setup E b' (vadd x a') ->
  fit sv b0 = Ok (b1, Some s) -> exists b1' s', fit sv' b0' = Ok (b1', Some s').
Proof. exact part_exists. Qed.
Print Assumptions C131_part_partial.
(** With 'total' and 'local' costs, what has been paid for the part carried out, at the prices first quoted, and the cost of the new answer never exceed the
    cost first quoted. *)
Theorem C131_part_cost_partial : forall E sv sv' b b' x a' b0 b0' b1 s, ok_env E -> sound_solver sv -> sound_solver sv' -> finishing_solver sv' -> density E -> log_ok E (bd_cost b) ->
  assigned E sv b x b0 -> part_of a' (s_actions s) -> assigned E sv' b' (vadd x a') b0' -> same_problem b b' ->
  orderly E (bd_A b) (bd_w b) x -> good_setup E b' (vadd x a') ->
  fit sv b0 = Ok (b1, Some s) -> forall p, regular E (bd_A b) (vadd x a') -> bd_cost b <> CMax -> paid a' (s_costs s) p ->
  exists b1' s', fit sv' b0' = Ok (b1', Some s') /\ p + s_cost s' <= s_cost s.
Proof. exact part_cheaper. Qed.
Print Assumptions C131_part_cost_partial.
(** Two features must change; one does, and the other is advised again. *)
Example C131_case : forall k ct, exists b b0 b0', (forall sv, assigned env0 sv b x00 b0) /\ (forall sv, assigned env0 sv b (vadd x00 half) b0') /\ bd_kind b = k /\ bd_cost b = ct /\
  orderly env0 (bd_A b) (bd_w b) x00 /\ good_setup env0 b (vadd x00 half) /\ regular env0 (bd_A b) (vadd x00 half) /\
  forall sv, sound_solver sv -> finishing_solver sv -> exists b1 s b1' s', fit sv b0 = Ok (b1, Some s) /\ part_of half (s_actions s) /\ s_actions s = [z 3; z 3] /\ fit sv b0' = Ok (b1', Some s') /\ s_actions s' = [z 0; z 3].
Proof. exact half_case. Qed.
