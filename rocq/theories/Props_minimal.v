(** C117: nothing in an answer is superfluous. *)
From Verif Require Import Spec_minimal Proofs_concrete Proofs_builder5 Proofs_builder8 Proofs_minimal.
#[local] Open Scope list_scope.
#[local] Open Scope Qc_scope.

(** * C117 *)
(** Every change that fit or populate returns brings the score closer to the desired outcome, except for features
    under a constraint. *)
Theorem C117_changes_help : forall E sv b x b0 l b1 s j wj aj,
  ok_env E -> sound_solver sv -> assigned E sv b x b0 -> session sv b0 l b1 -> In s l ->
  nth_error (bd_w b) j = Some wj -> nth_error (s_actions s) j = Some aj -> aj <> 0 -> ~ constrained_at (bd_A b) j ->
  if (0 <? as_y (bd_A b))%Z then 0 < wj * aj else wj * aj < 0.
Proof. exact changes_help. Qed.
Print Assumptions C117_changes_help.
(** If an answer of fit makes several changes, all of them are needed: no proper part of them reaches the desired side
    (without constraints; for cost type 'max', if percentiles increase strictly). *)
Theorem C117_nothing_superfluous : forall E sv b x b0 b1 s a',
  ok_env E -> sound_solver sv -> finishing_solver sv -> assigned E sv b x b0 ->
  unconstrained (bd_A b) -> (bd_cost b = CMax -> density E /\ regular E (bd_A b) x) ->
  fit sv b0 = Ok (b1, Some s) -> part_of a' (s_actions s) -> a' <> s_actions s ->
  (1 <= n_changed a')%nat -> (bd_min b <= Z.of_nat (n_changed a'))%Z ->
  ~ on_side (as_y (bd_A b)) (score (bd_w b) (bd_t b) (vadd x a')).
Proof. exact minimal. Qed.
Print Assumptions C117_nothing_superfluous.
Example C117_case : forall k ct, exists b b0, (forall sv, assigned env0 sv b x01 b0) /\ bd_kind b = k /\ bd_cost b = ct /\ plain_setup env0 b x01 /\ regular env0 (bd_A b) x01 /\
  forall sv, sound_solver sv -> finishing_solver sv -> exists b1 s a', fit sv b0 = Ok (b1, Some s) /\
    part_of a' (s_actions s) /\ a' <> s_actions s /\ (1 <= n_changed a')%nat /\ (bd_min b <= Z.of_nat (n_changed a'))%Z.
Proof. exact minimal_case. Qed.
