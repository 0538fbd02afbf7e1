(** Property theorems for features that play no role: C125.  Vocabulary: Spec_idle.v.
    [takes_part A w x j] (Spec_lineup.v): feature j may move from its current value, in a direction that helps (in any direction if
    it is named in a constraint), and its value fits its grid.  [alike]: the two questions agree wherever a feature takes part. *)
From Verif Require Import Spec_idle Spec_audit Spec_recourse Proofs_concrete Proofs_scen Proofs_idle2 Proofs_idle3.
#[local] Open Scope string_scope.
#[local] Open Scope list_scope.
#[local] Open Scope Qc_scope.

(** * C125 *)
(** Two questions - action sets, classifiers, individuals - with the same desired outcome, names, constraints and score, that
    differ only at features which take part in neither: every run of fits and populates that one builder can do, the other
    can do as well, with exactly the same answers (actions, costs, order, and None at the same calls). *)
Theorem C125_answers : forall E sv b b' x x' b0 b0',
  ok_env E -> stateless sv -> assigned E sv b x b0 -> assigned E sv b' x' b0' ->
  flips_match (bd_A b) (bd_w b) -> flips_match (bd_A b') (bd_w b') ->
  bd_kind b' = bd_kind b -> bd_cost b' = bd_cost b -> bd_min b' = bd_min b -> bd_max b' = bd_max b ->
  alike (bd_A b) (bd_w b) x (bd_A b') (bd_w b') x' -> score (bd_w b') (bd_t b') x' = score (bd_w b) (bd_t b) x ->
  forall l b1, session sv b0 l b1 -> exists b1', session sv b0' l b1'.
Proof. exact c125_answers. Qed.
Print Assumptions C125_answers.
(** The individual is accepted for the one exactly if it is accepted for the other. *)
Theorem C125_accepted : forall E sv sv' b b' x x',
  ok_env E -> density E -> builder_reachable E sv b -> builder_reachable E sv' b' -> log_ok E (bd_cost b) -> bd_cost b' = bd_cost b ->
  flips_match (bd_A b) (bd_w b) -> flips_match (bd_A b') (bd_w b') -> length x = length (bd_w b) -> length x' = length (bd_w b') ->
  answers E (bd_A b) -> answers E (bd_A b') -> regular E (bd_A b) x -> regular E (bd_A b') x' ->
  alike (bd_A b) (bd_w b) x (bd_A b') (bd_w b') x' ->
  (snd (set_x E b x) = Ok tt <-> snd (set_x E b' x') = Ok tt).
Proof. exact c125_accepted. Qed.
Print Assumptions C125_accepted.
(** Rows that look alike get the same verdict and the same cost, in one audit or in two, at any position. *)
Theorem C125_audits : forall (I J : Type) E sv k A w t b b2 (X : list (I * list Qc)) (X2 : list (J * list Qc)) y b' b2' out out2 p p2 v v2,
  ok_env E -> stateless sv -> aset_reachable E A ->
  auditor_used E sv k A w t b -> auditor_used E sv k A w t b2 ->
  audit E sv b (table_of X) y = (b', Ok out) -> audit E sv b2 (table_of X2) y = (b2', Ok out2) ->
  (exists i, nth_error X i = Some p /\ nth_error out i = Some v) -> (exists i, nth_error X2 i = Some p2 /\ nth_error out2 i = Some v2) ->
  alike A w (snd p) A w (snd p2) -> score w t (snd p2) = score w t (snd p) ->
  snd v2 = snd v.
Proof. exact @c125_audits. Qed.
Print Assumptions C125_audits.
(** A feature that is not actionable, or has coefficient 0 and is not named in a constraint, takes no part, whatever its value:
    so the individuals may differ freely there. *)
Theorem C125_not_actionable : forall A w x j, fixed_at A j -> ~ takes_part A w x j.
Proof. exact fixed_idle. Qed.
Print Assumptions C125_not_actionable.
Theorem C125_no_weight : forall A w x j, ignored_at A w j -> ~ takes_part A w x j.
Proof. exact ignored_idle. Qed.
Print Assumptions C125_no_weight.
Theorem C125_individuals : forall A w x x', (forall j, nth_error x' j = nth_error x j \/ fixed_at A j \/ ignored_at A w j) -> alike A w x A w x'.
Proof. exact people_alike. Qed.
Print Assumptions C125_individuals.
(** Hypotheses met, for every backend and cost type: two features not actionable, one with coefficient 0; the individuals differ
    at all three, and both have recourse. *)
Example C125_nonvacuous : forall k ct, exists b b0 b0', (forall sv, assigned env0 sv b x_i b0) /\ (forall sv, assigned env0 sv b x_i' b0') /\ bd_cost b = ct /\ bd_kind b = k /\
  flips_match (bd_A b) (bd_w b) /\ answers env0 (bd_A b) /\ regular env0 (bd_A b) x_i /\ regular env0 (bd_A b) x_i' /\
  fixed_at (bd_A b) 1 /\ fixed_at (bd_A b) 2 /\ ignored_at (bd_A b) (bd_w b) 3 /\ alike (bd_A b) (bd_w b) x_i (bd_A b) (bd_w b) x_i' /\ x_i' <> x_i /\
  score (bd_w b) (bd_t b) x_i' = score (bd_w b) (bd_t b) x_i /\
  (forall sv, sound_solver sv -> finishing_solver sv -> exists b1 s, fit sv b0 = Ok (b1, Some s)).
Proof. exact idle_case. Qed.
Example C125_audits_nonvacuous : exists A b, aset_reachable env0 A /\ auditor_created env0 PyMIP A [z 1; z 1; z 1; z 0] (- z 5) b /\
  alike A [z 1; z 1; z 1; z 0] x_i A [z 1; z 1; z 1; z 0] x_i' /\ score [z 1; z 1; z 1; z 0] (- z 5) x_i' = score [z 1; z 1; z 1; z 0] (- z 5) x_i /\
  forall sv, sound_solver sv -> finishing_solver sv ->
    (exists b' v, audit env0 sv b (table_of [(1%nat, x_i)]) 1 = (b', Ok [(1%nat, Some (true, v))])) /\
    (exists b' v, audit env0 sv b (table_of [(2%nat, x_i')]) 1 = (b', Ok [(2%nat, Some (true, v))])).
Proof. exact idle_audits. Qed.
