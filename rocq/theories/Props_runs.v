(** Theorem C108: the results do not depend on the run. *)
From Verif Require Import Spec_compare Spec_audit Spec_flipset Spec_runs Proofs_concrete Proofs_scen Proofs_constrained Proofs_runs.
#[local] Open Scope list_scope.
#[local] Open Scope Qc_scope.

(** * C108: another run of the same script gives the same results.
      False: the features under constraints are collected in a set of strings, and those that are not useful on their own enter the program in the
      order in which Python iterates that set, which changes from run to run.  Subset limits refer to features by position (C34), so they hit another
      feature: in one run there is recourse, in the other there is none.  Same builder, same individual, any correct solver, both back ends, all cost types. *)
Theorem C108_verdict_refuted : forall k ct, exists E' b b0 b0', other_run env0 E' /\ flips_match (bd_A b) (bd_w b) /\ bd_kind b = k /\ bd_cost b = ct /\
  (forall sv, assigned env0 sv b x110 b0 /\ assigned E' sv b x110 b0') /\
  forall sv, sound_solver sv -> finishing_solver sv -> (exists b1 s, fit sv b0 = Ok (b1, Some s)) /\ exists b1, fit sv b0' = Ok (b1, None).
Proof. exact runs_refuted. Qed.
Print Assumptions C108_verdict_refuted.
(** If at most one of the features under constraints is useless on its own (for instance, if there are no constraints), the whole state of the builder
    is the same in every run, so fit, populate and everything else that does not assign x is (they do not consult the environment).
    Missing: constraints on two or more features that cannot help (see above). *)
Theorem C108_assign_partial : forall E E' sv b x b0, other_run E E' -> assigned E sv b x b0 -> flips_match (bd_A b) (bd_w b) -> order_free (bd_A b) (bd_w b) ->
  set_x E' b x = (b0, Ok tt).
Proof. exact runs_set_x. Qed.
Print Assumptions C108_assign_partial.
Theorem C108_create_partial : forall E E' k A a w t ct ox b, other_run E E' -> aset_reachable E A -> parse_classifier_args a = Ok (w, t) -> alignment_known A = false \/ flips_match A w -> order_free A w ->
  mk_builder E k A a ct ox = Ok b -> mk_builder E' k A a ct ox = Ok b.
Proof. exact runs_create. Qed.
Print Assumptions C108_create_partial.
Theorem C108_audit_partial : forall (I : Type) E E' sv k A w t b (X : list (I * list fl)) y b' out, other_run E E' -> aset_reachable E A -> auditor_used E sv k A w t b -> order_free A w ->
  audit E sv b X y = (b', Ok out) -> audit E' sv b X y = (b', Ok out).
Proof. exact @runs_audit_used. Qed.
Print Assumptions C108_audit_partial.
Theorem C108_flipset_partial : forall E E' sv srt k A x w t f fuel total et ct f', other_run E E' -> aset_reachable E A -> flipset_reachable E sv srt k A x w t None f ->
  alignment_known A = false \/ flips_match A w -> order_free A w ->
  f_populate E sv srt fuel total et ct f = Some (f', Ok tt) -> f_populate E' sv srt fuel total et ct f = Some (f', Ok tt).
Proof. exact runs_populate. Qed.
Print Assumptions C108_flipset_partial.
(** A case with two features under a constraint, and another iteration order. *)
Example C108_case : forall k ct, exists E' b b0, bd_kind b = k /\ bd_cost b = ct /\ other_run env0 E' /\ set_order E' <> set_order env0 /\ flips_match (bd_A b) (bd_w b) /\ order_free (bd_A b) (bd_w b) /\ constrained_at (bd_A b) 0 /\ constrained_at (bd_A b) 1 /\
  (forall sv, assigned env0 sv b x100 b0).
Proof. exact runs_case. Qed.
(** Action sets reached in one run are reached by the same operations in the other. *)
Theorem C108_same_sets : forall E E' A, other_run E E' -> aset_reachable E A -> aset_reachable E' A.
Proof. intros E E' A (_ & _ & K & L). exact (reachable_runs E E' A K L). Qed.
Print Assumptions C108_same_sets.
