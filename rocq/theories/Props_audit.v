(** Property theorems for audits: C49-C55.  Vocabulary: Spec_audit.v, Spec_recourse.v.
    [audit E sv b X y = (b', r)]: the auditor [b] audits the table [X] (rows with index labels) for y_desired = [y];
    [r] is the returned table or the exception, [b'] the auditor afterwards.  A result line is [None] (blank:
    feasible and cost NaN) or [Some (feasible, cost)].
    [auditor_reachable]: created for action set [A] and classifier (w, t), then any audits and any changes of the
    shared action set; [auditor_used]: created, then any audits. *)
From Verif Require Import Proofs_props_element Proofs_props_actionset Spec_audit Proofs_builder Proofs_solver Proofs_concrete Proofs_scen Proofs_builder7 Proofs_builder8 Proofs_audit Proofs_audit2 Proofs_audit3 Proofs_audit4 Proofs_settled.
#[local] Open Scope list_scope.
#[local] Open Scope Qc_scope.

(** The hypotheses of all positive theorems below are met by this auditor and table (rows 5 and 9 are the same
    denied individual, row 7 is approved), once with recourse and once without. *)
Example audit_nonvacuous : forall t0 (fe : bool), (t0 = - z 3 /\ fe = true) \/ (t0 = - z 7 /\ fe = false) ->
  exists A b, aset_reachable env0 A /\ auditor_created env0 PyMIP A [z 1; z 1] t0 b /\
  unconstrained A /\ current_percentiles A /\ as_y A = 1%Z /\ fits_grids A x01 /\ denied 1 (score [z 1; z 1] t0 x01) /\
  forall sv, sound_solver sv -> finishing_solver sv ->
    exists b' v, audit env0 sv b (table_of X_case) 1 = (b', Ok [(5%nat, Some (fe, v)); (7%nat, None); (9%nat, Some (fe, v))]).
Proof. exact audit_case. Qed.

(** * C49: one result per row, in the order of [X], with the index of [X]. *)
Theorem C49_index_kept : forall (I : Type) E sv b (X : list (I * list fl)) y b' out,
  audit E sv b X y = (b', Ok out) -> map fst out = map fst X.
Proof. exact @c49. Qed.
Print Assumptions C49_index_kept.

(** * C50: blank lines are exactly the individuals with the desired outcome. *)
Theorem C50_blank_iff_approved : forall (I : Type) E sv k A w t b (X : list (I * list Qc)) y b' out,
  auditor_reachable E sv k A w t b -> audit E sv b (table_of X) y = (b', Ok out) ->
  Forall2 (fun p q => fst q = fst p /\ (snd q = None <-> has_outcome y (score w t (snd p)))) X out.
Proof. exact @c50. Qed.
Print Assumptions C50_blank_iff_approved.
(** Only tables of finite numbers are ever audited, so [table_of] loses nothing. *)
Theorem C50_finite_tables : forall (I : Type) E sv b (X : list (I * list fl)) y b' out,
  audit E sv b X y = (b', Ok out) -> exists X0, X = table_of X0.
Proof. exact @c49_finite. Qed.
Print Assumptions C50_finite_tables.

(** * C51: the result of a row is a function of its feature values only: the same for equal rows, for permuted
      tables, for other index labels, and for tables with other multiplicities of the same rows. *)
Theorem C51_equal_rows : forall (I : Type) E sv b (X : list (I * list Qc)) y b' out,
  audit E sv b (table_of X) y = (b', Ok out) ->
  exists g, out = map (fun p => (fst p, g (snd p))) X /\
    forall J (X' : list (J * list Qc)), (forall r, In r (map snd X') <-> In r (map snd X)) ->
      audit E sv b (table_of X') y = (b', Ok (map (fun p => (fst p, g (snd p))) X')).
Proof. exact @c51. Qed.
Print Assumptions C51_equal_rows.

(** * C52: verdicts.  Missing from the full property: audits for the outcome the action set is not set up for
      (false: C53), individuals with values that a grid cannot represent (false: C27), constraints out of line (false: C34), and,
      for y_desired = -1, the score 0, which counts as denied here but already satisfies the (non-strict) goal. *)
Theorem C52_verdicts_refuted : exists A w t b x a, aset_reachable env0 A /\ auditor_created env0 PyMIP A w t b /\ unconstrained A /\ current_percentiles A /\ as_y A = 1%Z /\ denied 1 (score w t x) /\
  permitted_action A x a /\ on_side 1 (score w t (vadd x a)) /\
  forall sv, sound_solver sv -> finishing_solver sv -> exists b', audit env0 sv b (table_of [(0%nat, x)]) 1 = (b', Ok [(0%nat, Some (false, PosInf))]).
Proof. exact c52_refuted. Qed.
Print Assumptions C52_verdicts_refuted.
Theorem C52_verdicts_partial : forall (I : Type) E sv k A w t b (X : list (I * list Qc)) y b' out,
  ok_env E -> sound_solver sv -> finishing_solver sv -> density E ->
  aset_reachable E A -> current_percentiles A -> auditor_used E sv k A w t b -> (0 <? y)%Z = (0 <? as_y A)%Z ->
  audit E sv b (table_of X) y = (b', Ok out) ->
  Forall2 (fun p q => orderly E A w (snd p) -> denied y (score w t (snd p)) ->
    ((exists c, snd q = Some (true, Fin c)) <-> exists a, permitted_action A (snd p) a /\ movable_only A (snd p) a /\ compliant A (snd p) a /\ on_side y (score w t (vadd (snd p) a))) /\
    (snd q = Some (false, PosInf) <-> forall a, permitted_action A (snd p) a -> movable_only A (snd p) a -> compliant A (snd p) a -> ~ on_side y (score w t (vadd (snd p) a)))) X out.
Proof. exact @c52. Qed.
Print Assumptions C52_verdicts_partial.
(** Every line, without any of these provisos: either infeasible with infinite cost, or feasible with the largest
    percentile shift of a permitted action with at least one change reaching the side the action set wants. *)
Theorem C52_costs : forall (I : Type) E sv k A w t b (X : list (I * list Qc)) y b' out,
  ok_env E -> sound_solver sv -> finishing_solver sv ->
  aset_reachable E A -> auditor_used E sv k A w t b -> audit E sv b (table_of X) y = (b', Ok out) ->
  Forall2 (fun p q => forall f c, snd q = Some (f, c) ->
    (f = false /\ c = PosInf) \/
    (f = true /\ exists a cs m, c = Fin m /\ permitted_action A (snd p) a /\ (1 <= n_changed a)%nat /\ on_side (as_y A) (score w t (vadd (snd p) a)) /\
      (orderly E A w (snd p) -> compliant A (snd p) a) /\ action_costs E CMax A (snd p) a cs /\ largest cs m /\ 0 < m)) X out.
Proof. exact @c52_cost. Qed.
Print Assumptions C52_costs.

(** * C53: y_desired only selects the rows; the recourse problem is the one of the action set. *)
Theorem C53_y_desired_refuted : exists A w t b x, aset_reachable env0 A /\ auditor_created env0 PyMIP A w t b /\
  (forall a, permitted_action A x a -> ~ on_side (-1) (score w t (vadd x a))) /\
  forall sv, sound_solver sv -> finishing_solver sv ->
    exists b' c, audit env0 sv b (table_of [(0%nat, x)]) (-1) = (b', Ok [(0%nat, Some (true, Fin c))]).
Proof. exact c53_refuted. Qed.
Print Assumptions C53_y_desired_refuted.
(** When the argument agrees with the action set, a feasible line is the cost of an action reaching that side. *)
Theorem C53_agreeing_outcome_partial : forall (I : Type) E sv k A w t b (X : list (I * list Qc)) y b' out,
  ok_env E -> sound_solver sv -> finishing_solver sv ->
  aset_reachable E A -> auditor_used E sv k A w t b -> (0 <? y)%Z = (0 <? as_y A)%Z -> audit E sv b (table_of X) y = (b', Ok out) ->
  Forall2 (fun p q => forall c, snd q = Some (true, c) ->
    exists a cs m, c = Fin m /\ permitted_action A (snd p) a /\ (1 <= n_changed a)%nat /\ on_side y (score w t (vadd (snd p) a)) /\
      action_costs E CMax A (snd p) a cs /\ largest cs m) X out.
Proof.
  intros I E sv k A w t b X y b' out HE HS HF HR HU HY HA. pose proof (c52_cost E sv k A w t b X y b' out HE HS HF HR HU HA) as H.
  eapply F2_impl; [|exact H]. intros p q K c Hc. destruct (K _ _ Hc) as [[Q _]|(_ & a & cs & m & K1 & K2 & K3 & K4 & _ & K5 & K6 & _)]; [discriminate Q|].
  exists a, cs, m. rewrite (side_sign _ _ _ HY). auto 8.
Qed.
Print Assumptions C53_agreeing_outcome_partial.

(** * C54: when every individual has the desired outcome the audit raises a KeyError, whatever the table. *)
Theorem C54_all_approved_refuted : forall (I : Type) E sv k A w t b (X : list (I * list Qc)) y,
  auditor_reachable E sv k A w t b -> label y -> X <> [] -> (forall p, In p X -> length (snd p) = length w) ->
  (forall p, In p X -> has_outcome y (score w t (snd p))) -> audit E sv b (table_of X) y = (b, Err KeyError).
Proof. exact @c54. Qed.
Print Assumptions C54_all_approved_refuted.
Example C54_nonvacuous : exists A b, aset_reachable env0 A /\ auditor_created env0 PyMIP A [z 1; z 1] (- z 3) b /\ label 1 /\
  forall p, In p [(7%nat, x44); (8%nat, x44)] -> length (snd p) = length [z 1; z 1] /\ has_outcome 1 (score [z 1; z 1] (- z 3) (snd p)).
Proof. exact c54_case. Qed.

(** * C55: an action set that is already aligned keeps the directions of the earlier classifier. *)
Theorem C55_misaligned_refuted : exists A w t x b0, aset_reachable env0 A /\ alignment_known A = true /\ mk_builder env0 PyMIP A (coef_args w t) CTotal (Some x) = Ok b0 /\
  unconstrained A /\ as_y A = 1%Z /\ fits_grids A x /\ current_percentiles A /\ denied 1 (score w t x) /\
  (exists a, permitted_action A x a /\ on_side 1 (score w t (vadd x a))) /\
  forall sv, sound_solver sv -> finishing_solver sv -> exists b1, fit sv b0 = Ok (b1, None).
Proof. exact c55_refuted. Qed.
Print Assumptions C55_misaligned_refuted.
Theorem C55_raises_refuted : exists A w t x, aset_reachable env0 A /\ unconstrained A /\ as_y A = 1%Z /\ fits_grids A x /\ current_percentiles A /\ denied 1 (score w t x) /\
  (exists a, permitted_action A x a /\ on_side 1 (score w t (vadd x a))) /\ forall k ct, mk_builder env0 k A (coef_args w t) ct (Some x) = Err AssertionError.
Proof. exact c55_raises. Qed.
Print Assumptions C55_raises_refuted.
(** Creating an auditor for another classifier on the same action set changes the verdicts of an existing builder. *)
Theorem C55_disturbed_refuted : exists A b w t w' t' x b1, aset_reachable env0 A /\ mk_builder env0 PyMIP A (coef_args w t) CTotal None = Ok b /\
  auditor_created env0 PyMIP (bd_A b) w' t' b1 /\
  forall sv, sound_solver sv -> finishing_solver sv ->
    (exists c0 c1 s, set_x env0 b x = (c0, Ok tt) /\ fit sv c0 = Ok (c1, Some s)) /\
    (exists c0 c1, set_x env0 (with_aset b (bd_A b1)) x = (c0, Ok tt) /\ fit sv c0 = Ok (c1, None)).
Proof. exact c55_disturbed. Qed.
Print Assumptions C55_disturbed_refuted.
(** The verdict is right for an action set that has no directions yet, or those of the builder's own classifier. *)
Theorem C55_own_alignment_partial : forall E sv k A args ct w t x b0,
  ok_env E -> sound_solver sv -> finishing_solver sv -> density E -> log_ok E ct ->
  aset_reachable E A -> parse_classifier_args args = Ok (w, t) -> mk_builder E k A args ct (Some x) = Ok b0 ->
  orderly E A w x -> (alignment_known A = false \/ flips_match A w) -> current_percentiles A -> denied (as_y A) (score w t x) ->
  exists b1 r, fit sv b0 = Ok (b1, r) /\
    match r with
    | Some s => permitted_action A x (s_actions s) /\ movable_only A x (s_actions s) /\ on_side (as_y A) (score w t (vadd x (s_actions s))) /\ compliant A x (s_actions s)
    | None => forall a, permitted_action A x a -> movable_only A x a -> compliant A x a -> ~ on_side (as_y A) (score w t (vadd x a))
    end.
Proof. exact fresh_verdict. Qed.
Print Assumptions C55_own_alignment_partial.
