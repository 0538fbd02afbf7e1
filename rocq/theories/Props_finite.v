(** Properties of input that is not finite: C136. *)
From Verif Require Import Proofs_props_actionset Spec_recourse Spec_backend Spec_finite Model_finite Model_audit Proofs_finite Proofs_concrete Proofs_scen Proofs_flipset3.
#[local] Open Scope string_scope.
#[local] Open Scope list_scope.
#[local] Open Scope Qc_scope.

(** * C136.  The full property: nan, inf and -inf are rejected wherever data goes in - matrices, individuals, tables to audit - and a rejected call leaves no trace. *)
(** A matrix with a number that is not finite makes no action set, whatever the other arguments; with a nan the exception is AssertionError; a finite one is treated as everywhere in this model. *)
Theorem C136_matrices : forall X names y custom dflt dst r, In r X -> not_finite r -> exists e, mk_action_set_values X names y custom dflt dst = Err e.
Proof. exact table_rejected. Qed.
Print Assumptions C136_matrices.
Theorem C136_nan : forall X names y custom dflt dst r, In r X -> In NaN r -> mk_action_set_values X names y custom dflt dst = Err AssertionError.
Proof. exact nan_rejected. Qed.
Print Assumptions C136_nan.
Theorem C136_finite_matrices : forall X names y custom dflt dst, mk_action_set_values (map (map Fin) X) names y custom dflt dst = mk_action_set X names y custom dflt dst.
Proof. exact table_finite. Qed.
Print Assumptions C136_finite_matrices.
(** An individual that is not finite is rejected, by every builder, and no result notices: after any history the builder is the one that the history without the rejected vectors gives. *)
Theorem C136_individuals : forall E v xs, not_finite xs -> snd (set_x_values E v xs) = Err AssertionError.
Proof. exact (fun E v xs H => proj1 (x_rejected E v xs H)). Qed.
Print Assumptions C136_individuals.
Theorem C136_unnoticed_partial : forall E sv ops, exists ops', leaves_out ops ops' /\ forall v, vb_b (vrun E sv v ops) = builder_run E sv (vb_b v) ops'.
Proof. exact (fun E sv ops => match leaves_out_total ops with ex_intro _ o H => ex_intro _ o (conj H (rejected_invisible E sv ops o H)) end). Qed.
Print Assumptions C136_unnoticed_partial.
(** Builders are not created for such an individual; for finite ones, creation is the one modelled elsewhere. *)
Theorem C136_builders : forall E i A a ct xs s, not_finite xs -> exists A' e, builder_create_values E i A a ct xs s = (A', Err e).
Proof. exact create_rejected. Qed.
Print Assumptions C136_builders.
Theorem C136_finite_builders : forall E i A a ct q s,
  fst (builder_create_values E i A a ct (map Fin q) s) = fst (builder_create E i A a ct (Some q) s) /\
  (forall b, (exists v, snd (builder_create_values E i A a ct (map Fin q) s) = Ok v /\ vb_b v = b) <-> snd (builder_create E i A a ct (Some q) s) = Ok b) /\
  (forall e, snd (builder_create_values E i A a ct (map Fin q) s) = Err e <-> snd (builder_create E i A a ct (Some q) s) = Err e).
Proof. exact create_finite. Qed.
Print Assumptions C136_finite_builders.
(** feasible_grid and audit reject them with AssertionError; the auditor is as before. *)
Theorem C136_grids : forall E A x ra rp rc, not_finite x -> feasible_grid_values E A x ra rp rc = Err AssertionError.
Proof. exact grid_rejected. Qed.
Print Assumptions C136_grids.
Theorem C136_audits : forall (I : Type) E sv b (X : list (I * list fl)) y i r, In (i, r) X -> not_finite r -> audit E sv b X y = (b, Err AssertionError).
Proof. exact @audit_rejected. Qed.
Print Assumptions C136_audits.
(** A flipset for such an individual never gets an item: every populate raises. *)
Theorem C136_flipsets_partial : forall E i ct s f, not_finite (vf_x f) -> exists A' e, populate_values E i ct s f =
  Some ({| vf_A := A'; vf_x := vf_x f; vf_w := vf_w f; vf_t := vf_t f; vf_items := vf_items f |}, e).
Proof. exact flipset_rejected. Qed.
Print Assumptions C136_flipsets_partial.

(** Refuted: a rejected individual is what builder.x shows afterwards, while fit returns the action of the one before. *)
Theorem C136_shown_refuted : exists b x b0 xs, (forall sv, assigned env0 sv b x b0) /\ not_finite xs /\
  forall sv, sound_solver sv -> finishing_solver sv -> exists v b1 s, v = vstep env0 sv {| vb_b := b0; vb_x := Some (map Fin x) |} (VAssign xs) /\
    vb_x v = Some xs /\ fit sv (vb_b v) = Ok (b1, Some s) /\ fit sv b0 = Ok (b1, Some s).
Proof. exact shown_refuted136. Qed.
Print Assumptions C136_shown_refuted.
(** Refuted: creating a flipset accepts every vector. *)
Theorem C136_flipset_refuted : forall A xs a w t, parse_classifier_args a = Ok (w, t) -> mk_flipset_values A xs a = Ok {| vf_A := A; vf_x := xs; vf_w := w; vf_t := t; vf_items := [] |}.
Proof. exact flipset_refuted. Qed.
Print Assumptions C136_flipset_refuted.

Example C136_not_finite_nonvacuous : not_finite [Fin 1; PosInf; Fin 0] /\ not_finite [NaN] /\ not_finite [NegInf; NaN].
Proof. repeat split; eexists; split; [right; left; reflexivity|auto|left; reflexivity|auto|left; reflexivity|auto]. Qed.
Example C136_unnoticed_nonvacuous : leaves_out [VAssign [Fin (z 1)]; VAssign [NaN]; VOther BFit] [BSetX [z 1]; BFit].
Proof. apply (lo_assigned [z 1]). apply lo_rejected; [exists NaN; split; [left; reflexivity|auto]|]. apply lo_other. apply lo_nil. Qed.
Example C136_flipset_nonvacuous : parse_classifier_args (coef_args [z 1; z 1] (- z 3)) = Ok ([z 1; z 1], - z 3).
Proof. exact (coef_parse _ _). Qed.
