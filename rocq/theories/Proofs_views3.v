(** Attributes the class does not define. *)
From Verif Require Import Proofs_props_element Proofs_props_actionset Spec_views Proofs_views Proofs_element Proofs_concrete.
#[local] Open Scope string_scope.
#[local] Open Scope list_scope.

Lemma getattr_other n e : elem_hasattr n = false -> String.prefix "_" n = false -> elem_getattr n e = of_option AttributeError (dget n (e_extra e)).
Proof.
  intros H P. unfold elem_getattr. rewrite H, P. cbn [orb]. unfold elem_hasattr, elem_settable, elem_readonly in H.
  repeat match goal with |- (if String.eqb n ?s then _ else _) = _ => destruct (String.eqb_spec n s) as [->|_]; [discriminate H|] end. reflexivity.
Qed.
Lemma setattr_other n v e : elem_hasattr n = false -> String.prefix "_" n = false -> elem_setattr n v e = Ok (with_extra e (dset n v (e_extra e))).
Proof.
  intros H P. unfold elem_setattr. pose proof H as H'. unfold elem_hasattr in H'. apply orb_false_iff in H'. destruct H' as [H' H3]. apply orb_false_iff in H'. destruct H' as [_ H2].
  rewrite H2, H3, P. unfold elem_hasattr, elem_settable in H.
  repeat match goal with |- (if String.eqb n ?s then _ else _) = _ => destruct (String.eqb_spec n s) as [->|_]; [discriminate H|] end. reflexivity.
Qed.
Lemma other_names n v m e e' : elem_hasattr n = false -> String.prefix "_" n = false ->
  (elem_created e -> elem_getattr n e = Err AttributeError) /\
  (elem_setattr n v e = Ok e' -> elem_getattr n e' = Ok v /\ (m <> n -> elem_getattr m e' = elem_getattr m e)).
Proof.
  intros H P. split.
  - intro Hc. rewrite (getattr_other n e H P). destruct (created_inv env0 e Hc) as (_ & _ & _ & -> & _). reflexivity.
  - rewrite (setattr_other n v e H P). intro Q. injection Q as <-. split.
    + rewrite (getattr_other n _ H P). cbn [with_extra e_extra]. rewrite dget_dset, String.eqb_refl. reflexivity.
    + intro N. unfold elem_getattr. cbn [with_extra e_extra e_name e_values e_actionable e_vtype e_grid e_bounds e_flip e_step_type e_step_dir e_step_size].
      rewrite dget_dset. replace (String.eqb m n) with false by (symmetry; now apply String.eqb_neq). reflexivity.
Qed.
