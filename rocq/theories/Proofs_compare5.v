(** C96: a feature is described by the values in its column, in any order. *)
From Verif Require Import Proofs_props_element Proofs_props_actionset Proofs_bounds Spec_compare.
#[local] Open Scope string_scope.
#[local] Open Scope list_scope.
#[local] Open Scope Qc_scope.

Lemma qsort_eq l l' : Permutation l l' -> qsort l = qsort l'.
Proof. intro H. apply sorted_perm_unique; [apply qsort_sorted|apply qsort_sorted|]. now rewrite !qsort_perm. Qed.
Lemma forallb_perm {A} (f : A -> bool) l l' : Permutation l l' -> forallb f l = forallb f l'.
Proof. induction 1 as [|a l l' H IH|a b l|l l' l'' H1 IH1 H2 IH2]; cbn; [reflexivity|now rewrite IH| |congruence]. destruct (f a), (f b); reflexivity. Qed.
Lemma vtype_perm l l' : Permutation l l' -> determine_variable_type l = determine_variable_type l'.
Proof. intro H. unfold determine_variable_type. now rewrite (forallb_perm _ _ _ H), (forallb_perm (fun v => (v =? 0) || (v =? 1)) _ _ H). Qed.
Lemma mk_element_perm n l l' b vt a st sd ss : Permutation l l' -> mk_element n l b vt a st sd ss = mk_element n l' b vt a st sd ss.
Proof. intro H. unfold mk_element. now rewrite (qsort_eq _ _ H). Qed.
Lemma column_element_perm custom dflt dst n l l' : Permutation l l' -> mk_column_element custom dflt dst n l = mk_column_element custom dflt dst n l'.
Proof. intro H. unfold mk_column_element. rewrite (vtype_perm _ _ H). destruct (determine_variable_type l'); apply mk_element_perm, H. Qed.
Lemma column_perm X X' j : Permutation X X' -> Permutation (Model_actionset.column X j) (Model_actionset.column X' j).
Proof. intro H. unfold Model_actionset.column. now apply Permutation_map. Qed.
Lemma mapM_ext_eq {A B} (f g : A -> res B) l : (forall a, f a = g a) -> mapM f l = mapM g l.
Proof. intro H. induction l as [|a l IH]; [reflexivity|]. cbn. now rewrite H, IH. Qed.
Lemma rows_thm X X' names y custom dflt dst : Permutation X X' -> mk_action_set X' names y custom dflt dst = mk_action_set X names y custom dflt dst.
Proof.
  intro H. unfold mk_action_set. rewrite (Permutation_length H), (forallb_perm _ _ _ H).
  erewrite (mapM_ext_eq (fun p => mk_column_element custom dflt dst (snd p) (Model_actionset.column X' (fst p)))); [reflexivity|]. intro p. apply column_element_perm. symmetry. now apply column_perm.
Qed.
Lemma own_column X X' names names' y y' custom dflt dst A A' j j' n e e' : mk_action_set X names y custom dflt dst = Ok A -> mk_action_set X' names' y' custom dflt dst = Ok A' ->
  nth_error names j = Some n -> nth_error names' j' = Some n -> Permutation (Model_actionset.column X j) (Model_actionset.column X' j') ->
  nth_error (as_elems A) j = Some e -> nth_error (as_elems A') j' = Some e' -> e' = e.
Proof.
  intros H1 H2 N1 N2 HP E1 E2. apply mk_aset_spec in H1, H2. destruct H1 as (_ & _ & _ & _ & _ & _ & C1), H2 as (_ & _ & _ & _ & _ & _ & C2).
  pose proof (C1 j n e N1 E1) as K1. pose proof (C2 j' n e' N2 E2) as K2. rewrite (column_element_perm _ _ _ _ _ _ HP) in K1. congruence.
Qed.
