(** Property theorems for action sets: C07, C15, C17-C24, C59. *)
From Verif Require Import Spec_backend Proofs_props_actionset Proofs_desire.

(** * C07: false of the code; a constant (non 0/1) column makes the default relative step zero. *)
Theorem C07_any_table_accepted_refuted : exists X names, valid_names names /\ valid_table X names /\
  mk_action_set X names 1 [] default_bounds default_step_type = Err ValueError.
Proof. exact c07_refuted. Qed.
Print Assumptions C07_any_table_accepted_refuted.
(** Exactly which tables are accepted: every column is 0/1, or its 1st and 99th percentiles (rounded
    outwards for integer columns) differ; all others raise. *)
Theorem C07_any_table_accepted_partial : forall X names y,
  valid_names names -> valid_table X names -> (y = 1 \/ y = 0 \/ y = -1)%Z ->
  let ok := forall j col, (j < length names)%nat -> is_column X j col -> bool_column col \/ has_room col in
  (ok -> exists A, mk_action_set X names y [] default_bounds default_step_type = Ok A) /\
  (~ ok -> mk_action_set X names y [] default_bounds default_step_type = Err ValueError).
Proof. exact c07_partial. Qed.
Print Assumptions C07_any_table_accepted_partial.
Theorem C07_one_element_per_column : forall X names y custom dflt dst A,
  mk_action_set X names y custom dflt dst = Ok A ->
  as_names A = names /\ Forall2 (fun n e => e_name e = n) names (as_elems A) /\
  (forall j col e, is_column X j col -> nth_error (as_elems A) j = Some e -> Permutation (e_values e) col) /\
  alignment_known A = false.
Proof. exact c07_shape. Qed.
Print Assumptions C07_one_element_per_column.
Example C07_nonvacuous : ok_and (ex_set 1) (fun A => Nat.eqb (length (as_elems A)) 3) = true.
Proof. vm_compute. reflexivity. Qed.

(** * C15: false of the code when y_desired = 0 is assigned while it is -1 already. *)
Theorem C15_flip_directions_refuted : exists A A1 A2 w,
  aset_created A /\ (exists t, parse_classifier_args ex_args = Ok (w, t)) /\ set_alignment A ex_args = Ok A1 /\
  set_y_desired A1 0 = Ok A2 /\ as_y A2 = (-1)%Z /\ ~ flips_match A2 w.
Proof. exact c15_refuted. Qed.
Print Assumptions C15_flip_directions_refuted.
(** For assignments of +1/-1 it holds along every history of alignments and assignments. *)
Theorem C15_flip_directions_partial : forall E A ops A' w,
  aset_reachable E A -> Forall desire_pm1 ops -> align_run (A, None) ops = (A', Some w) -> flips_match A' w.
Proof. exact c15_partial. Qed.
Print Assumptions C15_flip_directions_partial.
(** Exactly 1, 0 and -1 can be assigned to y_desired; it then reads 1 or -1.  Nothing but the flip directions changes, and these only if the value differs from the one
    that is read and the action set is aligned: each is then reversed. *)
Theorem C15_assigning : forall E A, aset_reachable E A -> forall y,
  ((exists A', set_y_desired A y = Ok A') <-> y = 1%Z \/ y = 0%Z \/ y = (-1)%Z) /\
  forall A', set_y_desired A y = Ok A' ->
    as_y A' = (if (y =? 1)%Z then 1%Z else (-1)%Z) /\ as_names A' = as_names A /\ as_cons A' = as_cons A /\
    Forall2 (fun e e' => e' = with_flip e (e_flip e')) (as_elems A) (as_elems A') /\
    (y = as_y A \/ alignment_known A = false -> as_elems A' = as_elems A) /\
    (y <> as_y A -> alignment_known A = true -> Forall2 (fun e e' => exists f, e_flip e = Some f /\ e_flip e' = Some (- f)%Z) (as_elems A) (as_elems A')).
Proof. intros E A H y. split; [exact (desire_total A y)|]. intros A' H'. exact (desire_spec E A y A' H H'). Qed.
Print Assumptions C15_assigning.
(** An action set can be aligned with every classifier with one coefficient per feature, and no other; only the flip directions change. *)
Theorem C15_aligning : forall E A a, aset_reachable E A ->
  (forall w t, parse_classifier_args a = Ok (w, t) -> (exists A', set_alignment A a = Ok A') <-> length w = as_len A) /\
  forall A', set_alignment A a = Ok A' -> exists w t, parse_classifier_args a = Ok (w, t) /\ flips_match A' w /\ only_directions_differ A A'.
Proof. intros E A a H. split; [exact (align_total A a)|]. intro A'. exact (align_spec E A a A' H). Qed.
Print Assumptions C15_aligning.
Example C15_nonvacuous :
  ok_and (ex_set 1) (fun A => match align_run (A, None) [AlignTo ex_args; Desire (-1); Desire (-1); Desire 1; Desire (-1)] with
    | (A', Some _) => match map e_flip (as_elems A') with [Some (-1); Some 1; Some (-1)]%Z => true | _ => false end
    | _ => false end) = true.
Proof. vm_compute. reflexivity. Qed.

(** * C17 *)
Theorem C17_indexed_assignment : forall E A i ps name v A' r,
  aset_reachable E A -> select A i = Ok ps -> NoDup ps -> index_setattr A i name v = (A', r) ->
  as_names A' = as_names A /\ as_cons A' = as_cons A /\ as_y A' = as_y A /\ length (as_elems A') = as_len A /\
  (forall p, ~ In p ps -> nth_error (as_elems A') p = nth_error (as_elems A) p) /\
  (r = Ok tt -> forall k p, nth_error ps k = Some p ->
     exists e w e', nth_error (as_elems A) p = Some e /\
       (if match i with IStr _ | IInt _ => true | _ => false end then w = v else value_for v (length ps) k w) /\
       elem_setattr name w e = Ok e' /\ nth_error (as_elems A') p = Some e').
Proof. exact c17_index. Qed.
Print Assumptions C17_indexed_assignment.
Theorem C17_whole_set_assignment : forall E A name v A',
  aset_reachable E A -> elem_hasattr name = true -> set_setattr A name v = (A', Ok tt) ->
  as_names A' = as_names A /\ as_cons A' = as_cons A /\ as_y A' = as_y A /\ length (as_elems A') = as_len A /\
  (forall j e, nth_error (as_elems A) j = Some e ->
     exists w e', value_for v (as_len A) j w /\ elem_setattr name w e = Ok e' /\ nth_error (as_elems A') j = Some e').
Proof. exact c17_whole. Qed.
Print Assumptions C17_whole_set_assignment.
Theorem C17_element_assignment : forall n v e e', elem_setattr n v e = Ok e' -> same_except n e e'.
Proof. exact setattr_same. Qed.
Print Assumptions C17_element_assignment.
Theorem C17_reads_back : forall e,
  (forall b e', elem_setattr "actionable" (PBool b) e = Ok e' -> e_actionable e' = b) /\
  (forall t e', elem_setattr "variable_type" (PType t) e = Ok e' -> e_vtype e' = t) /\
  (forall z e', elem_setattr "step_direction" (PInt z) e = Ok e' -> e_step_dir e' = Z.sgn z) /\
  (forall z e', elem_setattr "flip_direction" (PInt z) e = Ok e' -> e_flip e' = Some (Z.sgn z)) /\
  (forall q e', elem_setattr "step_size" (PFloat (Fin q)) e = Ok e' -> e_step_size e' = q) /\
  (forall s e', elem_setattr "step_type" (PStr s) e = Ok e' ->
     (s = "relative" /\ e_step_type e' = Relative) \/ (s = "absolute" /\ e_step_type e' = AbsoluteStep)).
Proof. exact c17_readback. Qed.
Print Assumptions C17_reads_back.
Theorem C17_names_and_order_fixed : forall E A0 ops,
  aset_created A0 -> let A := aset_run E A0 ops in
  as_names A = as_names A0 /\ map e_name (as_elems A) = as_names A0 /\ Forall (elem_reachable E) (as_elems A).
Proof. exact c17_shape. Qed.
Print Assumptions C17_names_and_order_fixed.
Example C17_nonvacuous :
  ok_and (ex_set 1) (fun A => match select A (ISlice (Some 1) None)%Z with
    | Ok [1; 2]%nat => let '(A', r) := index_setattr A (ISlice (Some 1) None)%Z "actionable" (PList [PBool false; PBool true]) in
        match r with Ok _ => match map e_actionable (as_elems A') with [true; false; true] => true | _ => false end | _ => false end
    | _ => false end) = true.
Proof. vm_compute. reflexivity. Qed.

(** * C18: false of the code for Python lists of booleans. *)
Theorem C18_boolean_list_is_mask_refuted : exists A l ps,
  aset_created A /\ length l = as_len A /\ select A (IList (map PBool l)) = Ok ps /\
  ~ (forall p, In p ps <-> positions_mask l p).
Proof. exact c18_refuted. Qed.
Print Assumptions C18_boolean_list_is_mask_refuted.
(** It holds for numpy boolean arrays; a list of booleans selects features 1 (True) and 0 (False). *)
Theorem C18_boolean_list_is_mask_partial : forall A m ps,
  select A (IMask m) = Ok ps -> NoDup ps /\ forall p, In p ps <-> positions_mask m p.
Proof. exact c18_masks. Qed.
Print Assumptions C18_boolean_list_is_mask_partial.
Theorem C18_boolean_list_meaning : forall A l, l <> [] -> (2 <= as_len A)%nat ->
  select A (IList (map PBool l)) = Ok (map (fun b : bool => if b then 1%nat else 0%nat) l).
Proof. exact c18_lists. Qed.
Print Assumptions C18_boolean_list_meaning.
Example C18_nonvacuous : ok_and (ex_set 1) (fun A => match select A (IMask [false; false; true]) with Ok [2%nat] => true | _ => false end) = true.
Proof. vm_compute. reflexivity. Qed.

(** * C19: false of the code; a rejected value later in the list leaves a modified prefix. *)
Theorem C19_failed_assignment_atomic_refuted : exists A v A' x,
  aset_created A /\ set_setattr A "step_size" v = (A', Err x) /\ A' <> A.
Proof. exact c19_refuted. Qed.
Print Assumptions C19_failed_assignment_atomic_refuted.
(** What holds: values that cannot be distributed (wrong length or type) change nothing; otherwise the
    features before the rejected one hold their new values and all others are unchanged. *)
Theorem C19_failed_assignment_atomic_partial : forall E A name v A' x,
  aset_reachable E A -> elem_hasattr name = true -> set_setattr A name v = (A', Err x) ->
  (expand_values v (as_len A) = Err x -> A' = A) /\
  exists k, (k < as_len A)%nat /\
    (forall j, (k <= j)%nat -> nth_error (as_elems A') j = nth_error (as_elems A) j) /\
    (A' <> A -> forall j, (j < k)%nat -> exists e w e', nth_error (as_elems A) j = Some e /\ value_for v (as_len A) j w /\
                 elem_setattr name w e = Ok e' /\ nth_error (as_elems A') j = Some e').
Proof. exact c19_partial. Qed.
Print Assumptions C19_failed_assignment_atomic_partial.

(** * C20: false of the code for single elements (README: A['Married'].mutable = False). *)
Theorem C20_unknown_attribute_rejected_refuted : exists A A' p e,
  aset_created A /\ index_setattr A (IStr "married") "mutable" (PBool false) = (A', Ok tt) /\
  nth_error (as_elems A') p = Some e /\ e_name e = "married" /\ e_actionable e = true.
Proof. exact c20_refuted. Qed.
Print Assumptions C20_unknown_attribute_rejected_refuted.
Theorem C20_unknown_attribute_rejected_partial : forall A i ps name v,
  elem_hasattr name = false -> select A i = Ok ps -> match i with IStr _ | IInt _ => False | _ => True end ->
  index_setattr A i name v = (A, Err AssertionError).
Proof. exact c20_partial. Qed.
Print Assumptions C20_unknown_attribute_rejected_partial.
Theorem C20_unknown_attribute_ignored_on_elements : forall name v e e',
  elem_hasattr name = false -> elem_setattr name v e = Ok e' ->
  e' = with_extra e (e_extra e') /\ dget name (e_extra e') = Some v.
Proof. exact c20_silent. Qed.
Print Assumptions C20_unknown_attribute_ignored_on_elements.

(** * C21 *)
Theorem C21_constraints_well_formed : forall names ops id c,
  valid_names names -> stored (reg_run (empty_registry names) ops) id c -> wf_constraint names id c.
Proof. exact c21. Qed.
Print Assumptions C21_constraints_well_formed.
Theorem C21_accepts_every_valid_request : forall r ns lb ub id,
  valid_names (r_names r) -> id <> Some "" -> valid_names ns -> (2 <= length ns)%nat -> incl ns (r_names r) ->
  (0 <= qtrunc lb <= qtrunc ub)%Z -> (qtrunc ub <= Z.of_nat (length (r_names r)))%Z ->
  exists r' i, add_subset_limit r ns lb ub id = Ok (r', i).
Proof. exact add_accepted. Qed.
Print Assumptions C21_accepts_every_valid_request.
Example C21_nonvacuous :
  match dget "0" (r_cons (reg_run (empty_registry ["a"; "b"; "c"]) [RAdd ["c"; "a"] 0 1 None; RRemove "7"])) with
  | Some c => match c_names c, c_indices c with ["a"; "c"], [0; 2]%nat => true | _, _ => false end
  | None => false end = true.
Proof. vm_compute. reflexivity. Qed.

(** * C22: false of the code if a caller has used a numeral as id. *)
Theorem C22_adding_keeps_constraints_refuted : exists names ops ns r' i, valid_names names /\
  let r := reg_run (empty_registry names) ops in
  add_subset_limit r ns 0 1 None = Ok (r', i) /\ exists c, stored r i c /\ ~ stored r' i c.
Proof. exact c22_refuted. Qed.
Print Assumptions C22_adding_keeps_constraints_refuted.
Theorem C22_adding_keeps_constraints_partial : forall names ops ns lb ub r' i,
  valid_names names -> Forall no_numeral_id ops ->
  let r := reg_run (empty_registry names) ops in
  add_subset_limit r ns lb ub None = Ok (r', i) ->
  (forall c, ~ stored r i c) /\
  (exists c, stored r' i c /\ Permutation (c_names c) ns /\ c_lb c = qtrunc lb /\ c_ub c = qtrunc ub) /\
  (forall id c, id <> i -> (stored r' id c <-> stored r id c)).
Proof. exact c22_partial. Qed.
Print Assumptions C22_adding_keeps_constraints_partial.
Example C22_nonvacuous :
  Nat.eqb (length (r_cons (reg_run (empty_registry ["a"; "b"; "c"]) [RAdd ["c"; "a"] 0 1 (Some "one-hot"); RAdd ["c"; "b"] 0 1 None; RAdd ["a"; "b"] 0 1 None]))) 3 = true.
Proof. vm_compute. reflexivity. Qed.

(** * C23 *)
Theorem C23_add_then_remove : forall r ns lb ub id r' i,
  valid_names (r_names r) -> add_subset_limit r ns lb ub id = Ok (r', i) -> (forall c, ~ stored r i c) ->
  exists r2, registry_remove r' i = Ok r2 /\ same_constraints r2 r.
Proof. exact add_remove. Qed.
Print Assumptions C23_add_then_remove.
Theorem C23_removal_removes_only_its_target : forall r id r', registry_remove r id = Ok r' ->
  (exists c, stored r id c) /\ (forall c, ~ stored r' id c) /\
  forall id' c, id' <> id -> (stored r' id' c <-> stored r id' c).
Proof. exact remove_only. Qed.
Print Assumptions C23_removal_removes_only_its_target.
Theorem C23_unknown_id_rejected : forall r id, (forall c, ~ stored r id c) -> exists x, registry_remove r id = Err x.
Proof. exact remove_unknown. Qed.
Print Assumptions C23_unknown_id_rejected.

(** * C24 *)
Theorem C24_classifier_arguments : forall a wq tq,
  parse_classifier_args a = Ok (wq, tq) <->
  exists w t, describes a w t /\ Forall2 is_finite w wq /\ is_finite t tq.
Proof. exact c24. Qed.
Print Assumptions C24_classifier_arguments.
Theorem C24_all_forms_agree : forall c w t, linear_clf (AClf c) w [t] ->
  let via a := parse_classifier_args a in
  let kw := via {| k_clf := Some (AClf c); k_classifier := None; k_coefs := None; k_intercept := None; a_pos := [] |} in
  via {| k_clf := None; k_classifier := Some (AClf c); k_coefs := None; k_intercept := None; a_pos := [] |} = kw /\
  via {| k_clf := None; k_classifier := None; k_coefs := None; k_intercept := None; a_pos := [AClf c] |} = kw /\
  via {| k_clf := None; k_classifier := None; k_coefs := Some (AVec w); k_intercept := Some (ANum t); a_pos := [] |} = kw /\
  via {| k_clf := None; k_classifier := None; k_coefs := None; k_intercept := None; a_pos := [AVec w; ANum t] |} = kw.
Proof. exact c24_forms. Qed.
Print Assumptions C24_all_forms_agree.
Theorem C24_unusable_arguments_rejected : forall a, (forall w t, ~ describes a w t) -> exists x, parse_classifier_args a = Err x.
Proof. exact c24_errors. Qed.
Print Assumptions C24_unusable_arguments_rejected.
Example C24_nonvacuous : ok_and (parse_classifier_args ex_args) (fun p => (snd p =? qz 3) && Nat.eqb (length (fst p)) 3) = true.
Proof. vm_compute. reflexivity. Qed.

(** * C59: false of the code; a one-element list is handed over as a list. *)
Theorem C59_one_element_list_broadcast_refuted : exists A A',
  aset_created A /\ set_setattr A "actionable" (PList [PBool false]) = (A', Ok tt) /\
  Forall (fun e => e_actionable e = true) (as_elems A').
Proof. exact c59_refuted. Qed.
Print Assumptions C59_one_element_list_broadcast_refuted.
Theorem C59_one_element_list_broadcast_partial : forall E A name v f,
  aset_reachable E A -> elem_hasattr name = true -> v = PArr [f] -> as_len A <> 1%nat ->
  set_setattr A name v = set_setattr A name (PFloat f).
Proof. exact c59_partial. Qed.
Print Assumptions C59_one_element_list_broadcast_partial.
