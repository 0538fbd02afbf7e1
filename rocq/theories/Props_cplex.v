(** Properties of CPLEX parameters and helper functions: C79-C83, and C43 continued. *)
From Verif Require Import Proofs_num Proofs_props_actionset Spec_cplex Proofs_cplex.
#[local] Open Scope string_scope.
#[local] Open Scope list_scope.
#[local] Open Scope Qc_scope.

(** * C79.  The full property: fit and populate show the solver's progress exactly when display_flag is True.  False of
      the code: with the default parameters nothing is ever shown. *)
Theorem C79_never_shown_refuted : forall L l c, solves_with L None l c -> shows_progress c = false.
Proof. exact default_quiet. Qed.
Print Assumptions C79_never_shown_refuted.
(** Exactly when it is shown: display_flag is True in this call and in all earlier calls on the same individual, and the
    builder's parameters do not say display_cplex_progress = False.  In particular, nothing is shown without the flag. *)
Theorem C79_shown_partial : forall L p l a c, solves_with L (Some p) (l ++ [a]) c ->
  shows_progress c = true <-> ca_display a = true /\ dget "display_cplex_progress" p <> Some (PBool false) /\ Forall (fun a => ca_display a = true) l.
Proof. exact c79_display. Qed.
Print Assumptions C79_shown_partial.
(** The three display levels of the solver follow the flag of the call. *)
Theorem C79_levels : forall L p l a c q, solves_with L p (l ++ [a]) c -> In q ["mip.display"; "simplex.display"; "paramdisplay"] ->
  c_param c q = Fin (if ca_display a then 1 else 0).
Proof. exact c79_levels. Qed.
Print Assumptions C79_levels.

(** * C80.  The full property: the entries of cplex_parameters are in force whenever the builder solves.  False of the
      code for four entries that are never used, and for the limits, which every call without limits removes. *)
Theorem C80_ignored_refuted : forall L p l c k q, solves_with L (Some p) l c -> In (k, q) ineffective -> c_param c q = cl_default L q.
Proof. exact c80_ignored. Qed.
Print Assumptions C80_ignored_refuted.
Theorem C80_limits_refuted : forall L p l a c, ok_maxima L -> solves_with L (Some p) (l ++ [a]) c ->
  (ca_time a = None -> c_param c "timelimit" = cl_max L "timelimit") /\ (ca_node a = None -> c_param c "mip.limits.nodes" = cl_max L "mip.limits.nodes").
Proof. exact c80_limits. Qed.
Print Assumptions C80_limits_refuted.
(** All other entries are in force in every call. *)
Theorem C80_in_force_partial : forall L p l c k q f, solves_with L (Some p) l c -> In (k, q) effective -> entry p k f -> c_param c q = f.
Proof. exact c80_in_force. Qed.
Print Assumptions C80_in_force_partial.
(** The dictionary has to be complete. *)
Theorem C80_complete : forall L p, ok_maxima L -> complete p -> exists c, cplex_of_builder L (Some p) = Ok c.
Proof. exact c80_complete. Qed.
Print Assumptions C80_complete.
Theorem C80_incomplete : forall L p c, cplex_of_builder L (Some p) = Ok c ->
  dget "display_cplex_progress" p <> None /\ dget "time_limit" p <> None /\ dget "node_limit" p <> None /\ forall k q, In (k, q) effective -> dget k p <> None.
Proof. exact c80_incomplete. Qed.
Print Assumptions C80_incomplete.
(** A builder made without cplex_parameters runs with the documented defaults. *)
Theorem C80_defaults : forall L l c q f, solves_with L None l c -> In (q, f) documented_defaults -> c_param c q = f.
Proof. exact c80_defaults. Qed.
Print Assumptions C80_defaults.
Definition some_lib : cpxlib := {| cl_paths := []; cl_default := fun p => if String.eqb p "mip.display" then Fin (qz 2) else Fin (- qz 1);
  cl_max := fun p => if String.eqb p "timelimit" then Fin (qz 1000) else Fin (qz 500) |}.
Definition some_params := dset "time_limit" (PInt 60) (dset "mipemphasis" (PInt 3) (dset "display_cplex_progress" PNone default_cplex_parameters)).
Definition some_calls := [{| ca_time := Some (Fin (qz 5)); ca_node := None; ca_display := true |}; {| ca_time := None; ca_node := Some (Fin (qz 7)); ca_display := true |}].
Example C80_nonvacuous : ok_maxima some_lib /\ complete some_params /\ entry some_params "mipemphasis" (Fin (qz 3)) /\ entry some_params "time_limit" (Fin (qz 60)) /\
  exists c, solves_with some_lib (Some some_params) some_calls c /\ shows_progress c = true /\ c_param c "timelimit" = Fin (qz 1000) /\ c_param c "emphasis.mip" = Fin (qz 3).
Proof.
  split; [split; [exists (qz 1000); split; [reflexivity|apply (proj2 (qz_lt 0 1000)); lia]|exists 500%Z; split; [reflexivity|lia]]|].
  split.
  { split; [eexists; reflexivity|]. split; [intros k q H; unfold effective in H; cbn [In] in H; repeat (destruct H as [H|H]; [injection H as <- <-; eexists; eexists; split; reflexivity|]); destruct H|].
    split; eexists; (split; [eexists; split; reflexivity|]); apply (proj2 (qz_le 0 _)); lia. }
  split; [eexists; split; reflexivity|]. split; [eexists; split; reflexivity|].
  eexists. split; [split; [discriminate|eexists; split; reflexivity]|]. repeat split.
Qed.
(** * C43, continued: the solver object of a CPLEX builder has the limits that Model_limits.v says. *)
Theorem C43_cplex_object : forall L M t n d c c' m, same_maxima L M -> cplex_of_call L t n d c = Ok c' ->
  (t = None \/ t = Some PosInf \/ exists q, t = Some (Fin q)) -> (n = None \/ n = Some PosInf \/ exists q, n = Some (Fin q)) ->
  let f v := match v with Some f => f | None => PosInf end in
  c_param c' "timelimit" = sl_time (put_time CPX M (f t) m) /\ c_param c' "mip.limits.nodes" = Fin (qz (sl_nodes (put_nodes CPX M (f n) m))).
Proof. exact c43_same_limits. Qed.
Print Assumptions C43_cplex_object.

(** * C81.  A copy of a Cplex object has the same variables and the same parameters. *)
Theorem C81_copy : forall L c, c_vars (copy_cplex L c) = c_vars c /\ forall p, In p (cl_paths L) -> c_param (copy_cplex L c) p = c_param c p.
Proof. intros L c. split; [apply copy_vars|apply c81_copy]. Qed.
Print Assumptions C81_copy.
(** Output streams are not copied: a copy prints, even if the original was silenced. *)
Theorem C81_copy_prints : forall L c, c_streams (copy_cplex L c) = true.
Proof. exact copy_streams. Qed.
Print Assumptions C81_copy_prints.
Example C81_nonvacuous : let L := {| cl_paths := ["threads"; "timelimit"]; cl_default := fun _ => Fin 0; cl_max := fun _ => Fin 1 |} in
  c_param (copy_cplex L (c_set "threads" (Fin (qz 4)) (new_cplex L))) "threads" = Fin (qz 4) /\ get_changed L (c_set "threads" (Fin (qz 4)) (new_cplex L)) = [("threads", Fin (qz 4))].
Proof. split; reflexivity. Qed.

(** * C82.  The full property: add_variable_cpx adds one variable per name, with the objective, bounds and type given for
      it; numbers, one-element lists and one-letter types are for all variables.  False of the code: bounds given to
      binary variables are ignored ... *)
Theorem C82_binary_bounds_refuted : forall c n f lb ub, exists c' v, add_variable_cpx c (SOne n) (FNum f) (FNum ub) (FNum lb) (SOne "B") = Ok c' /\
  c_vars c' = c_vars c ++ [v] /\ cv_lb v = Fin 0 /\ cv_ub v = Fin 1.
Proof. intros c n f lb ub. eexists _, _. repeat split. Qed.
Print Assumptions C82_binary_bounds_refuted.
(** ... one-element lists raise, and for a single variable longer lists are accepted. *)
Theorem C82_one_element_refuted : forall c names f ub lb t, length names <> 1%nat ->
  add_variable_cpx c (SList names) (FList [f]) ub lb (SList t) = Err TypeError.
Proof.
  intros c names f ub lb t H. unfold add_variable_cpx. cbv zeta. rewrite (proj2 (Nat.eqb_neq _ _) H). cbn [many_types many_nums bind length].
  destruct (Nat.eqb_spec 1 (length names)); [congruence|reflexivity].
Qed.
Print Assumptions C82_one_element_refuted.
Theorem C82_longer_lists_refuted : forall c n f g ub lb, exists c' v, add_variable_cpx c (SOne n) (FList [f; g]) (FNum ub) (FNum lb) (SOne "C") = Ok c' /\
  c_vars c' = c_vars c ++ [v] /\ cv_obj v = f.
Proof. intros. eexists _, _. repeat split. Qed.
Print Assumptions C82_longer_lists_refuted.
(** What holds: whenever it succeeds, one variable per name is added, in order, with the objective and type given for it,
    and with the bounds given for it unless all variables are binary; nothing else changes. *)
Theorem C82_added_partial : forall c name obj ub lb vt c', add_variable_cpx c name obj ub lb vt = Ok c' ->
  exists vs, c' = c_add_vars vs c /\ length vs = length (names_of name) /\
    forall j v, nth_error vs j = Some v -> nth_error (names_of name) j = Some (cv_name v) /\ num_for obj j (cv_obj v) /\ type_for vt (length vs) j (cv_type v) /\
      ((num_for lb j (cv_lb v) /\ num_for ub j (cv_ub v) /\ exists v', In v' vs /\ cv_type v' <> "B") \/ (cv_lb v = Fin 0 /\ cv_ub v = Fin 1 /\ Forall (fun v => cv_type v = "B") vs)).
Proof. exact c82_added. Qed.
Print Assumptions C82_added_partial.
(** Two or more variables with fitting arguments are accepted; arrays of ints are not. *)
Theorem C82_accepted_partial : forall c name obj ub lb vt n, length (names_of name) = n -> (2 <= n)%nat -> nums_for n obj -> nums_for n ub -> nums_for n lb -> types_for n vt ->
  exists c', add_variable_cpx c name obj ub lb vt = Ok c'.
Proof. exact c82_accepted. Qed.
Print Assumptions C82_accepted_partial.
Theorem C82_int_arrays_refuted : forall c name obj ub lb vt l, (2 <= length (names_of name))%nat -> obj = FArr true l \/ ub = FArr true l \/ lb = FArr true l ->
  exists e, add_variable_cpx c name obj ub lb vt = Err e.
Proof. exact c82_ints. Qed.
Print Assumptions C82_int_arrays_refuted.
Example C82_nonvacuous : forall c, exists c', add_variable_cpx c (SList ["a"; "b"]) (FNum (Fin 1)) (FList [Fin (qz 2); PosInf]) (FArr false [Fin 0; Fin 1]) (SOne "CI") = Ok c' /\
  c_vars c' = c_vars c ++ [{| cv_name := "a"; cv_obj := Fin 1; cv_lb := Fin 0; cv_ub := Fin (qz 2); cv_type := "C" |};
                           {| cv_name := "b"; cv_obj := Fin 1; cv_lb := Fin 1; cv_ub := PosInf; cv_type := "I" |}].
Proof. intro c. eexists. split; reflexivity. Qed.

(** * C83.  The full property: preprocessing that is switched off and on again is as before.  False of the code for
      preprocessing parameters that were not at CPLEX's default, such as a builder's bound_strengthening. *)
Theorem C83_round_trip_refuted : forall L p c f, cplex_of_builder L (Some p) = Ok c -> entry p "bound_strengthening" f ->
  c_param c "preprocessing.boundstrength" = f /\
  c_param (toggle_cpx_preprocessing L true (toggle_cpx_preprocessing L false c)) "preprocessing.boundstrength" = cl_default L "preprocessing.boundstrength".
Proof.
  intros L p c f H HE. destruct (builder_param _ _ _ H) as (HP & _). split; [eapply HP; [|exact HE]; cbn; tauto|]. now rewrite toggle_spec.
Qed.
Print Assumptions C83_round_trip_refuted.
(** What holds: switching off sets the five preprocessing parameters to 0, switching on to their defaults; nothing else is
    touched; the round trip restores parameters that were at their defaults. *)
Theorem C83_toggle_partial : forall L c p,
  (In p the_five -> c_param (toggle_cpx_preprocessing L false c) p = Fin 0 /\ c_param (toggle_cpx_preprocessing L true c) p = cl_default L p) /\
  (~ In p the_five -> forall b, c_param (toggle_cpx_preprocessing L b c) p = c_param c p) /\
  (c_param c p = cl_default L p -> c_param (toggle_cpx_preprocessing L true (toggle_cpx_preprocessing L false c)) p = c_param c p).
Proof.
  assert (F : forall p, smem p preprocessing_parameters = true <-> In p the_five).
  { intro p. rewrite Proofs_registry.smem_iff. cbn. tauto. }
  intros L c p. split; [|split].
  - intro H. apply F in H. rewrite !toggle_spec, H. auto.
  - intros H b. rewrite toggle_spec. destruct (smem p preprocessing_parameters) eqn:E; [|reflexivity]. apply F in E. contradiction.
  - intro H. rewrite !toggle_spec. destruct (smem p preprocessing_parameters); congruence.
Qed.
Print Assumptions C83_toggle_partial.
