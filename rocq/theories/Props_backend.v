(** Properties of solver selection and of creating objects: C75-C78. *)
From Verif Require Import Proofs_props_actionset Spec_backend Proofs_backend Proofs_concrete Proofs_scen.
#[local] Open Scope string_scope.
#[local] Open Scope list_scope.
#[local] Open Scope Qc_scope.

(** * C75.  The full property: the package can be used as soon as one of the two solvers is installed.  False of the
      code: with Python-MIP alone it cannot even be imported. *)
Theorem C75_python_mip_alone_refuted : exists i, has_mip i = true /\ import_recourse i = Err NameError.
Proof. exists {| has_cplex := false; has_mip := true |}. split; reflexivity. Qed.
Print Assumptions C75_python_mip_alone_refuted.
(** What holds: it can be imported exactly when CPLEX is installed, with or without Python-MIP. *)
Theorem C75_needs_cplex_partial : forall i, (exists u, import_recourse i = Ok u) <-> has_cplex i = true.
Proof. intro i. split; [intros ([] & H); now apply import_iff|intro H; exists tt; now apply import_iff]. Qed.
Print Assumptions C75_needs_cplex_partial.
Theorem C75_no_solver : forall i, has_cplex i = false -> has_mip i = false -> import_recourse i = Err ModuleNotFoundError.
Proof. intros [] H1 H2. cbn in H1, H2. subst. reflexivity. Qed.
Print Assumptions C75_no_solver.

(** * C76.  An object that was created uses the solver it was asked to use, which is installed; CPLEX if it was not
      asked for any.  All installed solvers are accepted, all other values of the argument rejected. *)
Theorem C76_builder_uses_solver : forall E i A a ct x s A' b, import_recourse i = Ok tt -> builder_create E i A a ct x s = (A', Ok b) ->
  usable i (bd_kind b) /\ (forall v, s = Some v -> names_solver i v (bd_kind b)) /\ (s = None -> bd_kind b = CPX).
Proof. exact c76_builder. Qed.
Print Assumptions C76_builder_uses_solver.
Theorem C76_auditor_uses_solver : forall E i A a s A' b, import_recourse i = Ok tt -> auditor_create E i A a s = (A', Ok b) ->
  usable i (bd_kind b) /\ (forall v, s = Some v -> names_solver i v (bd_kind b)) /\ (s = None -> bd_kind b = CPX).
Proof. exact c76_auditor. Qed.
Print Assumptions C76_auditor_uses_solver.
Theorem C76_flipset_uses_solver : forall E i A x w t ct s A' b, import_recourse i = Ok tt -> flipset_builder E i A x w t ct s None = (A', Ok b) ->
  usable i (bd_kind b) /\ (forall v, s = Some v -> names_solver i v (bd_kind b)) /\ (s = None -> bd_kind b = CPX).
Proof. exact c76_flipset. Qed.
Print Assumptions C76_flipset_uses_solver.
Theorem C76_installed_accepted : forall E i A a ct x k v, names_solver i v k ->
  snd (builder_create E i A a ct x (Some v)) = mk_builder E k A a ct x /\ snd (auditor_create E i A a (Some v)) = mk_auditor E k A a.
Proof. intros E i A a ct x k v H. split; [now apply c76_builder_accepts|now apply c76_auditor_accepts]. Qed.
Print Assumptions C76_installed_accepted.
Theorem C76_others_rejected : forall E i A a ct x w t v, names_none i v ->
  builder_create E i A a ct (Some x) (Some v) = (A, Err ValueError) /\ builder_create E i A a ct None (Some v) = (A, Err ValueError) /\
  flipset_builder E i A x w t ct (Some v) None = (A, Err ValueError) /\
  exists e, snd (auditor_create E i A a (Some v)) = Err e /\ forall k b, mk_auditor E k A a = Ok b -> e = ValueError.
Proof.
  intros E i A a ct x w t v H. split; [now apply c76_builder_rejects|]. split; [now apply c76_builder_rejects|]. split; [now apply c76_flipset_rejects|now apply c76_auditor_rejects].
Qed.
Print Assumptions C76_others_rejected.
Definition both := {| has_cplex := true; has_mip := true |}.
Example C76_nonvacuous : import_recourse both = Ok tt /\ names_solver both (PStr "python-mip") PyMIP /\ names_solver both (PStr "cplex") CPX /\
  names_none both (PStr "gurobi") /\ names_none both PNone /\ names_none {| has_cplex := true; has_mip := false |} (PStr "python-mip").
Proof.
  split; [reflexivity|]. split; [split; reflexivity|]. split; [split; reflexivity|].
  split; [|split]; (split; [intros [] [H1 H2]; cbn in H1, H2; congruence|congruence]).
Qed.

(** * C77.  The full property: when creating a builder or an auditor raises, the action set is as it was.  False of the
      code: an auditor aligns the action set before it looks at the solver argument ... *)
Theorem C77_auditor_refuted : forall E i A a w t v, aset_reachable E A -> parse_classifier_args a = Ok (w, t) -> length w = as_len A -> names_none i v ->
  exists A', auditor_create E i A a (Some v) = (A', Err ValueError) /\ flips_match A' w.
Proof. exact c77_auditor_refuted. Qed.
Print Assumptions C77_auditor_refuted.
(** ... and a builder before it looks at the individual. *)
Theorem C77_builder_refuted : forall E i A a w t ct x s k, aset_reachable E A -> alignment_known A = false -> parse_classifier_args a = Ok (w, t) -> length w = as_len A ->
  pick_solver i s = Ok k -> length x <> as_len A ->
  exists A', builder_create E i A a ct (Some x) s = (A', Err AssertionError) /\ alignment_known A' = true /\ flips_match A' w.
Proof. exact c77_builder_refuted. Qed.
Print Assumptions C77_builder_refuted.
(** What holds: creating an object changes nothing but flip directions; a builder changes nothing in an action set that
    has all its directions; a builder created without an individual fails without any change. *)
Theorem C77_builder_partial : forall E i A a ct x s A' r, aset_reachable E A -> builder_create E i A a ct x s = (A', r) ->
  only_directions_differ A A' /\ (alignment_known A = true -> A' = A).
Proof. exact c77_builder_directions. Qed.
Print Assumptions C77_builder_partial.
Theorem C77_without_individual_partial : forall E i A a ct s A' e, builder_create E i A a ct None s = (A', Err e) -> A' = A.
Proof. exact c77_builder_plain. Qed.
Print Assumptions C77_without_individual_partial.
Theorem C77_auditor_partial : forall E i A a s A' r, aset_reachable E A -> auditor_create E i A a s = (A', r) -> only_directions_differ A A'.
Proof. exact c77_auditor_directions. Qed.
Print Assumptions C77_auditor_partial.
Example C77_nonvacuous : exists A, aset_reachable env0 A /\ as_len A = 2%nat /\ alignment_known A = false /\
  (exists w t, parse_classifier_args (coef_args [qz 1; qz 2] 0) = Ok (w, t) /\ length w = as_len A) /\ pick_solver both None = Ok CPX /\ names_none both (PStr "gurobi").
Proof.
  destruct backend_case as (A & H1 & H2 & H3). exists A. split; [exact H1|]. split; [exact H2|]. split; [exact H3|]. split; [|split; [reflexivity|apply C76_nonvacuous]].
  exists [qz 1; qz 2], 0. split; [reflexivity|]. now rewrite H2.
Qed.

(** * C78.  A builder and a flipset made with the same classifier arguments compute the same scores and predictions,
      those of the classifier: w . x + t and its sign. *)
Theorem C78_same_scores : forall E k A a ct x b A1 ob f, mk_builder E k A a ct (Some x) = Ok b -> mk_flipset k A1 x a ob = Ok f ->
  exists w t, parse_classifier_args a = Ok (w, t) /\
    b_score b None = Ok (score w t x) /\ f_yhat f = Ok (score w t x) /\
    forall d, length d = length x ->
      b_score b (Some (vadd x d)) = Ok (score w t (vadd x d)) /\ f_score f d = Ok (score w t (vadd x d)) /\
      b_prediction b (Some (vadd x d)) = Ok (qsign (score w t (vadd x d))) /\ f_predict f d = Ok (qsign (score w t (vadd x d))).
Proof. exact c78_scores. Qed.
Print Assumptions C78_same_scores.
(** After an assignment, even one that raised, score() is that of the individual assigned last. *)
Theorem C78_current_individual : forall E b x b' r, set_x E b x = (b', r) -> length x = length (bd_w b) -> b_score b' None = Ok (score (bd_w b) (bd_t b) x).
Proof. exact c78_assigned. Qed.
Print Assumptions C78_current_individual.
Theorem C78_errors : forall b x, (b_score b (Some x) = Err ValueError <-> length x <> length (bd_w b)) /\ (bd_x b = None -> b_score b None = Err TypeError).
Proof. exact c78_errors. Qed.
Print Assumptions C78_errors.
(** score(actions) of a flipset adds a single number to every feature (numpy's broadcasting) and rejects other lengths. *)
Theorem C78_flipset_lengths : forall f, length (f_w f) = length (f_x f) ->
  (forall c, f_score f [c] = Ok (score (f_w f) (f_t f) (map (fun v => v + c) (f_x f)))) /\
  (forall d, length d <> length (f_x f) -> length d <> 1%nat -> f_score f d = Err ValueError).
Proof. exact c78_lengths. Qed.
Print Assumptions C78_flipset_lengths.
(** An individual given as a single number counts for every feature. *)
Theorem C78_flipset_single : forall f c d, f_x f = [c] -> length d = length (f_w f) -> f_score f d = Ok (score (f_w f) (f_t f) (map (fun v => c + v) d)).
Proof. exact c78_single. Qed.
Print Assumptions C78_flipset_single.
Example C78_nonvacuous : ok_and (sc_aset (sc2 PyMIP CTotal 0)) (fun A => ok_and (mk_builder env0 PyMIP A (coef_args [qz 1; qz 1] 0) CTotal (Some [qz 0; qz 1])) (fun b =>
  ok_and (mk_flipset PyMIP A [qz 0; qz 1] (coef_args [qz 1; qz 1] 0) None) (fun f => ok_and (f_predict f [qz 3; qz 0]) (Z.eqb 1)))) = true.
Proof. vm_compute. reflexivity. Qed.
