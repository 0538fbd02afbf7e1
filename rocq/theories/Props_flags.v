(** Properties of flags: C135. *)
From Verif Require Import Proofs_props_actionset Spec_recourse Spec_backend Spec_flags Model_flags Model_limits Proofs_flags Proofs_concrete Proofs_backend Proofs_scen.
#[local] Open Scope string_scope.
#[local] Open Scope list_scope.
#[local] Open Scope Qc_scope.

(** * C135.  The full property: print_flag and check_flag change no result; they may be left out, None, True or False, anything else is rejected without a trace; objects can be shown whatever the flag. *)
(** Action sets: whatever the flags in force, creation returns the same set, or raises the same exception, as without flags. *)
Theorem C135_sets_partial : forall X names y custom dflt dst pf cf p c, in_force True pf p -> in_force False cf c ->
  (forall A p' c', mk_action_set_flags X names y custom dflt dst pf cf = Ok (A, (p', c')) <-> mk_action_set X names y custom dflt dst = Ok A /\ p' = p /\ c' = c) /\
  (forall e, mk_action_set_flags X names y custom dflt dst pf cf = Err e <-> mk_action_set X names y custom dflt dst = Err e).
Proof. exact sets_c135. Qed.
Print Assumptions C135_sets_partial.
Theorem C135_sets_rejected : forall X names y custom dflt dst pf cf, (forall p, ~ in_force True pf p) \/ (forall c, ~ in_force False cf c) ->
  exists e, mk_action_set_flags X names y custom dflt dst pf cf = Err e.
Proof. exact sets_rejected. Qed.
Print Assumptions C135_sets_rejected.
(** Builders likewise, on every action set a program can reach; the set is left behind the same as well. *)
Theorem C135_builders : forall E i A a ct x s pf cf p c, aset_reachable E A -> in_force True pf p -> in_force True cf c ->
  fst (builder_create_flags E i A a ct x s pf cf) = fst (builder_create E i A a ct x s) /\
  (forall b p' c', snd (builder_create_flags E i A a ct x s pf cf) = Ok (b, (p', c')) <-> snd (builder_create E i A a ct x s) = Ok b /\ p' = p /\ c' = c) /\
  (forall e, snd (builder_create_flags E i A a ct x s pf cf) = Err e <-> snd (builder_create E i A a ct x s) = Err e).
Proof. exact builders_c135. Qed.
Print Assumptions C135_builders.
Theorem C135_builders_rejected : forall E i A a ct x s pf cf, (forall p, ~ in_force True pf p) \/ (forall c, ~ in_force True cf c) ->
  exists e, snd (builder_create_flags E i A a ct x s pf cf) = Err e.
Proof. exact builders_rejected. Qed.
Print Assumptions C135_builders_rejected.
(** Auditors: the same auditor whatever is given as print_flag. *)
Theorem C135_auditors_partial : forall E i A a s kw, aset_reachable E A ->
  fst (auditor_create_flag E i A a s kw) = fst (auditor_create E i A a s) /\
  (forall b v, snd (auditor_create_flag E i A a s kw) = Ok (b, v) <-> snd (auditor_create E i A a s) = Ok b /\ v = given kw) /\
  (forall e, snd (auditor_create_flag E i A a s kw) = Err e <-> snd (auditor_create E i A a s) = Err e).
Proof. exact auditors_c135. Qed.
Print Assumptions C135_auditors_partial.
(** The display flag of fit and populate: calls that differ in it alone return, or raise, alike before the solver runs, and run it with the same limits. *)
Theorem C135_display : forall k L s t n d d' b b', in_force True (Some d) b -> in_force True (Some d') b' ->
  snd (apply_limits k L s t n d) = snd (apply_limits k L s t n d') /\
  (snd (apply_limits k L s t n d) = Ok tt -> fst (apply_limits k L s t n d) = fst (apply_limits k L s t n d')).
Proof. exact display_c135. Qed.
Print Assumptions C135_display.

(** Refuted: None is rejected as check_flag of an action set (builders accept it; so do all other flags). *)
Theorem C135_none_refuted : forall X names y custom dflt dst A, mk_action_set X names y custom dflt dst = Ok A ->
  mk_action_set_flags X names y custom dflt dst None (Some PNone) = Err AssertionError /\
  mk_action_set_flags X names y custom dflt dst (Some PNone) None = Ok (A, (true, true)).
Proof. exact none_refuted. Qed.
Print Assumptions C135_none_refuted.
(** Refuted: a builder rejected for its flag leaves the action set aligned with its coefficients, and a builder created later with other coefficients works with those directions. *)
Theorem C135_trace_refuted : forall E i A a w t s k, aset_reachable E A -> alignment_known A = false -> parse_classifier_args a = Ok (w, t) -> length w = as_len A ->
  pick_solver i s = Ok k -> forall ct x v a2 w2 t2 ct2, (forall p, ~ in_force True (Some v) p) -> parse_classifier_args a2 = Ok (w2, t2) -> length w2 = as_len A ->
  exists A' b, builder_create_flags E i A a ct x s (Some v) None = (A', Err AttributeError) /\
    builder_create_flags E i A' a2 ct2 None s None None = (A', Ok (b, (true, true))) /\ bd_A b = A' /\ flips_match (bd_A b) w.
Proof. exact builders_trace. Qed.
Print Assumptions C135_trace_refuted.
(** Refuted: creating an auditor accepts any value as print_flag, also those that assigning auditor.print_flag rejects. *)
Theorem C135_auditor_refuted : forall E i A a s b v, aset_reachable E A -> snd (auditor_create E i A a s) = Ok b -> (forall p, ~ in_force True (Some v) p) ->
  set_flag v = Err AttributeError /\ snd (auditor_create_flag E i A a s (Some v)) = Ok (b, v).
Proof. exact auditor_refuted. Qed.
Print Assumptions C135_auditor_refuted.
(** Refuted: an action set created with print_flag=False cannot be shown (repr raises TypeError), although str prints it. *)
Theorem C135_shown_refuted : forall X names y custom dflt dst A p c, mk_action_set_flags X names y custom dflt dst (Some (PBool false)) None = Ok (A, (p, c)) ->
  set_repr p A = Err TypeError /\ exists d, tabulate (inl A) = Ok d.
Proof. exact shown_refuted. Qed.
Print Assumptions C135_shown_refuted.

Example C135_sets_nonvacuous : exists A, mk_action_set_flags tab2 ["a"; "b"] 1 [] default_bounds default_step_type (Some (PBool false)) (Some (PBool true)) = Ok (A, (false, true)).
Proof. exact flags_case. Qed.
Example C135_rejected_nonvacuous : forall p, ~ in_force True (Some (PInt 1)) p.
Proof. intros p H. inversion H. Qed.
Example C135_trace_nonvacuous : exists A, aset_reachable env0 A /\ as_len A = 2%nat /\ alignment_known A = false.
Proof. exact backend_case. Qed.
Example C135_auditor_nonvacuous : exists A b, aset_reachable env0 A /\ snd (auditor_create env0 {| has_cplex := true; has_mip := true |} A (coef_args [z 1; z 1] (- z 3)) None) = Ok b.
Proof. exact auditor_case135. Qed.
