(** Properties of leaving features out: C137. *)
From Verif Require Import Proofs_props_actionset Spec_fewer Spec_setup Proofs_concrete Proofs_scen Proofs_columns3 Proofs_constrained Proofs_fewer Proofs_fewer2 Proofs_fewer3 Proofs_fewer4 Proofs_fewer5 Spec_audit Proofs_fewer6.
#[local] Open Scope string_scope.
#[local] Open Scope list_scope.
#[local] Open Scope Qc_scope.

(** * C137.  The full property: features that cannot be changed or have coefficient 0 may be left out of the table, the classifier (their contribution
    to the score moves into the intercept) and the individual, and the rest may be put in any order: same verdict, same cost. *)
(** False with constraints: a feature that is not actionable, in front of constrained ones, displaces the constraint (C34). *)
Theorem C137_fewer_refuted : exists p b x b' x' b0 b0', (forall sv, assigned env0 sv b x b0) /\ (forall sv, assigned env0 sv b' x' b0') /\ narrowed p b x b' x' /\
  forall sv, sound_solver sv -> finishing_solver sv -> (exists b1 s, fit sv b0 = Ok (b1, Some s)) /\ exists b1, fit sv b0' = Ok (b1, None).
Proof. exact fewer_refuted. Qed.
Print Assumptions C137_fewer_refuted.
(** What holds if constraints, if any, are in line in both (C34). *)
Theorem C137_fewer_partial : forall E sv sv' p b x b' x' b0 b0', ok_env E -> sound_solver sv -> finishing_solver sv -> sound_solver sv' -> finishing_solver sv' -> density E -> log_ok E (bd_cost b) ->
  assigned E sv b x b0 -> assigned E sv' b' x' b0' -> narrowed p b x b' x' -> good_setup E b x -> orderly E (bd_A b') (bd_w b') x' ->
  exists b1 r b1' r', fit sv b0 = Ok (b1, r) /\ fit sv' b0' = Ok (b1', r') /\
    match r, r' with
    | Some s, Some s' => regular E (bd_A b) x -> bd_cost b <> CMax -> s_cost s' = s_cost s
    | None, None => True
    | _, _ => False
    end.
Proof. exact fewer_thm. Qed.
Print Assumptions C137_fewer_partial.
(** Hypotheses met, for both backends and every cost type: at most one of a and b; d cannot change and is left out. *)
Example C137_fewer_case : forall k k' ct, exists p b b' b0 b0', (forall sv, assigned env0 sv b x1002 b0) /\ (forall sv, assigned env0 sv b' x100 b0') /\ narrowed p b x1002 b' x100 /\ p = [0; 1; 2]%nat /\
  (exists c, stored (as_cons (bd_A b)) "one" c /\ c_indices c = [0; 1]%nat /\ c_lb c = 0%Z /\ c_ub c = 1%Z) /\
  good_setup env0 b x1002 /\ orderly env0 (bd_A b') (bd_w b') x100 /\ regular env0 (bd_A b) x1002 /\ bd_kind b = k /\ bd_kind b' = k' /\ bd_cost b = ct /\
  forall sv, sound_solver sv -> finishing_solver sv -> exists b1 s, fit sv b0 = Ok (b1, Some s).
Proof. exact fewer_constrained. Qed.
(** From tables to answers, without constraints: an action set made from a table, some of whose features were then edited by name,
    and the action set made from the table without these columns, the other columns in any order.  For every classifier and
    individual who lacks the desired outcome, if the features left out cannot be changed or have coefficient 0, builders for the two give the same verdict and, for regular individuals and the
    cost types 'total' and 'local', the same cost. *)
Theorem C137_tables_partial : forall E p X X' names names' y custom dflt dst A0 edits A, NoDup p -> names' <> [] -> Forall2 (rearranged p) X X' -> rearranged p names names' ->
  mk_action_set X names y custom dflt dst = Ok A0 -> Forall set_up_edit edits -> Forall (edits_others names') edits -> A = aset_run E A0 edits ->
  exists A', mk_action_set X' names' y custom dflt dst = Ok A' /\
  forall sv sv' k k' w w' t t' ct x x' b0 b0', ok_env E -> sound_solver sv -> finishing_solver sv -> sound_solver sv' -> finishing_solver sv' -> density E -> log_ok E ct ->
    rearranged p w w' -> rearranged p x x' -> (forall j, ~ In j p -> left_out A w j) -> score w' t' x' = score w t x -> denied (as_y A) (score w t x) ->
    mk_builder E k A (coef_args w t) ct (Some x) = Ok b0 -> mk_builder E k' A' (coef_args w' t') ct (Some x') = Ok b0' ->
    exists b1 r b1' r', fit sv b0 = Ok (b1, r) /\ fit sv' b0' = Ok (b1', r') /\
      match r, r' with
      | Some s, Some s' => regular E A x -> ct <> CMax -> s_cost s' = s_cost s
      | None, None => True
      | _, _ => False
      end.
Proof. exact fewer_tables. Qed.
Print Assumptions C137_tables_partial.
Example C137_tables_case : forall k k' ct, exists A0 A A' b0 b0', mk_action_set tab2d ["a"; "b"; "d"; "e"] 1 [] default_bounds default_step_type = Ok A0 /\ A = aset_run env0 A0 ed_d /\
  mk_action_set tab2 ["a"; "b"] 1 [] default_bounds default_step_type = Ok A' /\
  Forall2 (rearranged [0; 1]%nat) tab2d tab2 /\ rearranged [0; 1]%nat ["a"; "b"; "d"; "e"] ["a"; "b"] /\ Forall set_up_edit ed_d /\ Forall (edits_others ["a"; "b"]) ed_d /\
  (forall j, ~ In j [0; 1]%nat -> left_out A [z 1; z 2; z 5; z 0] j) /\ score [z 1; z 2] (- z 7) [z 0; z 1] = score [z 1; z 2; z 5; z 0] (- z 17) x012 /\ denied (as_y A) (score [z 1; z 2; z 5; z 0] (- z 17) x012) /\ regular env0 A x012 /\
  mk_builder env0 k A (coef_args [z 1; z 2; z 5; z 0] (- z 17)) ct (Some x012) = Ok b0 /\ mk_builder env0 k' A' (coef_args [z 1; z 2] (- z 7)) ct (Some [z 0; z 1]) = Ok b0' /\
  forall sv, sound_solver sv -> finishing_solver sv -> exists b1 s, fit sv b0 = Ok (b1, Some s).
Proof. exact fewer_case. Qed.
(** Acceptance, without constraints: the individual is accepted for the one question exactly if it is for the other. *)
Theorem C137_accepted_partial : forall E sv sv' p b b' x x', ok_env E -> density E -> builder_reachable E sv b -> builder_reachable E sv' b' -> log_ok E (bd_cost b) -> flips_match (bd_A b) (bd_w b) ->
  length x = length (bd_w b) -> answers E (bd_A b) -> regular E (bd_A b) x -> narrowed p b x b' x' -> unconstrained (bd_A b) -> unconstrained (bd_A b') ->
  (snd (set_x E b x) = Ok tt <-> snd (set_x E b' x') = Ok tt).
Proof. exact fewer_accepted. Qed.
Print Assumptions C137_accepted_partial.
Example C137_accepted_case : forall k k' ct, exists b b' b0, (forall sv, assigned env0 sv b x012 b0) /\ (forall sv, builder_reachable env0 sv b') /\ narrowed [0; 1]%nat b x012 b' [z 0; z 1] /\
  unconstrained (bd_A b) /\ unconstrained (bd_A b') /\ flips_match (bd_A b) (bd_w b) /\ answers env0 (bd_A b) /\ regular env0 (bd_A b) x012 /\ bd_kind b = k /\ bd_kind b' = k' /\ bd_cost b = ct.
Proof. exact accepted_case. Qed.
(** Audits: corresponding rows of the two tables get the same verdict.  Constraints in line as above; each row in its own
    position, and the solvers may differ. *)
Theorem C137_audits_partial : forall (I J : Type) E sv sv' k k' p A A' w w' t t' b b' (X : list (I * list Qc)) (Y : list (J * list Qc)) y c out c' out',
  ok_env E -> sound_solver sv -> finishing_solver sv -> sound_solver sv' -> finishing_solver sv' -> density E ->
  aset_reachable E A -> current_percentiles A -> aset_reachable E A' -> auditor_used E sv k A w t b -> auditor_used E sv' k' A' w' t' b' -> (0 <? y)%Z = (0 <? as_y A)%Z ->
  narrowed_set p A w A' w' -> audit E sv b (table_of X) y = (c, Ok out) -> audit E sv' b' (table_of Y) y = (c', Ok out') ->
  forall i i' r r' l l', nth_error X i = Some r -> nth_error out i = Some l -> nth_error Y i' = Some r' -> nth_error out' i' = Some l' ->
    rearranged p (snd r) (snd r') -> score w' t' (snd r') = score w t (snd r) -> orderly E A w (snd r) -> orderly E A' w' (snd r') -> denied y (score w t (snd r)) ->
    ((exists v, snd l = Some (true, Fin v)) <-> (exists v, snd l' = Some (true, Fin v))) /\ (snd l = Some (false, PosInf) <-> snd l' = Some (false, PosInf)).
Proof. exact @fewer_audits. Qed.
Print Assumptions C137_audits_partial.
(** Hypotheses met, for both backends: b has features that are fixed (d) or without weight (e). *)
Example C137_audits_case : forall k k', exists A b A' b', aset_reachable env0 A /\ aset_reachable env0 A' /\ auditor_created env0 k A [z 1; z 2; z 5; z 0] (- z 17) b /\ auditor_created env0 k' A' [z 1; z 2] (- z 7) b' /\
  narrowed_set [0; 1]%nat A [z 1; z 2; z 5; z 0] A' [z 1; z 2] /\ current_percentiles A /\ as_y A = 1%Z /\
  orderly env0 A [z 1; z 2; z 5; z 0] x012 /\ orderly env0 A' [z 1; z 2] [z 0; z 1] /\ denied 1 (score [z 1; z 2; z 5; z 0] (- z 17) x012) /\
  rearranged [0; 1]%nat x012 [z 0; z 1] /\ score [z 1; z 2] (- z 7) [z 0; z 1] = score [z 1; z 2; z 5; z 0] (- z 17) x012 /\
  forall sv, sound_solver sv -> finishing_solver sv ->
    (exists c v, audit env0 sv b (table_of [(4%nat, x012)]) 1 = (c, Ok [(4%nat, Some (true, Fin v))])) /\
    (exists c v, audit env0 sv b' (table_of [(6%nat, [z 0; z 1])]) 1 = (c, Ok [(6%nat, Some (true, Fin v))])).
Proof. exact audits_case. Qed.
