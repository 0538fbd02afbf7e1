(** Theorems C134: where zero lies. *)
From Verif Require Import Spec_origin Spec_setup Proofs_concrete Proofs_scen Proofs_units4 Proofs_origin Proofs_origin2 Proofs_origin3 Proofs_origin4.
#[local] Open Scope string_scope.
#[local] Open Scope list_scope.
#[local] Open Scope Qc_scope.

(** * C134: the same data measured from other zeros (each feature shifted by an amount of its own, the intercept lowered by the score of the shift).
      Refuted three times.  Whole numbers shifted by a half become a real-valued feature, whose upper bound (99th percentile) is no longer rounded up: here 0, 1, 2
      offer the value 2, and 0.5, 1.5, 2.5 only 2.48. *)
Theorem C134_types_refuted : exists A A', mk_action_set X134 ["a"] 1 [] default_bounds default_step_type = Ok A /\ mk_action_set (map (moved [qfrac 1 2]) X134) ["a"] 1 [] default_bounds default_step_type = Ok A' /\
  (exists a, permitted_action A [z 0] a /\ on_side 1 (score [z 1] (- z 2) (vadd [z 0] a))) /\
  forall a, permitted_action A' (moved [qfrac 1 2] [z 0]) a -> ~ on_side 1 (score [z 1] (- z 2 - dot [z 1] [qfrac 1 2]) (vadd (moved [qfrac 1 2] [z 0]) a)).
Proof. exact origin_types. Qed.
Print Assumptions C134_types_refuted.
(** A flag coded 1 and 2 instead of 0 and 1, with one 2 among 151: no action set can be created. *)
Theorem C134_flags_refuted : (exists A, mk_action_set flag134 ["a"] 1 [] default_bounds default_step_type = Ok A) /\ mk_action_set (map (moved [z 1]) flag134) ["a"] 1 [] default_bounds default_step_type = Err ValueError.
Proof. exact origin_flag. Qed.
Print Assumptions C134_flags_refuted.
(** With a limit on a group of features, individuals must be able to reach 0 (in features whose value is positive): shifted by 1, the same individual cannot be assigned. *)
Theorem C134_limits_refuted : exists A A' b b', mk_action_set X134l ["a"; "b"] 1 [] default_bounds default_step_type = Ok A /\ mk_action_set (map (moved [z 1; z 0]) X134l) ["a"; "b"] 1 [] default_bounds default_step_type = Ok A' /\
  mk_builder env0 PyMIP (aset_run env0 A [lim134]) (coef_args [z 1; z 1] (- z 2)) CMax None = Ok b /\
  mk_builder env0 PyMIP (aset_run env0 A' [lim134]) (coef_args [z 1; z 1] (- z 2 - dot [z 1; z 1] [z 1; z 0])) CMax None = Ok b' /\
  snd (set_x env0 b [z 0; z 0]) = Ok tt /\ snd (set_x env0 b' (moved [z 1; z 0] [z 0; z 0])) = Err IndexError.
Proof. exact origin_limits. Qed.
Print Assumptions C134_limits_refuted.
(** Proved, for sets created from the same data measured from different zeros and edited alike ([other_zeros]; limits on groups excluded), and density estimates that move along
    with the data: the very same actions are permitted, they lead to the same scores and cost the same. *)
Theorem C134_actions_partial : forall E X ds A A' w t x ct, moves_along E -> other_zeros E X ds A A' -> length w = as_len A -> length x = as_len A ->
  (forall a, permitted_action A' (moved ds x) a <-> permitted_action A x a) /\
  (forall a, length a = as_len A -> score w (t - dot w ds) (vadd (moved ds x) a) = score w t (vadd x a)) /\
  (forall a cs, action_costs E ct A' (moved ds x) a cs <-> action_costs E ct A x a cs).
Proof. exact origin_actions. Qed.
Print Assumptions C134_actions_partial.
(** The same solver then returns the same things: builders are created in both cases, or creation raises the same exception; fits and enumerations return the same
    (solutions, exceptions, or nothing yet). *)
Theorem C134_fit_partial : forall E X k ds A A' args args' ct w t x, ok_env E -> moves_along E -> other_zeros E X ds A A' -> parse_classifier_args args = Ok (w, t) -> parse_classifier_args args' = Ok (w, t - dot w ds) ->
  length x = as_len A -> like_rows X x ->
  match mk_builder E k A args ct (Some x), mk_builder E k A' args' ct (Some (moved ds x)) with
  | Ok b, Ok b' => forall sv, returned (fit sv b') = returned (fit sv b) /\ forall fuel total et, option_map returned (populate sv fuel total et b') = option_map returned (populate sv fuel total et b)
  | Err e, Err e' => e' = e
  | _, _ => False
  end.
Proof. exact origin_advice. Qed.
Print Assumptions C134_fit_partial.
(** Auditors answer the same to the same tables, one after the other: labels, verdicts and costs, line by line. *)
Theorem C134_audit_partial : forall (I : Type) E X k ds A A' args args' w t, ok_env E -> moves_along E -> other_zeros E X ds A A' -> parse_classifier_args args = Ok (w, t) -> parse_classifier_args args' = Ok (w, t - dot w ds) ->
  match mk_auditor E k A args, mk_auditor E k A' args' with
  | Ok b, Ok b' => forall sv (l : list (list (I * list Qc) * Z)), (forall q p, In q l -> In p (fst q) -> length (snd p) = as_len A /\ like_rows X (snd p)) ->
      audits E sv b' (map (fun q => (table_of (map (fun p => (fst p, moved ds (snd p))) (fst q)), snd q)) l) = audits E sv b (map (fun q => (table_of (fst q), snd q)) l)
  | Err e, Err e' => e' = e
  | _, _ => False
  end.
Proof. exact @origin_auditor. Qed.
Print Assumptions C134_audit_partial.
(** A real-valued feature in degrees Celsius and in kelvin, whole numbers counted from 3, absolute steps: the individual gets an action. *)
Example C134_case : exists A A' b, other_zeros env_u X134c ds134 A A' /\ moves_along env_u /\ ok_env env_u /\ length x134 = as_len A /\ like_rows X134c x134 /\
  mk_builder env_u PyMIP A (coef_args [z 1; z 1] (- z 4)) CMax (Some x134) = Ok b /\
  (forall sv, sound_solver sv -> finishing_solver sv -> exists b1 s, fit sv b = Ok (b1, Some s) /\ s_actions s <> [z 0; z 0]) /\ moved ds134 x134 = [qfrac 27365 100; - z 2].
Proof. exact origin_case. Qed.
