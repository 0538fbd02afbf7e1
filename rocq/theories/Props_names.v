(** Properties of the names used in recourse programs: C58. *)
From Coq Require Import Strings.String.
From Verif Require Import Spec_names Proofs_concrete Proofs_scen Proofs_names Proofs_names2.
#[local] Open Scope string_scope.
#[local] Open Scope list_scope.

(** * C58: different actions, indicators and costs have different names, whatever the feature and grid position. *)
Theorem C58_variable_names : forall v v', var_name v = var_name v' -> v = v'.
Proof. exact var_name_inj. Qed.
Print Assumptions C58_variable_names.
Theorem C58_row_names : forall b n n' s, row_name b n = Some s -> row_name b n' = Some s -> n = n'.
Proof. exact row_name_inj. Qed.
Print Assumptions C58_row_names.
(** In the program of a builder, after any history: every name is registered once, everything the program refers to
    is registered, and no two rows share a name (constraint ids included). *)
Theorem C58_program_names : forall E sv b ms, ok_env E -> builder_reachable E sv b -> bd_mip b = Some ms ->
  NoDup (map var_name (registered (ms_mip ms))) /\ (forall v, refers_to (ms_mip ms) v -> In v (registered (ms_mip ms))) /\
  NoDup (given_row_names (bd_kind b) (ms_mip ms)).
Proof. exact c58_vars. Qed.
Print Assumptions C58_program_names.
Example C58_nonvacuous : forall k, exists b, (forall sv, builder_reachable env0 sv b) /\ exists ms, bd_mip b = Some ms /\
  incl ["a[0]"; "u[0][1]"; "u[1][0]"; "c[2]"; "max_cost"] (map var_name (registered (ms_mip ms))) /\
  incl (match k with CPX => ["score"; "pick_a[2]"; "subset_limit_one"; "max_items"; "set_max_cost[0]"]
        | PyMIP => ["flip_prediction"; "pick_a['2']"; "constr_0_lb"; "constr_0_ub"; "min_items"] end) (given_row_names (bd_kind b) (ms_mip ms)).
Proof. exact c58_case. Qed.
