(** Specification vocabulary for the remaining CPLEX helper functions. *)
From Verif Require Export Spec_cplex Model_cplex2.
#[local] Open Scope string_scope.
#[local] Open Scope list_scope.
#[local] Open Scope Qc_scope.

(** CPLEX's parameters: groups such as mip.limits, which contain parameters such as nodes.  The attributes of a
    parameter (get, set, ...) are methods, which have no attribute get; there is no parameter timelimit in the group
    mip, and no group parameters. *)
Definition real_parameters (L : cpxlib) : Prop :=
  In "mip.display" (cl_paths L) /\ In "randomseed" (cl_paths L) /\ In "threads" (cl_paths L) /\
  ~ In "threads.set" (cl_paths L) /\ ~ In "mip.timelimit" (cl_paths L) /\ ~ In "parameters.emphasis.numerical" (cl_paths L).

(** What CPLEX promises when it minimises (manual: uppercutoff, objdifference, absmipgap): [attains v] - some solution
    has the objective value v.  The run may ignore solutions above the cutoff, and may end with v although a better
    solution exists if that one is better by less than the required difference, or by at most the gap. *)
Definition below (f : fl) (q : Qc) : Prop := match f with Fin u => q <= u | PosInf => True | _ => False end.
Definition closer (f : fl) (q : Qc) : Prop := match f with Fin u => q < u | PosInf => True | _ => False end.
Definition may_end_with (c : cplex) (attains : Qc -> Prop) (v : Qc) : Prop :=
  attains v /\ below (c_param c "mip.tolerances.uppercutoff") v /\
  forall u, attains u -> u < v -> closer (c_param c "mip.tolerances.objdifference") (v - u) \/ below (c_param c "mip.tolerances.absmipgap") (v - u).
(** A run may end without a solution only if every solution is above the cutoff. *)
Definition may_end_without (c : cplex) (attains : Qc -> Prop) : Prop :=
  forall v, attains v -> ~ below (c_param c "mip.tolerances.uppercutoff") v.
(** The value of variable number [j] in a MIP start. *)
Definition start_value (s : mip_start) (j : nat) (v : Qc) : Prop :=
  exists k, nth_error (ms_ind s) k = Some j /\ nth_error (ms_val s) k = Some v.
(** Queries of a solution: CPLEX refuses them (CplexError) if the information does not exist. *)
Definition refused {A} (r : res A) : Prop := r = Err CplexError.
Definition answers_or_refuses {A} (r : res A) : Prop := r = Err CplexError \/ exists a, r = Ok a.
Definition usual (q : queries) : Prop :=
  answers_or_refuses (q_status q) /\ answers_or_refuses (q_code q) /\ answers_or_refuses (q_iterations q) /\ answers_or_refuses (q_processed q) /\
  answers_or_refuses (q_remaining q) /\ answers_or_refuses (q_values q) /\ answers_or_refuses (q_objective q) /\ answers_or_refuses (q_cutoff q) /\
  answers_or_refuses (q_best q) /\ answers_or_refuses (q_gap q).
(** What get_cpx_parameters promises to tell: key and parameter. *)
Definition told : list (string * string) :=
  [ ("randomseed", "randomseed"); ("mipemphasis", "emphasis.mip"); ("scale_parameters", "read.scale"); ("locally_implied_bound_cuts", "mip.cuts.localimplied");
    ("node_limit", "mip.limits.nodes"); ("mipgap", "mip.tolerances.mipgap"); ("absmipgap", "mip.tolerances.absmipgap"); ("integrality_tolerance", "mip.tolerances.integrality");
    ("repairtries", "mip.limits.repairtries"); ("poolsize", "mip.pool.capacity"); ("poolreplace", "mip.pool.replace") ].
