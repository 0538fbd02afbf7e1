(** Model of the choice of a solver and of what creating an object does to the action set it is given:
    recourse/defaults.py (5-54), recourse/__init__.py (1-9), builder.py (11-22, 37-89, 195-205, 610-613, 1232-1235),
    auditor.py (22-50), flipset.py (30-50, 173-174).
    Not modelled: solver arguments that are numpy arrays. *)
From Verif Require Export Model_audit Model_flipset.
#[local] Open Scope string_scope.
#[local] Open Scope list_scope.
#[local] Open Scope Qc_scope.

(** defaults.py:5-28: which of the modules cplex and mip can be imported. *)
Record installed := { has_cplex : bool; has_mip : bool }.
(** defaults.py:31-32 *)
Definition solver_name (k : backend) : string := match k with CPX => "cplex" | PyMIP => "python-mip" end.
(** defaults.py:35-45 *)
Definition default_solver (i : installed) : res backend :=
  if has_cplex i then Ok CPX else if has_mip i then Ok PyMIP else Err ModuleNotFoundError.
(** defaults.py:48-56 *)
Definition supported_solvers (i : installed) : list backend :=
  (if has_cplex i then [CPX] else []) ++ (if has_mip i then [PyMIP] else []).
(** import recourse, or any module of it: __init__.py:1-4 imports all modules.  auditor.py:5 imports defaults.py; then
    builder.py:12-15 binds DEFAULT_CPLEX_PARAMETERS only if cplex can be imported, and the body of the class at 613
    reads it. *)
Definition import_recourse (i : installed) : res unit :=
  let! _ := default_solver i in
  if has_cplex i then Ok tt else Err NameError.

(** builder.py:37-43 and 1232-1235.  [None]: no solver argument. *)
Definition pick_solver (i : installed) (s : option pyval) : res backend :=
  match s with
  | None => default_solver i
  | Some (PStr n) => of_option ValueError (find (fun k => String.eqb n (solver_name k)) (supported_solvers i))
  | Some (PArr _) => Err Unmodelled
  | Some _ => Err ValueError
  end.

(** builder.py:37-89: RecourseBuilder(action_set = A, x = x, mip_cost_type = ct, solver = s, ...), with the action set
    as it is left behind, whether or not an exception is raised. *)
Definition builder_create (E : env) (i : installed) (A : action_set) (a : cargs) (ct : cost_type) (x : option (list Qc))
    (s : option pyval) : action_set * res builder :=
  match pick_solver i s with
  | Err e => (A, Err e)
  | Ok k =>
      (match mk_builder E k A a ct None with Ok b => bd_A b | Err _ => A end, mk_builder E k A a ct x)
  end.
(** auditor.py:22-48: RecourseAuditor(action_set = A, solver = s, ...).  The action set is aligned (39) before the
    solver is looked up (45). *)
Definition auditor_create (E : env) (i : installed) (A : action_set) (a : cargs) (s : option pyval) : action_set * res builder :=
  match (let! (w, t) := parse_classifier_args a in
         let! A1 := set_alignment A {| k_clf := None; k_classifier := None; k_coefs := None; k_intercept := None;
                                       a_pos := [AVec (map Fin w)] |} in Ok (A1, (w, t))) with
  | Err e => (A, Err e)
  | Ok (A1, (w, t)) => builder_create E i A1 (coef_args w t) CMax None s
  end.
(** flipset.py:37, 46, 173-174: the builder that populate(cost_type = ct) uses, for a flipset created with solver
    argument s and (46) possibly with a builder; nothing is checked before populate is called. *)
Definition flipset_builder (E : env) (i : installed) (A : action_set) (x w : list Qc) (t : Qc) (ct : cost_type)
    (s : option pyval) (supplied : option builder) : action_set * res builder :=
  match supplied with
  | Some b => (A, Ok b)
  | None => builder_create E i A (coef_args w t) ct (Some x) s
  end.

(** ** Scores (builder.py:195-205) *)
(** 195-201 score.  [None]: no argument, the individual assigned last is used. *)
Definition b_score (b : builder) (x : option (list Qc)) : res Qc :=
  match (match x with Some v => Some v | None => bd_x b end) with
  | None => Err TypeError
  | Some v => let! s := np_dot (bd_w b) v in Ok (s + bd_t b)
  end.
(** 204-205 prediction *)
Definition b_prediction (b : builder) (x : option (list Qc)) : res Z := let! s := b_score b x in Ok (qsign s).
