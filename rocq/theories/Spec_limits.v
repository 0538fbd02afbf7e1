(** Specification vocabulary for solver limits. *)
From Verif Require Export Model_limits.
#[local] Open Scope Qc_scope.
(** What a caller can do to the limits of a builder: assign an individual, call fit or populate, assign to the
    properties mip_time_limit, mip_node_limit and mip_display. *)
Inductive limit_op :=
| LAssign | LCall (time node display : pyval) | LTime (v : pyval) | LNode (v : pyval) | LDisplay (v : pyval).
Definition limit_step (k : backend) (L : lib) (s : limstate) (o : limit_op) : limstate :=
  match o with
  | LAssign => rebuild L s
  | LCall t n d => fst (apply_limits k L s t n d)
  | LTime v => fst (set_time_limit k L s v)
  | LNode v => fst (set_node_limit k L s v)
  | LDisplay v => fst (set_display s v)
  end.
Definition limits_reachable (k : backend) (L : lib) (s : limstate) : Prop :=
  exists ops, s = fold_left (limit_step k L) ops new_limits.
(** A number, as a caller passes it (bools are Python numbers). *)
Definition number (v : pyval) (q : Qc) : Prop := v = PFloat (Fin q) \/ (exists z, v = PInt z /\ q = qz z) \/ exists b : bool, v = PBool b /\ q = if b then 1 else 0.
Definition no_limit (v : pyval) : Prop := v = PNone \/ v = PFloat PosInf.
(** Values that are not limits: non-positive numbers, NaN, anything that is not a Python number. *)
Definition not_a_limit (v : pyval) : Prop :=
  match v with
  | PNone => False | PBool b => b = false | PInt z => (z <= 0)%Z | PFloat (Fin q) => q <= 0 | PFloat PosInf => False | _ => True
  end.
(** The solver stops at [q] seconds / at [n] nodes, or has no such limit (CPLEX: the largest value it knows). *)
Definition runs_unlimited_time (k : backend) (L : lib) (m : solver_limits) : Prop :=
  sl_time m = match k with CPX => Fin (lib_max_time L) | PyMIP => PosInf end.
Definition runs_unlimited_nodes (k : backend) (L : lib) (m : solver_limits) : Prop :=
  sl_nodes m = match k with CPX => lib_max_nodes L | PyMIP => sl_nodes (lib_start L) end.
(** Operations that give no node limit. *)
Definition nodes_untouched (o : limit_op) : Prop := match o with LCall _ n _ | LNode n => no_limit n | _ => True end.
