(** Specification vocabulary for the choice of a solver and for creating objects. *)
From Verif Require Export Spec_recourse Spec_audit Model_backend.
#[local] Open Scope string_scope.
#[local] Open Scope list_scope.
#[local] Open Scope Qc_scope.

(** The solver library is installed. *)
Definition usable (i : installed) (k : backend) : Prop := match k with CPX => has_cplex i = true | PyMIP => has_mip i = true end.
(** A value of the solver argument that names an installed solver / that does not. *)
Definition names_solver (i : installed) (v : pyval) (k : backend) : Prop :=
  usable i k /\ v = PStr match k with CPX => "cplex" | PyMIP => "python-mip" end.
Definition names_none (i : installed) (v : pyval) : Prop := (forall k, ~ names_solver i v k) /\ forall l, v <> PArr l.
(** Nothing but the flip directions differs. *)
Definition only_directions_differ (A A' : action_set) : Prop :=
  as_names A' = as_names A /\ as_cons A' = as_cons A /\ as_y A' = as_y A /\ length (as_elems A') = length (as_elems A) /\
  forall j e e', nth_error (as_elems A) j = Some e -> nth_error (as_elems A') j = Some e' -> exists f, e' = with_flip e f.
