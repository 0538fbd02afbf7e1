(** Specification vocabulary for the dictionaries returned by fit and populate. *)
From Verif Require Export Spec_recourse Model_info.
#[local] Open Scope string_scope.
#[local] Open Scope list_scope.
#[local] Open Scope Qc_scope.

(** The order of extended numbers (NaN is not comparable). *)
Definition fle (a b : fl) : Prop :=
  match a, b with Fin p, Fin q => p <= q | NegInf, (Fin _ | NegInf | PosInf) | (Fin _ | PosInf), PosInf => True | _, _ => False end.
(** The dictionary shows the solution [s]. *)
Definition shows_solution (d : info_dict) (s : sol) : Prop :=
  d_feasible d = true /\ d_cost d = Fin (s_cost s) /\ d_actions d = map Fin (s_actions s) /\ d_costs d = map Fin (s_costs s).
(** The dictionary shows that there is none, for [n] features. *)
Definition shows_none (n : nat) (d : info_dict) : Prop :=
  d_feasible d = false /\ d_cost d = PosInf /\ d_actions d = repeat NaN n /\ d_costs d = repeat NaN n /\
  d_upperbound d = PosInf /\ d_lowerbound d = PosInf /\ d_gap d = PosInf /\ d_status d = "no solution exists".
Definition shows (n : nat) (d : info_dict) (r : solinfo) : Prop :=
  match r with Some s => shows_solution d s | None => shows_none n d end.
(** The remaining entries are the solver's own report: the counters are those of CPLEX, NaN with Python-MIP; status, bound
    and gap are reported with a solution only. *)
Definition reports (k : backend) (r : report) (d : info_dict) : Prop :=
  (k = CPX -> d_iterations d = rp_iterations r /\ d_processed d = rp_processed r /\ d_remaining d = rp_remaining r) /\
  (k = PyMIP -> d_iterations d = NaN /\ d_processed d = NaN /\ d_remaining d = NaN) /\
  (d_feasible d = true -> d_status d = rp_status r /\ d_lowerbound d = rp_bound r /\ d_gap d = rp_gap r).
(** The solver's bounds are correct: never above the objective of a feasible point. *)
Definition honest (rp : reporter) : Prop := forall n m s, mip_sat m s = true -> fle (rp_bound (rp n m)) (Fin (objective m s)).
(** Accepted values of total_items, and the number they stand for (None: no limit). *)
Definition asks_for (v : pyval) (n : option nat) : Prop :=
  (exists k, (0 < k)%nat /\ v = PInt (Z.of_nat k) /\ n = Some k) \/ (v = PBool true /\ n = Some 1%nat) \/ (v = PFloat PosInf /\ n = None).
Definition names_enum (v : pyval) (et : enum_type) : Prop :=
  v = PStr match et with MutuallyExclusive => "mutually_exclusive" | DistinctSubsets => "distinct_subsets" end.
Definition names_cost (v : pyval) (ct : cost_type) : Prop := v = PStr match ct with CTotal => "total" | CLocal => "local" | CMax => "max" end.
