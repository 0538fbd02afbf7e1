(** Mixed-integer programs as data, and what a solver answer means.  This file models the part of the
    CPLEX / Python-MIP interfaces that recourse/builder.py uses (builder.py:636-1229): variables with
    bounds, linear rows, SOS-1 sets, a linear objective to be minimised. *)
From Verif Require Export Py.

(** Solver variables: a[j], u[j][k], c[j] and max_cost (builder.py:396-398, 747). Their textual names
    are modelled in Model_names.v. *)
Inductive mvar := VA (j : nat) | VU (j k : nat) | VC (j : nat) | VMax.
Definition mvar_eqb (a b : mvar) : bool :=
  match a, b with
  | VA i, VA j | VC i, VC j => Nat.eqb i j
  | VU i k, VU j l => Nat.eqb i j && Nat.eqb k l
  | VMax, VMax => true
  | _, _ => false
  end.

(** Row names; [NAnon] is a row added without a name (remove_feature_combination). *)
Inductive rname :=
| NScore | NSet (j : nat) | NPick (j : nat) | NMaxItems | NMinItems
| NSubset (id : string) | NSubsetLb (i : nat) | NSubsetUb (i : nat)
| NDefCost (j : nat) | NSetMax (j : nat) | NAnon.
Definition is_min_row (n : rname) : bool := match n with NMinItems => true | _ => false end.
Definition is_max_row (n : rname) : bool := match n with NMaxItems => true | _ => false end.

(** A row lo <= terms <= hi (None: unbounded).  Senses G, L, E, R of CPLEX and >=, <=, == of
    Python-MIP are expressed by the two ends. *)
Definition expr := list (Qc * mvar).
Record row := { r_name : rname; r_terms : expr; r_lo : option Qc; r_hi : option Qc }.
Definition row_ge n e b := {| r_name := n; r_terms := e; r_lo := Some b; r_hi := None |}.
Definition row_le n e b := {| r_name := n; r_terms := e; r_lo := None; r_hi := Some b |}.
Definition row_eq n e b := {| r_name := n; r_terms := e; r_lo := Some b; r_hi := Some b |}.
Definition row_rng n e b w := {| r_name := n; r_terms := e; r_lo := Some b; r_hi := Some (b + w) |}.

Record vdecl := { v_var : mvar; v_bin : bool; v_lb : Qc; v_ub : option Qc }.
Record mip := { m_vars : list vdecl; m_rows : list row; m_sos : list (list mvar); m_obj : expr }.

Definition assignment := mvar -> Qc.
Definition eval (s : assignment) (e : expr) : Qc := qsum (map (fun p => fst p * s (snd p)) e).

Definition var_ok (s : assignment) (d : vdecl) : bool :=
  (if v_bin d then (s (v_var d) =? 0) || (s (v_var d) =? 1) else true)
  && (v_lb d <=? s (v_var d)) && (match v_ub d with Some u => s (v_var d) <=? u | None => true end).
Definition row_ok (s : assignment) (r : row) : bool :=
  (match r_lo r with Some b => b <=? eval s (r_terms r) | None => true end)
  && (match r_hi r with Some b => eval s (r_terms r) <=? b | None => true end).
(** SOS-1: at most one member is non-zero. *)
Definition sos_ok (s : assignment) (l : list mvar) : bool :=
  Nat.leb (length (filter (fun v => negb (s v =? 0)) l)) 1.

(** [s] is a feasible point of [m]. *)
Definition mip_sat (m : mip) (s : assignment) : bool :=
  forallb (var_ok s) (m_vars m) && forallb (row_ok s) (m_rows m) && forallb (sos_ok s) (m_sos m).
Definition objective (m : mip) (s : assignment) : Qc := eval s (m_obj m).

(** What a solver call can end with: proved optimal (with the flag "the reported gap is inf"),
    stopped by a limit with or without a feasible point, or proved infeasible. *)
Inductive outcome := SOptimal (s : assignment) (gap_inf : bool) | SFeasible (s : assignment) | SInfeasible | SUnknown.
Definition valid_outcome (m : mip) (o : outcome) : Prop :=
  match o with
  | SOptimal s _ => mip_sat m s = true /\ forall s', mip_sat m s' = true -> objective m s <= objective m s'
  | SFeasible s => mip_sat m s = true
  | SInfeasible => forall s, mip_sat m s = false
  | SUnknown => True
  end.
(** A solver: its answer may depend on the call (limits, timing) and on the program it is given. *)
Definition solver := nat -> mip -> outcome.
Definition sound_solver (S : solver) : Prop := forall n m, valid_outcome m (S n m).
(** A conclusive answer: an optimum (with finite gap) or a proof of infeasibility. *)
Definition conclusive (o : outcome) : Prop := match o with SOptimal _ false | SInfeasible => True | _ => False end.
(** A solver that always finishes: it answers conclusively whenever the program has a correct
    conclusive answer (unbounded programs have none). *)
Definition finishing_solver (S : solver) : Prop :=
  forall n m, (exists o, conclusive o /\ valid_outcome m o) -> conclusive (S n m).

(** variables.set_lower_bounds / Var.lb = *)
Definition set_lower (v : mvar) (b : Qc) (m : mip) : mip :=
  {| m_vars := map (fun d => if mvar_eqb (v_var d) v
                             then {| v_var := v_var d; v_bin := v_bin d; v_lb := b; v_ub := v_ub d |} else d) (m_vars m);
     m_rows := m_rows m; m_sos := m_sos m; m_obj := m_obj m |}.
(** linear_constraints.add / mip += *)
Definition add_row (r : row) (m : mip) : mip :=
  {| m_vars := m_vars m; m_rows := m_rows m ++ [r]; m_sos := m_sos m; m_obj := m_obj m |}.
(** linear_constraints.set_rhs / constr_by_name(..).rhs = for one-sided rows: the finite end moves. *)
Definition set_rhs (p : rname -> bool) (b : Qc) (m : mip) : mip :=
  {| m_vars := m_vars m;
     m_rows := map (fun r => if p (r_name r)
                    then {| r_name := r_name r; r_terms := r_terms r;
                            r_lo := match r_lo r with Some _ => Some b | None => None end;
                            r_hi := match r_hi r with Some _ => Some b | None => None end |} else r) (m_rows m);
     m_sos := m_sos m; m_obj := m_obj m |}.
