(** Model of the functions of recourse/cplex_helper.py that are not in Model_cplex.v: get_cpx_parameters,
    set_mip_cutoff_values, get_stats_cpx and add_mip_start_cpx.  The package itself does not call them. *)
From Verif Require Export Model_cplex.
#[local] Open Scope string_scope.
#[local] Open Scope list_scope.
#[local] Open Scope Qc_scope.

(** ** 342-384 get_cpx_parameters *)
(** p.a.b.get(): the parameter with path a.b, if there is one; attribute access raises AttributeError otherwise. *)
Definition param_get (L : cpxlib) (c : cplex) (p : string) : res fl :=
  if smem p (cl_paths L) then Ok (c_param c p) else Err AttributeError.
(** 350-382: keys, in order, and the attribute paths that are read; 352 compares with 0. *)
Definition reading_table : list (string * string) :=
  [ ("display_cplex_progress", "mip.display"); ("randomseed", "randomseed"); ("n_cores", "threads.set"); ("mipemphasis", "emphasis.mip");
    ("scale_parameters", "read.scale"); ("locally_implied_bound_cuts", "mip.cuts.localimplied"); ("time_limit", "mip.timelimit");
    ("node_limit", "mip.limits.nodes"); ("mipgap", "mip.tolerances.mipgap"); ("absmipgap", "mip.tolerances.absmipgap");
    ("integrality_tolerance", "mip.tolerances.integrality"); ("numerical_emphasis", "parameters.emphasis.numerical");
    ("repairtries", "mip.limits.repairtries"); ("poolsize", "mip.pool.capacity"); ("poolreplace", "mip.pool.replace") ].
Definition read_entry (L : cpxlib) (c : cplex) (kp : string * string) : res (string * pyval) :=
  let! v := param_get L c (snd kp) in
  Ok (fst kp, if String.eqb (fst kp) "display_cplex_progress" then PBool (fl_ltb (Fin 0) v) else PFloat v).
Definition get_cpx_parameters (L : cpxlib) (c : cplex) : res (dict pyval) := mapM (read_entry L c) reading_table.

(** ** 387-401 set_mip_cutoff_values: the assertions come first.  (CPLEX's own range checks are not modelled.)
    0.95 * float(x) *)
Definition fl_scale (k : Qc) (f : fl) : fl := match f with Fin q => Fin (k * q) | _ => f end.
Definition set_mip_cutoff_values (objval objval_increment : fl) (c : cplex) : res cplex :=
  let! _ := passert (fl_leb (Fin 0) objval) in
  let! _ := passert (fl_leb (Fin 0) objval_increment) in
  let d := fl_scale (qfrac 95 100) objval_increment in
  Ok (c_set "mip.tolerances.absmipgap" d (c_set "mip.tolerances.objdifference" d (c_set "mip.tolerances.uppercutoff" objval c))).

(** ** 502-556 get_stats_cpx *)
(** What the queries of cpx.solution answer, or the exception they raise. *)
Record queries := { q_status : res string; q_code : res Z; q_iterations : res Z; q_processed : res Z; q_remaining : res Z;
                    q_values : res (list Qc); q_objective : res fl; q_cutoff : res fl; q_best : res fl; q_gap : res fl }.
(** 511-524 INITIAL_SOLUTION_INFO; [None]: float('nan') *)
Record stats := { st_status : string; st_code : option Z; st_has_solution : bool; st_has_mipstats : bool;
                  st_iterations : Z; st_processed : Z; st_remaining : Z;
                  st_values : option (list Qc); st_objval : fl; st_upper : fl; st_lower : fl; st_gap : fl }.
Definition initial_stats : stats :=
  {| st_status := "no solution exists"; st_code := None; st_has_solution := false; st_has_mipstats := false;
     st_iterations := 0; st_processed := 0; st_remaining := 0;
     st_values := None; st_objval := NaN; st_upper := NaN; st_lower := NaN; st_gap := NaN |}.
(** 528-536: the dictionary is complete before info is updated *)
Definition progress_stats (q : queries) (i : stats) : res stats :=
  let! s := q_status q in
  let! k := q_code q in
  let! n := q_iterations q in
  let! p := q_processed q in
  let! r := q_remaining q in
  Ok {| st_status := s; st_code := Some k; st_has_solution := st_has_solution i; st_has_mipstats := true;
        st_iterations := n; st_processed := p; st_remaining := r;
        st_values := st_values i; st_objval := st_objval i; st_upper := st_upper i; st_lower := st_lower i; st_gap := st_gap i |}.
(** 541-549 *)
Definition solution_stats (q : queries) (i : stats) : res stats :=
  let! v := q_values q in
  let! o := q_objective q in
  let! u := q_cutoff q in
  let! l := q_best q in
  let! g := q_gap q in
  Ok {| st_status := st_status i; st_code := st_code i; st_has_solution := true; st_has_mipstats := st_has_mipstats i;
        st_iterations := st_iterations i; st_processed := st_processed i; st_remaining := st_remaining i;
        st_values := Some v; st_objval := o; st_upper := u; st_lower := l; st_gap := g |}.
(** try: ... except CplexError: pass *)
Definition or_keep (i : stats) (r : res stats) : res stats := match r with Err CplexError => Ok i | _ => r end.
Definition get_stats_cpx (q : queries) : res stats :=
  let! i := or_keep initial_stats (progress_stats q initial_stats) in
  or_keep i (solution_stats q i).

(** ** 560-580 add_mip_start_cpx *)
(** cpx.MIP_starts: variable indices and values, effort level, name (CPLEX makes one up if there is none: [None]). *)
Record mip_start := { ms_ind : list nat; ms_val : list Qc; ms_effort : Z; ms_name : option string }.
Record starts := { sa_vars : nat; sa_list : list mip_start }.
(** A list, or an array (571-572: tolist). *)
Inductive vec := VList (l : list Qc) | VArr (l : list Qc).
Definition vec_list (v : vec) : list Qc := match v with VList l | VArr l => l end.
(** MIP_starts.add: CPLEX rejects indices without a variable. *)
Definition starts_add (s : mip_start) (a : starts) : res starts :=
  if forallb (fun i => Nat.ltb i (sa_vars a)) (ms_ind s) then Ok {| sa_vars := sa_vars a; sa_list := sa_list a ++ [s] |} else Err CplexError.
(** The default of effort_level is 1, that of name None. *)
Definition add_mip_start_cpx (a : starts) (solution : vec) (effort_level : option Z) (name : option string) : res starts :=
  let l := vec_list solution in
  starts_add {| ms_ind := seq 0 (length l); ms_val := l; ms_effort := match effort_level with Some e => e | None => 1 end; ms_name := name |} a.
