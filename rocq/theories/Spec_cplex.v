(** Specification vocabulary for the CPLEX helper functions. *)
From Verif Require Export Spec_limits Model_cplex.
#[local] Open Scope string_scope.
#[local] Open Scope list_scope.
#[local] Open Scope Qc_scope.

(** Calls of fit or populate on one individual: time limit, node limit, display flag. *)
Record call := { ca_time : option fl; ca_node : option fl; ca_display : bool }.
Fixpoint after_calls (L : cpxlib) (l : list call) (c : cplex) : res cplex :=
  match l with
  | [] => Ok c
  | a :: r => let! c' := cplex_of_call L (ca_time a) (ca_node a) (ca_display a) c in after_calls L r c'
  end.
(** The solver object of a builder with parameters [param] when it solves, after calls [l] on the individual. *)
Definition solves_with (L : cpxlib) (param : option (dict pyval)) (l : list call) (c : cplex) : Prop :=
  l <> [] /\ exists c0, cplex_of_builder L param = Ok c0 /\ after_calls L l c0 = Ok c.
(** The entries of cplex_parameters and the CPLEX parameters they stand for (see the comments in DEFAULT_CPLEX_PARAMETERS). *)
Definition effective : list (string * string) :=
  [ ("randomseed", "randomseed"); ("n_cores", "threads"); ("mipemphasis", "emphasis.mip"); ("bound_strengthening", "preprocessing.boundstrength");
    ("implied_bound_cuts", "mip.cuts.implied"); ("locally_implied_bound_cuts", "mip.cuts.localimplied"); ("zero_half_cuts", "mip.cuts.zerohalfcut");
    ("mir_cuts", "mip.cuts.mircut"); ("cover_cuts", "mip.cuts.covers"); ("numerical_emphasis", "emphasis.numerical");
    ("integrality_tolerance", "mip.tolerances.integrality"); ("repairtries", "mip.limits.repairtries"); ("poolsize", "mip.pool.capacity");
    ("poolreplace", "mip.pool.replace"); ("mipgap", "mip.tolerances.mipgap"); ("absmipgap", "mip.tolerances.absmipgap") ].
Definition ineffective : list (string * string) :=
  [ ("objdifference", "mip.tolerances.objdifference"); ("scale_parameters", "read.scale"); ("poolrelgap", "mip.pool.relgap"); ("nodefilesize", "mip.limits.treememory") ].
(** A dictionary whose entry [k] is the number [f]. *)
Definition entry (p : dict pyval) (k : string) (f : fl) : Prop := exists v, dget k p = Some v /\ pynum v = Some f.
(** The default values (comments in DEFAULT_CPLEX_PARAMETERS), by CPLEX parameter. *)
Definition documented_defaults : list (string * fl) :=
  [ ("randomseed", Fin 0); ("threads", Fin 1); ("parallel", Fin 1); ("output.clonelog", Fin 0); ("emphasis.mip", Fin 0); ("preprocessing.boundstrength", Fin (qz (-1)));
    ("mip.cuts.implied", Fin 0); ("mip.cuts.localimplied", Fin (qz 3)); ("mip.cuts.zerohalfcut", Fin (qz (-1))); ("mip.cuts.mircut", Fin (qz (-1)));
    ("mip.cuts.covers", Fin (qz (-1))); ("emphasis.numerical", Fin 0); ("mip.tolerances.integrality", Fin 0); ("mip.limits.repairtries", Fin (qz 20));
    ("mip.pool.capacity", Fin (qz 100)); ("mip.pool.replace", Fin (qz 2)); ("mip.tolerances.mipgap", Fin (qfrac 1 (2 ^ 52)));
    ("mip.tolerances.absmipgap", Fin (qfrac 1 (2 ^ 52))) ].
(** Everything set_cpx_parameters reads is there. *)
Definition complete (p : dict pyval) : Prop :=
  (exists v, dget "display_cplex_progress" p = Some v) /\ (forall k q, In (k, q) effective -> exists f, entry p k f) /\
  (exists q, entry p "time_limit" (Fin q) /\ 0 <= q) /\ (exists q, entry p "node_limit" (Fin q) /\ 0 <= q).
(** The library's largest limits are positive numbers. *)
Definition ok_maxima (L : cpxlib) : Prop :=
  (exists q, cl_max L "timelimit" = Fin q /\ 0 < q) /\ exists n, cl_max L "mip.limits.nodes" = Fin (qz n) /\ (0 < n)%Z.
(** The library of Model_limits.v with the same maxima. *)
Definition same_maxima (L : cpxlib) (M : lib) : Prop :=
  cl_max L "timelimit" = Fin (lib_max_time M) /\ cl_max L "mip.limits.nodes" = Fin (qz (lib_max_nodes M)).
(** The parameters that toggle_cpx_preprocessing is about (manual of CPLEX: presolve, aggregator, coefficient reduction, bound
    strengthening, primal and dual reductions). *)
Definition the_five : list string :=
  ["preprocessing.presolve"; "preprocessing.aggregator"; "preprocessing.coeffreduce"; "preprocessing.boundstrength"; "preprocessing.reduce"].
(** A number argument for [n] variables: one number, or a list or an array of floats with [n] entries; a type argument. *)
Definition nums_for (n : nat) (a : farg) : Prop := match a with FNum _ => True | FList l | FArr false l => length l = n | FArr true _ => False end.
Definition types_for (n : nat) (a : sarg) : Prop := match a with SOne s => String.length s = 1%nat \/ String.length s = n | SList l | SArr l => length l = n end.
(** What variable number [j] is to receive from an argument. *)
Definition num_for (a : farg) (j : nat) (f : fl) : Prop :=
  match a with FNum g => f = g | FList l | FArr _ l => nth_error l j = Some f end.
Definition type_for (a : sarg) (n j : nat) (t : string) : Prop :=
  match a with
  | SList l | SArr l => nth_error l j = Some t
  | SOne s => if Nat.eqb n 1 then t = s else if Nat.eqb (String.length s) 1 then t = s else exists c, String.get j s = Some c /\ t = String c EmptyString
  end.
Definition names_of (a : sarg) : list string := match a with SOne s => [s] | SList l | SArr l => l end.
