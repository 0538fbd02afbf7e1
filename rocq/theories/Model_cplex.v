(** Model of recourse/cplex_helper.py: convenience functions for Cplex() objects, and how the CPLEX builder uses them
    (builder.py:619-632, 803, 535-540, 810-820).
    Modelled of a Cplex() object: its parameters (numbers, by path), whether its output streams are open, and its
    variables.  In Model_cplex2.v: get_cpx_parameters, set_mip_cutoff_values,
    get_stats_cpx, add_mip_start_cpx.  Not modelled: CPLEX's own range checks of parameter values, the numerical effect of the
    parameters, and everything modelled in Model_mip.v and Model_limits.v. *)
From Verif Require Export Model_limits Model_flipset.
#[local] Open Scope string_scope.
#[local] Open Scope list_scope.
#[local] Open Scope Qc_scope.

(** One variable of the problem. *)
Record cvar := { cv_name : string; cv_obj : fl; cv_lb : fl; cv_ub : fl; cv_type : string }.
(** [c_param p]: the value of the parameter with path p. *)
Record cplex := { c_param : string -> fl; c_streams : bool; c_vars : list cvar }.
(** Facts about the library: parameter paths, default values, the largest value of a parameter. *)
Record cpxlib := { cl_paths : list string; cl_default : string -> fl; cl_max : string -> fl }.
(** Cplex() *)
Definition new_cplex (L : cpxlib) : cplex := {| c_param := cl_default L; c_streams := true; c_vars := [] |}.
Definition c_set (p : string) (v : fl) (c : cplex) : cplex :=
  {| c_param := fun q => if String.eqb p q then v else c_param c q; c_streams := c_streams c; c_vars := c_vars c |}.
Definition c_reset (L : cpxlib) (p : string) (c : cplex) : cplex := c_set p (cl_default L p) c.
Definition c_close (c : cplex) : cplex := {| c_param := c_param c; c_streams := false; c_vars := c_vars c |}.
Definition c_add_vars (l : list cvar) (c : cplex) : cplex := {| c_param := c_param c; c_streams := c_streams c; c_vars := c_vars c ++ l |}.

Definition fl_eqb (a b : fl) : bool :=
  match a, b with Fin p, Fin q => p =? q | PosInf, PosInf | NegInf, NegInf => true | _, _ => false end.
(** a < b of floats; false if one of them is NaN. *)
Definition fl_ltb (a b : fl) : bool := match a, b with NaN, _ | _, NaN => false | _, _ => fl_lt a b end.
Definition fl_leb (a b : fl) : bool := fl_ltb a b || fl_eqb a b.

(** 8-19 copy_cplex: Cplex(cpx) copies the problem but not the parameters; get_changed() lists the
    parameters whose value is not the default. *)
Definition get_changed (L : cpxlib) (c : cplex) : list (string * fl) :=
  map (fun p => (p, c_param c p)) (filter (fun p => negb (fl_eqb (c_param c p) (cl_default L p))) (cl_paths L)).
Definition copy_problem (L : cpxlib) (c : cplex) : cplex :=
  {| c_param := cl_default L; c_streams := true; c_vars := c_vars c |}.
Definition copy_cplex (L : cpxlib) (c : cplex) : cplex :=
  fold_left (fun d pv => c_set (fst pv) (snd pv) d) (get_changed L c) (copy_problem L c).

(** ** 23-120 add_variable_cpx *)
(** Names: a string, a list of strings, an array of strings.  Numbers: a number, a list of numbers, an array of floats
    ([false]) or ints ([true]).  Types: as names. *)
Inductive sarg := SOne (s : string) | SList (l : list string) | SArr (l : list string).
Inductive farg := FNum (f : fl) | FList (l : list fl) | FArr (ints : bool) (l : list fl).
(** Lists that the assertions of 104-115 look at; [false]: the entries are ints. *)
Definition floats := (bool * list fl)%type.
(** 48-50: one variable *)
Definition one_num (a : farg) : res floats :=
  match a with
  | FList (f :: _) => Ok (true, [f])
  | FList [] => Err IndexError
  | FNum f | FArr _ [f] => Ok (true, [f])
  | FArr _ _ => Err TypeError
  end.
(** 66-76, 78-88: several variables.  float(obj) of a list raises TypeError. *)
Definition many_nums (n : nat) (a : farg) : res floats :=
  match a with
  | FArr ints l => Ok (negb ints, l)
  | FList l => if Nat.eqb (length l) n then Ok (true, l) else if Nat.eqb (length l) 1 then Err TypeError else Err ValueError
  | FNum f => Ok (true, repeat f n)
  end.
(** 90-100: as before, but 95 looks at the length of ub *)
Definition many_lbs (n : nat) (ub : floats) (a : farg) : res floats :=
  match a with
  | FList l => if Nat.eqb (length l) n then Ok (true, l) else if Nat.eqb (length (snd ub)) 1 then Err TypeError else Err ValueError
  | _ => many_nums n a
  end.
(** The characters of a string. *)
Fixpoint chars (s : string) : list string := match s with EmptyString => [] | String a r => String a EmptyString :: chars r end.
(** 51: one variable; an array stays inside the list and fails the assertion of 115. *)
Definition one_type (a : sarg) : res (list string) :=
  match a with SOne s => Ok [s] | SList l => Ok l | SArr _ => Err AssertionError end.
(** 56-64 *)
Definition many_types (n : nat) (a : sarg) : res (list string) :=
  match a with
  | SArr l | SList l => Ok l
  | SOne s => if Nat.eqb (String.length s) 1 then Ok (repeat s n)
              else if Nat.eqb (String.length s) n then Ok (chars s) else Err ValueError
  end.
(** 110-115: the entries 0 .. n-1 exist, and are floats.  (With several faulty arguments the code may raise the
    exception of another one of them.) *)
Definition check_floats (n : nat) (l : floats) : res unit :=
  if Nat.eqb n 0 then Ok tt else
  match snd l with
  | [] => Err IndexError
  | _ => let! _ := passert (fst l) in if Nat.ltb (length (snd l)) n then Err IndexError else Ok tt
  end.
Definition check_types (n : nat) (l : list string) : res unit := if Nat.ltb (length l) n then Err IndexError else Ok tt.
(** 117-120: cpx.variables.add; lists of different lengths are rejected by CPLEX (CplexError).  A binary variable
    without bounds lies between 0 and 1. *)
Definition variables_add (names : list string) (obj lb ub : list fl) (types : list string) (c : cplex) : res cplex :=
  let n := length names in
  if Nat.eqb (length obj) n && Nat.eqb (length lb) n && Nat.eqb (length ub) n && Nat.eqb (length types) n
  then Ok (c_add_vars (map (fun p => {| cv_name := fst p; cv_obj := fst (snd p); cv_lb := fst (snd (snd p));
                                        cv_ub := fst (snd (snd (snd p))); cv_type := snd (snd (snd (snd p))) |})
                           (combine names (combine obj (combine lb (combine ub types))))) c)
  else Err Unmodelled.
Definition add_variable_cpx (c : cplex) (name : sarg) (obj ub lb : farg) (vtype : sarg) : res cplex :=
  let names := match name with SOne s => [s] | SList l | SArr l => l end in
  let n := length names in
  let! (o, (u, (l, ts))) :=
    if Nat.eqb n 1 then
      let! o := one_num obj in let! u := one_num ub in let! l := one_num lb in let! ts := one_type vtype in Ok (o, (u, (l, ts)))
    else
      let! ts := many_types n vtype in let! o := many_nums n obj in let! u := many_nums n ub in let! l := many_lbs n u lb in Ok (o, (u, (l, ts))) in
  let! _ := check_floats n o in
  let! _ := check_floats n u in
  let! _ := check_floats n l in
  let! _ := check_types n ts in
  match ts with
  | [] => Err IndexError                                                     (* vtype[0] *)
  | t :: _ =>
      if forallb (String.eqb t) ts && String.eqb t "B"
      then variables_add names (snd o) (repeat (Fin 0) n) (repeat (Fin 1) n) ts c
      else variables_add names (snd o) (snd l) (snd u) ts c
  end.

(** ** Parameters *)
(** 263-282 set_cpx_display_options; the streams are never opened again *)
Definition flag (b : bool) : fl := Fin (if b then 1 else 0).
Definition set_cpx_display_options (display_mip display_parameters display_lp : bool) (c : cplex) : cplex :=
  let c1 := c_set "paramdisplay" (flag display_parameters) (c_set "simplex.display" (flag display_lp) (c_set "mip.display" (flag display_mip) c)) in
  if display_mip || display_lp then c1 else c_close c1.
(** 404-421 set_cpx_time_limit *)
Definition set_cpx_time_limit (L : cpxlib) (v : option fl) (c : cplex) : res cplex :=
  let m := cl_max L "timelimit" in
  let t := match v with None => m | Some f => if fl_ltb m f then m else f end in
  let! _ := passert (fl_leb (Fin 0) t) in
  Ok (c_set "timelimit" t c).
(** 424-443 set_cpx_node_limit; int() of NaN raises ValueError, of -inf OverflowError (not modelled) *)
Definition set_cpx_node_limit (L : cpxlib) (v : option fl) (c : cplex) : res cplex :=
  let m := cl_max L "mip.limits.nodes" in
  let! t := match v with
            | None | Some PosInf => Ok m
            | Some (Fin q) => let f := Fin (qz (qtrunc q)) in Ok (if fl_ltb m f then m else f)
            | Some NaN => Err ValueError
            | Some NegInf => Err Unmodelled
            end in
  let! _ := passert (fl_leb (Fin 0) t) in
  Ok (c_set "mip.limits.nodes" t c).
(** param[key], a number *)
Definition fetch (param : dict pyval) (key : string) : res fl :=
  match dget key param with None => Err KeyError | Some v => of_option Unmodelled (pynum v) end.
(** 302-332: the parameters that set_cpx_parameters sets, in order, and the entry of the dictionary that each is set
    from (or a constant). *)
Inductive source := FromKey (key : string) | Constant (v : fl).
Definition parameter_table : list (string * source) :=
  [ ("randomseed", FromKey "randomseed"); ("threads", FromKey "n_cores"); ("output.clonelog", Constant (Fin 0));
    ("parallel", Constant (Fin 1)); ("emphasis.mip", FromKey "mipemphasis");
    ("preprocessing.boundstrength", FromKey "bound_strengthening"); ("mip.cuts.implied", FromKey "implied_bound_cuts");
    ("mip.cuts.localimplied", FromKey "locally_implied_bound_cuts"); ("mip.cuts.zerohalfcut", FromKey "zero_half_cuts");
    ("mip.cuts.mircut", FromKey "mir_cuts"); ("mip.cuts.covers", FromKey "cover_cuts");
    ("emphasis.numerical", FromKey "numerical_emphasis"); ("mip.tolerances.integrality", FromKey "integrality_tolerance");
    ("mip.limits.repairtries", FromKey "repairtries"); ("mip.pool.capacity", FromKey "poolsize");
    ("mip.pool.replace", FromKey "poolreplace"); ("mip.tolerances.mipgap", FromKey "mipgap");
    ("mip.tolerances.absmipgap", FromKey "absmipgap") ].
Definition set_one (param : dict pyval) (c : cplex) (ps : string * source) : res cplex :=
  match snd ps with
  | Constant v => Ok (c_set (fst ps) v c)
  | FromKey k => let! v := fetch param k in Ok (c_set (fst ps) v c)
  end.
Fixpoint set_all (param : dict pyval) (l : list (string * source)) (c : cplex) : res cplex :=
  match l with [] => Ok c | ps :: r => let! c' := set_one param c ps in set_all param r c' end.
(** 137, 140: the largest limits of DEFAULT_CPLEX_PARAMETERS *)
Definition default_time_limit : fl := Fin (qz (10 ^ 75)).
Definition default_node_limit : fl := Fin (qz 9223372036800000000).
(** 285-340 set_cpx_parameters.  299: x is (None or False) holds for False only. *)
Definition set_cpx_parameters (L : cpxlib) (param : dict pyval) (c : cplex) : res cplex :=
  let! d := of_option KeyError (dget "display_cplex_progress" param) in
  let c0 := match d with PBool false => set_cpx_display_options false false false c | _ => c end in
  let! c1 := set_all param parameter_table c0 in
  let! t := fetch param "time_limit" in
  let! c2 := if fl_ltb t default_time_limit then set_cpx_time_limit L (Some t) c1 else Ok c1 in
  let! n := fetch param "node_limit" in
  if fl_ltb n default_node_limit then set_cpx_node_limit L (Some n) c2 else Ok c2.
(** 446-499 toggle_cpx_preprocessing *)
Definition preprocessing_parameters : list string :=
  ["preprocessing.aggregator"; "preprocessing.reduce"; "preprocessing.presolve"; "preprocessing.coeffreduce"; "preprocessing.boundstrength"].
Definition toggle_cpx_preprocessing (L : cpxlib) (toggle : bool) (c : cplex) : cplex :=
  fold_left (fun d p => if toggle then c_reset L p d else c_set p (Fin 0) d) preprocessing_parameters c.
(** ** The CPLEX builder *)
(** 124-260 DEFAULT_CPLEX_PARAMETERS (eps: np.finfo('float').eps) *)
Definition default_cplex_parameters : dict pyval :=
  let eps := PFloat (Fin (qfrac 1 (2 ^ 52))) in
  [ ("display_cplex_progress", PBool false); ("n_cores", PInt 1); ("randomseed", PInt 0); ("time_limit", PFloat default_time_limit);
    ("node_limit", PInt 9223372036800000000); ("mipgap", eps); ("absmipgap", eps); ("objdifference", PFloat (Fin 0));
    ("integrality_tolerance", PFloat (Fin 0)); ("mipemphasis", PInt 0); ("bound_strengthening", PInt (-1)); ("cover_cuts", PInt (-1));
    ("zero_half_cuts", PInt (-1)); ("mir_cuts", PInt (-1)); ("implied_bound_cuts", PInt 0); ("locally_implied_bound_cuts", PInt 3);
    ("scale_parameters", PInt 0); ("numerical_emphasis", PInt 0); ("poolsize", PInt 100); ("poolrelgap", PFloat NaN); ("poolreplace", PInt 2);
    ("repairtries", PInt 20); ("nodefilesize", PFloat (Fin (qz 122880))) ].
(** 626 and 803: the parameters are those given to the builder, or the default; a successful assignment of an individual
    makes a new object with them. *)
Definition cplex_of_builder (L : cpxlib) (param : option (dict pyval)) : res cplex :=
  set_cpx_parameters L (match param with Some p => p | None => default_cplex_parameters end) (new_cplex L).
(** 235-271, 537-539 / 584-586 and 629: what fit and populate do to the object before they solve; the limits are None or
    numbers that passed the checks of 239 and 251. *)
Definition cplex_of_call (L : cpxlib) (time node : option fl) (display : bool) (c : cplex) : res cplex :=
  let c1 := set_cpx_display_options display display display c in
  let! c2 := set_cpx_time_limit L (Some match time with Some t => t | None => PosInf end) c1 in
  set_cpx_node_limit L (Some match node with Some n => n | None => PosInf end) c2.
(** Solver output reaches the console: something is displayed and the streams are open. *)
Definition shows_progress (c : cplex) : bool := c_streams c && negb (fl_eqb (c_param c "mip.display") (Fin 0)).
