(** The dictionaries returned by fit and populate, and the arguments of populate:
    recourse/builder.py 453-477, 524-609, 823-884, 1115-1175; recourse/flipset.py 141-178.
    Model_builder.v keeps the entries feasible, cost, actions and costs of a solution; here all of them. *)
From Verif Require Export Model_builder Model_flipset.
#[local] Open Scope string_scope.
#[local] Open Scope list_scope.
#[local] Open Scope Qc_scope.

(** What the solver object says about its last run besides its solution (864-869, 879-881, 1148-1155): status string,
    best bound, relative gap, numbers of iterations, processed and remaining nodes. *)
Record report := { rp_status : string; rp_bound : fl; rp_gap : fl; rp_iterations : fl; rp_processed : fl; rp_remaining : fl }.
(** The report may depend on the call and on the program, as the outcome does. *)
Definition reporter := nat -> mip -> report.

(** The keys of the dictionary (460-475). *)
Record info_dict := {
  d_cost : fl; d_feasible : bool; d_status : string; d_costs : list fl; d_actions : list fl;
  d_upperbound : fl; d_lowerbound : fl; d_gap : fl;
  d_iterations : fl; d_processed : fl; d_remaining : fl; d_runtime : fl }.

(** 453-477 _empty_mip_solution_info *)
Definition empty_dict (n : nat) : info_dict :=
  {| d_cost := PosInf; d_feasible := false; d_status := "no solution exists"; d_costs := repeat NaN n; d_actions := repeat NaN n;
     d_upperbound := PosInf; d_lowerbound := PosInf; d_gap := PosInf; d_iterations := Fin 0; d_processed := Fin 0; d_remaining := Fin 0; d_runtime := Fin 0 |}.
(** 864-866, 879-881 / 1157-1159, 1170-1172: the counters, unknown to Python-MIP *)
Definition counters (k : backend) (rp : report) : fl * fl * fl :=
  match k with CPX => (rp_iterations rp, rp_processed rp, rp_remaining rp) | PyMIP => (NaN, NaN, NaN) end.
(** 827-884 / 1119-1175 solution_info.  The entries actions, costs and cost are those of Model_builder.solution_info;
    850: get_objective_value(), 1150: objective.x; 859, 1148: the status is the solver's. *)
Definition dict_of (k : backend) (ct : cost_type) (n : nat) (ms : mipstate) (o : outcome) (rp : report) : info_dict :=
  let '(it, pr, rm) := counters k rp in
  match exposed k o, solution_info k ct n ms o with
  | Some s, Some i =>
      {| d_cost := Fin (s_cost i); d_feasible := true; d_status := rp_status rp; d_costs := map Fin (s_costs i); d_actions := map Fin (s_actions i);
         d_upperbound := Fin (objective (ms_mip ms) s); d_lowerbound := rp_bound rp; d_gap := rp_gap rp;
         d_iterations := it; d_processed := pr; d_remaining := rm; d_runtime := Fin 0 |}
  | _, _ =>
      let d := empty_dict n in
      {| d_cost := d_cost d; d_feasible := d_feasible d; d_status := d_status d; d_costs := d_costs d; d_actions := d_actions d;
         d_upperbound := d_upperbound d; d_lowerbound := d_lowerbound d; d_gap := d_gap d;
         d_iterations := it; d_processed := pr; d_remaining := rm; d_runtime := d_runtime d |}
  end.
(** The solution_info property of a builder after a run. *)
Definition get_dict (rp : reporter) (b : builder) : res info_dict :=
  match bd_mip b, bd_sol b with
  | Some ms, Some o => Ok (dict_of (bd_kind b) (bd_cost b) (length (bd_w b)) ms o (rp (pred (bd_calls b)) (ms_mip ms)))
  | _, _ => Err AssertionError
  end.
Definition with_runtime (t : Qc) (d : info_dict) : info_dict :=
  {| d_cost := d_cost d; d_feasible := d_feasible d; d_status := d_status d; d_costs := d_costs d; d_actions := d_actions d;
     d_upperbound := d_upperbound d; d_lowerbound := d_lowerbound d; d_gap := d_gap d;
     d_iterations := d_iterations d; d_processed := d_processed d; d_remaining := d_remaining d; d_runtime := Fin t |}.

(** 524-548 fit; [t]: the processor time between 542 and 544.  _apriori_infeasible (532) is never set. *)
Definition fit_dict (sv : solver) (rp : reporter) (t : Qc) (b : builder) : res (builder * info_dict) :=
  let! b' := solve_mip sv b in
  let! d := get_dict rp b' in
  Ok (b', with_runtime t d).

(** 590-604 *)
Fixpoint populate_dicts_loop (sv : solver) (rp : reporter) (fuel : nat) (total : option nat) (et : enum_type) (b : builder)
  : option (res (builder * list info_dict)) :=
  if match total with Some 0%nat => true | _ => false end then Some (Ok (b, []))
  else
    match fuel with
    | O => None
    | S fuel' =>
        match (let! b1 := solve_mip sv b in let! d := get_dict rp b1 in Ok (b1, d)) with
        | Err e => Some (Err e)
        | Ok (b1, d) =>
            if negb (d_feasible d) then Some (Ok (b1, []))
            else match remove_solution et b1 with
                 | Err e => Some (Err e)
                 | Ok b2 =>
                     match populate_dicts_loop sv rp fuel' (option_map pred total) et b2 with
                     | None => None
                     | Some (Err e) => Some (Err e)
                     | Some (Ok (b3, l)) => Some (Ok (b3, d :: l))
                     end
                 end
        end
    end.

(** 575: isinstance(total_items, int) and total_items >= 1, or a float equal to inf.  np.int64 is no int, bools are ints. *)
Definition parse_total (v : pyval) : res (option nat) :=
  match v with
  | PInt z => if (1 <=? z)%Z then Ok (Some (Z.to_nat z)) else Err AssertionError
  | PBool true => Ok (Some 1%nat)
  | PFloat PosInf => Ok None
  | _ => Err AssertionError
  end.
(** Values that can be looked up in a set: lists and arrays raise TypeError (also inside tuples). *)
Fixpoint hashable (v : pyval) : bool :=
  match v with
  | PList _ | PArr _ => false
  | PTuple l => forallb hashable l
  | _ => true
  end.
(** defaults.py:66, builder.py:576, flipset.py:167: membership in {'mutually_exclusive', 'distinct_subsets'} *)
Definition parse_enum (v : pyval) : res enum_type :=
  match v with
  | PStr s => if String.eqb s "mutually_exclusive" then Ok MutuallyExclusive
              else if String.eqb s "distinct_subsets" then Ok DistinctSubsets else Err AssertionError
  | _ => if hashable v then Err AssertionError else Err TypeError
  end.
(** defaults.py:60, flipset.py:170: membership in {'total', 'local', 'max'} *)
Definition parse_cost (v : pyval) : res cost_type :=
  match v with
  | PStr s => if String.eqb s "total" then Ok CTotal else if String.eqb s "local" then Ok CLocal
              else if String.eqb s "max" then Ok CMax else Err AssertionError
  | _ => if hashable v then Err AssertionError else Err TypeError
  end.
(** 551-609 RecourseBuilder.populate; the limits and the display flag are in Model_limits.v. *)
Definition populate_call (sv : solver) (rp : reporter) (fuel : nat) (total et : pyval) (b : builder) : option (res (builder * list info_dict)) :=
  match bd_mip b with
  | None => Some (Err AssertionError)
  | Some _ =>
      match (let! n := parse_total total in let! e := parse_enum et in Ok (n, e)) with
      | Err e => Some (Err e)
      | Ok (n, e) => populate_dicts_loop sv rp fuel n e b
      end
  end.

(** flipset.py:141-178 Flipset.populate with its arguments.  An invalid total_items is noticed after the builder was made. *)
Definition f_populate_call (E : env) (sv : solver) (srt : sorter) (fuel : nat) (total et ct : pyval) (f : flipset) : option (flipset * res unit) :=
  match (let! e := parse_enum et in let! c := parse_cost ct in Ok (e, c)) with
  | Err e => Some (f, Err e)
  | Ok (e, c) =>
      match parse_total total with
      | Ok n => f_populate E sv srt fuel n e c f
      | Err x =>
          match (match f_builder f with Some b => Ok b | None => mk_builder E (f_kind f) (f_A f) (coef_args (f_w f) (f_t f)) c (Some (f_x f)) end) with
          | Err e => Some (f, Err e)
          | Ok b => Some (f_with_builder f (Some b), Err x)
          end
      end
  end.

(** ** Builders with another mip_cost_type (78: no check) *)
(** build_mip when mip_cost_type is none of 'total', 'local', 'max': 346-351 use the percentile shifts, 740-775 and 1065-1088
    add neither an objective nor cost variables. *)
Definition build_other (E : env) (k : backend) (A : action_set) (w : list Qc) (t : Qc) (min_items max_items : Z) (x : list Qc) : res mipstate :=
  let! infos := get_build_info E A CTotal w x in
  let! subs := mapM (subset_rows k infos) (combine (seq 0 (length (r_cons (as_cons A)))) (map snd (r_cons (as_cons A)))) in
  let base := score_row (as_y A) (dot w x + t) infos :: flat_map (fun i => [set_row k i; pick_row i]) infos
              ++ [max_items_row max_items infos; min_items_row min_items infos] ++ concat subs in
  Ok {| ms_mip := {| m_vars := map avar_decl infos ++ map uvar_decl (flat_map uvars infos); m_rows := base; m_sos := map uvars infos; m_obj := [] |};
        ms_infos := infos |}.
(** Creating such a builder with an individual, then fit.  842-846 / 1130-1131: the cost variables are asked for their
    values, which do not exist: CPLEX raises CplexError (unknown name), Python-MIP AttributeError
    (mip.c).  Without any feature to change there are no cost variable names and 845-847 / 1133-1137 run with empty lists. *)
Definition fit_other (sv : solver) (k : backend) (n : nat) (ms : mipstate) : res solinfo :=
  match exposed k (sv 0%nat (ms_mip ms)) with
  | None => Ok None
  | Some s => match ms_infos ms with
              | [] => Ok (Some {| s_cost := 0; s_actions := repeat 0 n; s_costs := repeat 0 n |})
              | _ => Err (match k with CPX => CplexError | PyMIP => AttributeError end)
              end
  end.
Definition other_builder (E : env) (k : backend) (A : action_set) (a : cargs) (x : list Qc) : res (nat * mipstate) :=
  let! b := mk_builder E k A a CTotal None in
  if Nat.eqb (length x) (length (bd_w b)) then
    let! ms := build_other E k (bd_A b) (bd_w b) (bd_t b) (bd_min b) (bd_max b) x in Ok (length (bd_w b), ms)
  else Err AssertionError.
