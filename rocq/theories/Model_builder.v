(** Model of recourse/builder.py: RecourseBuilder and its two solver back ends. *)
From Verif Require Export Model_actionset Model_mip.
#[local] Open Scope list_scope.
#[local] Open Scope Qc_scope.

Inductive backend := CPX | PyMIP.
(** defaults.py:57-59 and builder.py:78: mip_cost_type ('total', 'local', 'max'); other strings are
    accepted by the code but outside the model. *)
Inductive cost_type := CTotal | CLocal | CMax.

(** ** Build information (builder.py:335-450) *)

(** 391-400: the entry build_info[n]. [i_knull] is k_null. The solver names in it are u[idx][k] etc. *)
Record info := { i_name : string; i_idx : nat; i_coef : Qc; i_actions : list Qc; i_costs : list Qc; i_knull : nat }.

(** 346-351: cost functions relative to the first entry c[0]. *)
Definition cost_up (E : env) (ct : cost_type) (c0 c : Qc) : Qc :=
  match ct with CLocal => nplog E ((1 - c0) / (1 - c)) | _ => c - c0 end.
Definition cost_dn (E : env) (ct : cost_type) (c0 c : Qc) : Qc :=
  match ct with CLocal => nplog E ((1 - c) / (1 - c0)) | _ => c0 - c end.

(** 369: entries overridden as numerical issues. *)
Definition is_bug (p : Qc * Qc) : bool := (snd p <=? 0) || isclose0 (fst p).
(** 370-374: delete every such entry except the first one ([seen]: the first one has been met). *)
Fixpoint drop_bugs (seen : bool) (l : list (Qc * Qc)) : list (Qc * Qc) :=
  match l with
  | [] => []
  | p :: r => if is_bug p then (if seen then drop_bugs true r else p :: drop_bugs true r)
              else p :: drop_bugs seen r
  end.
(** np.flatnonzero(a == v)[0] *)
Fixpoint first_eq (v : Qc) (l : list Qc) : option nat :=
  match l with [] => None | x :: r => if x =? v then Some 0%nat else option_map S (first_eq v r) end.

(** 356-418: one iteration of the loop over actions.items(), for feature n with offered actions a and
    percentiles c. None: fewer than two values, the feature is skipped (358). *)
Definition make_info (E : env) (ct : cost_type) (names cnames : list string) (w x : list Qc)
    (n : string) (a c : list Qc) : res (option info) :=
  if Nat.ltb (length a) 2 then Ok None
  else
    let flip := isclose0 (last a 0) in
    let a1 := if flip then rev a else a in
    let c1 := if flip then rev c else c in
    let c0 := hd 0 c1 in
    let c2 := map (if flip then cost_dn E ct c0 else cost_up E ct c0) c1 in
    let ps := combine a1 c2 in
    let! _ := if existsb is_bug ps then Ok tt else Err IndexError in          (* 371: pop(0) *)
    let kept := drop_bugs false ps in
    let a' := map fst kept in
    let c' := map snd kept in
    let! idx := of_option KeyError (index_of n names) in                       (* 376 *)
    let! coef := of_option IndexError (nth_error w idx) in
    let! xj := of_option IndexError (nth_error x idx) in
    let! k := if smem n cnames && (0 <? xj)
              then of_option IndexError (first_eq (- xj) a') else Ok 0%nat in  (* 387 *)
    let! _ := if Nat.ltb (length a') 2 then Err ValueError else Ok tt in       (* 418: np.min of an empty array *)
    Ok (Some {| i_name := n; i_idx := idx; i_coef := coef; i_actions := a'; i_costs := c'; i_knull := k |}).

(** 427-450 _check_mip_build_info for one entry *)
Definition check_info (y : Z) (cnames : list string) (i : info) : bool :=
  negb (isclose0 (i_coef i))
  && (match i_costs i with c0 :: _ => c0 =? 0 | [] => false end)
  && (match i_actions i with a0 :: _ => a0 =? 0 | [] => false end)
  && (if smem (i_name i) cnames then true
      else if (0 <? y * qsign (i_coef i))%Z then forallb (fun a => 0 <? a) (tl (i_actions i))
      else forallb (fun a => a <? 0) (tl (i_actions i)))
  && Nat.leb 2 (length (i_actions i))
  && Nat.eqb (length (i_actions i)) (length (i_costs i))
  && all_distinct (i_actions i) && all_distinct (i_costs i).

(** 335-424 _get_mip_build_info (validate = True).  The dict build_info is the list of its values.
    Percentile queries also fill the interpolator caches of the elements; this does not change any
    later query (Props_element.C14_queries_do_not_disturb) and is not recorded. *)
Definition get_build_info (E : env) (A : action_set) (ct : cost_type) (w x : list Qc) : res (list info) :=
  let cnames := constrained_names E (as_cons A) in
  let! grid := feasible_grid E A x true true true in
  let! l := mapM (fun p => make_info E ct (as_names A) cnames w x (fst p) (fst (snd p)) (snd (snd p))) grid in
  let infos := flat_map (fun o => match o with Some i => [i] | None => [] end) l in
  let! _ := passert (forallb (check_info (as_y A) cnames) infos) in
  Ok infos.

(** ** The MIP (builder.py:636-806 CPLEX, 971-1091 Python-MIP) *)

(** u[idx][0], ..., u[idx][K-1] *)
Definition uvars (i : info) : list mvar := map (VU (i_idx i)) (seq 0 (length (i_actions i))).
Definition off_var (i : info) : mvar := VU (i_idx i) 0.             (* action_off_names, 406 *)
Definition null_var (i : info) : mvar := VU (i_idx i) (i_knull i).  (* nullify_ind_names, 409 *)
Definition sum_of (vs : list mvar) : expr := map (fun v => (1, v)) vs.
Definition neg_sum_of (vs : list mvar) : expr := map (fun v => (- (1), v)) vs.

(** np.min / np.max of a non-empty list *)
Definition lmin (l : list Qc) : Qc := match l with [] => 0 | a :: r => qminl r a end.
Definition lmax (l : list Qc) : Qc := match l with [] => 0 | a :: r => qmaxl r a end.
(** 660-663 / 993-1001: a[j] between the smallest and largest action; 675 / 1017-1020: u[j][k] binary. *)
Definition avar_decl (i : info) : vdecl :=
  {| v_var := VA (i_idx i); v_bin := false; v_lb := lmin (i_actions i); v_ub := Some (lmax (i_actions i)) |}.
Definition uvar_decl (v : mvar) : vdecl := {| v_var := v; v_bin := true; v_lb := 0; v_ub := Some 1 |}.
(** 751-753 / 1077-1081: max_cost and c[j] continuous, non-negative. *)
Definition cvar_decl (v : mvar) : vdecl := {| v_var := v; v_bin := false; v_lb := 0; v_ub := None |}.

(** 668-672 / 1008-1014 *)
Definition score_row (y : Z) (score : Qc) (infos : list info) : row :=
  let e := map (fun i => (i_coef i, VA (i_idx i))) infos in
  if (0 <? y)%Z then row_ge NScore e (- score) else row_le NScore e (- score).
(** 679-689 / 1023-1038 *)
Definition set_row (k : backend) (i : info) : row :=
  match k with
  | CPX => row_eq (NSet (i_idx i)) ((- (1), VA (i_idx i)) :: combine (i_actions i) (uvars i)) 0
  | PyMIP => row_eq (NSet (i_idx i)) (combine (i_actions i) (uvars i) ++ [(- (1), VA (i_idx i))]) 0
  end.
Definition pick_row (i : info) : row := row_eq (NPick (i_idx i)) (sum_of (uvars i)) 1.
(** 645-646, 702-706 / 980-981, 1051-1053 *)
Definition max_items_row (max_items : Z) (infos : list info) : row :=
  row_ge NMaxItems (sum_of (map off_var infos)) (qz (Z.of_nat (length infos) - max_items)).
Definition min_items_row (min_items : Z) (infos : list info) : row :=
  row_le NMinItems (sum_of (map off_var infos)) (qz (Z.of_nat (length infos) - Z.max min_items 1)).
(** 710-736 / 1056-1062: note that c.indices (positions of columns) index the list of nullifying
    indicators of the actionable features. *)
Definition subset_rows (k : backend) (infos : list info) (ic : nat * slc) : res (list row) :=
  let '(pos, c) := ic in
  let! vs := mapM (fun j => of_option IndexError (nth_error (map null_var infos) j)) (c_indices c) in
  let n := Z.of_nat (length (c_indices c)) in
  Ok match k with
  | CPX => [row_rng (NSubset (c_id c)) (neg_sum_of vs) (qz (c_lb c - n)) (qz (c_ub c - c_lb c))]
  | PyMIP => [row_ge (NSubsetLb pos) (neg_sum_of vs) (qz (c_lb c) - qz n);
              row_le (NSubsetUb pos) (neg_sum_of vs) (qz (c_ub c) - qz n)]
  end.
(** 740-775 / 1065-1088 *)
Definition cost_terms (i : info) : expr := combine (i_costs i) (uvars i).
Definition def_cost_row (k : backend) (i : info) : row :=
  match k with
  | CPX => row_eq (NDefCost (i_idx i)) ((- (1), VC (i_idx i)) :: cost_terms i) 0
  | PyMIP => row_eq (NDefCost (i_idx i)) ((1, VC (i_idx i)) :: map (fun p => (- fst p, snd p)) (cost_terms i)) 0
  end.
Definition set_max_row (i : info) : row := row_ge (NSetMax (i_idx i)) [(1, VMax); (- (1), VC (i_idx i))] 0.
(** 417-418, 750 / 1076: epsilon (infinite, and unused, if there is nothing to act on). *)
Definition min_diff (i : info) : Qc := lmin (np_diff (i_costs i)).
Definition cost_ub (i : info) : Qc := lmax (i_costs i).
Definition epsilon (infos : list info) : Qc :=
  match infos with
  | [] => 0
  | _ => lmin (map min_diff infos) / qsum (map cost_ub infos)
  end.

Record mipstate := { ms_mip : mip; ms_infos : list info }.

(** build_mip of both back ends. *)
Definition build (E : env) (k : backend) (A : action_set) (ct : cost_type) (w : list Qc) (t : Qc)
    (min_items max_items : Z) (x : list Qc) : res mipstate :=
  let! infos := get_build_info E A ct w x in
  let! subs := mapM (subset_rows k infos) (combine (seq 0 (length (r_cons (as_cons A)))) (map snd (r_cons (as_cons A)))) in
  let base := score_row (as_y A) (dot w x + t) infos :: flat_map (fun i => [set_row k i; pick_row i]) infos
              ++ [max_items_row max_items infos; min_items_row min_items infos] ++ concat subs in
  let vars := map avar_decl infos ++ map uvar_decl (flat_map uvars infos) in
  let sos := map uvars infos in
  match ct with
  | CTotal | CLocal =>
      (* 741 / 1066: indices.pop('cost_var_names') of a defaultdict: KeyError if never written *)
      let! _ := match infos with [] => Err KeyError | _ => Ok tt end in
      Ok {| ms_mip := {| m_vars := vars; m_rows := base; m_sos := sos; m_obj := flat_map cost_terms infos |};
            ms_infos := infos |}
  | CMax =>
      let cvars := map (fun i => VC (i_idx i)) infos in
      Ok {| ms_mip := {| m_vars := vars ++ map cvar_decl (VMax :: cvars);
                         m_rows := base ++ flat_map (fun i => [def_cost_row k i; set_max_row i]) infos;
                         m_sos := sos;
                         m_obj := (1, VMax) :: map (fun v => (epsilon infos, v)) cvars |};
            ms_infos := infos |}
  end.

(** ** The builder object (builder.py:46-182) *)

(** [bd_actionable]: _actionable_indices, computed once at creation (70). [bd_sol]: the outcome of the
    last solver call on the current _mip object. [bd_calls]: number of solver calls made so far. *)
Record builder := {
  bd_kind : backend; bd_w : list Qc; bd_t : Qc; bd_A : action_set; bd_cost : cost_type;
  bd_actionable : list nat; bd_min : Z; bd_max : Z;
  bd_x : option (list Qc); bd_mip : option mipstate; bd_sol : option outcome; bd_calls : nat }.
Definition n_actionable (b : builder) : Z := Z.of_nat (length (bd_actionable b)).
Definition bd_score (b : builder) (x : list Qc) : Qc := dot (bd_w b) x + bd_t b.

Definition with_x b x := {| bd_kind := bd_kind b; bd_w := bd_w b; bd_t := bd_t b; bd_A := bd_A b; bd_cost := bd_cost b; bd_actionable := bd_actionable b; bd_min := bd_min b; bd_max := bd_max b; bd_x := x; bd_mip := bd_mip b; bd_sol := bd_sol b; bd_calls := bd_calls b |}.
Definition with_mip b m s := {| bd_kind := bd_kind b; bd_w := bd_w b; bd_t := bd_t b; bd_A := bd_A b; bd_cost := bd_cost b; bd_actionable := bd_actionable b; bd_min := bd_min b; bd_max := bd_max b; bd_x := bd_x b; bd_mip := m; bd_sol := s; bd_calls := bd_calls b |}.
Definition with_limits b lo hi := {| bd_kind := bd_kind b; bd_w := bd_w b; bd_t := bd_t b; bd_A := bd_A b; bd_cost := bd_cost b; bd_actionable := bd_actionable b; bd_min := lo; bd_max := hi; bd_x := bd_x b; bd_mip := bd_mip b; bd_sol := bd_sol b; bd_calls := bd_calls b |}.
Definition with_call b := {| bd_kind := bd_kind b; bd_w := bd_w b; bd_t := bd_t b; bd_A := bd_A b; bd_cost := bd_cost b; bd_actionable := bd_actionable b; bd_min := bd_min b; bd_max := bd_max b; bd_x := bd_x b; bd_mip := bd_mip b; bd_sol := bd_sol b; bd_calls := S (bd_calls b) |}.
(** The action set is shared with the caller, who may change it between calls. *)
Definition with_aset b A := {| bd_kind := bd_kind b; bd_w := bd_w b; bd_t := bd_t b; bd_A := A; bd_cost := bd_cost b; bd_actionable := bd_actionable b; bd_min := bd_min b; bd_max := bd_max b; bd_x := bd_x b; bd_mip := bd_mip b; bd_sol := bd_sol b; bd_calls := bd_calls b |}.

(** 176-182: the x setter. The new x is stored before build_mip runs, so it stays if that raises. *)
Definition set_x (E : env) (b : builder) (x : list Qc) : builder * res unit :=
  if Nat.eqb (length x) (length (bd_w b)) then
    match build E (bd_kind b) (bd_A b) (bd_cost b) (bd_w b) (bd_t b) (bd_min b) (bd_max b) x with
    | Ok ms => (with_mip (with_x b (Some x)) (Some ms) None, Ok tt)
    | Err e => (with_x b (Some x), Err e)
    end
  else (b, Err AssertionError).

(** 70: positions of the actionable features *)
Definition actionable_positions (A : action_set) : list nat :=
  map fst (filter (fun p => e_actionable (snd p)) (combine (seq 0 (length (as_elems A))) (as_elems A))).

(** 46-89 __init__ (and _check_rep at 92-103; its conditions hold by construction).
    The action set is aligned in place only if some element is not aligned yet. *)
Definition mk_builder (E : env) (k : backend) (A : action_set) (a : cargs) (ct : cost_type) (x : option (list Qc))
  : res builder :=
  let! (w, t) := parse_classifier_args a in
  let! _ := passert (Nat.eqb (as_len A) (length w)) in
  let! A' := if alignment_known A then Ok A
             else set_alignment A {| k_clf := None; k_classifier := None; k_coefs := None; k_intercept := None;
                                     a_pos := [AVec (map Fin w)] |} in
  let act := actionable_positions A' in
  let b := {| bd_kind := k; bd_w := w; bd_t := t; bd_A := A'; bd_cost := ct; bd_actionable := act;
              bd_min := 0; bd_max := Z.of_nat (length act);
              bd_x := None; bd_mip := None; bd_sol := None; bd_calls := 0%nat |} in
  match x with
  | None => Ok b
  | Some x' => let '(b', r) := set_x E b x' in let! _ := r in Ok b'
  end.

(** RecourseBuilder(coefficients = w, intercept = t, ...): how flipset.py:174 and auditor.py:45-46 pass the
    classifier on. *)
Definition coef_args (w : list Qc) (t : Qc) : cargs :=
  {| k_clf := None; k_classifier := None; k_coefs := Some (AVec (map Fin w)); k_intercept := Some (ANum (Fin t)); a_pos := [] |}.

(** ** Solutions (453-477, 827-884, 1119-1175) *)

(** The fields of the info dict that callers use; [None] is _empty_mip_solution_info: feasible =
    False, cost = inf, actions = costs = NaN. *)
Record sol := { s_cost : Qc; s_actions : list Qc; s_costs : list Qc }.
Definition solinfo := option sol.

(** np.put(a, ind, v): v is repeated as needed. *)
Definition np_put (a : list Qc) (ind : list nat) (v : list Qc) : list Qc :=
  match v with
  | [] => a
  | _ => fold_left (fun acc p => list_set (snd p) (nth (Nat.modulo (fst p) (length v)) v 0) acc)
                   (combine (seq 0 (length ind)) ind) a
  end.

(** Whether the back end exposes a solution: 834 is_primal_feasible; 1123 status OPTIMAL and gap != inf. *)
Definition exposed (k : backend) (o : outcome) : option assignment :=
  match k, o with
  | CPX, SOptimal s _ | CPX, SFeasible s => Some s
  | PyMIP, SOptimal s false => Some s
  | _, _ => None
  end.
(** 827-884 / 1119-1175 solution_info *)
Definition solution_info (k : backend) (ct : cost_type) (n : nat) (ms : mipstate) (o : outcome) : solinfo :=
  match exposed k o with
  | None => None
  | Some s =>
      let infos := ms_infos ms in
      let idx := map i_idx infos in
      let cvals := match ct with
        | CMax => map (fun i => s (VC (i_idx i))) infos
        | _ => map fst (filter (fun p => negb (s (snd p) =? 0)) (flat_map cost_terms infos))
        end in
      Some {| s_actions := np_put (repeat 0 n) idx (map (fun i => s (VA (i_idx i))) infos);
              s_costs := np_put (repeat 0 n) idx cvals;
              s_cost := match ct with CMax => s VMax | _ => objective (ms_mip ms) s end |}
  end.

(** ** fit (524-548, 823-824, 1115-1116) *)
Definition solve_mip (sv : solver) (b : builder) : res builder :=
  match bd_mip b with
  | None => Err AssertionError
  | Some ms => Ok (with_mip (with_call b) (Some ms) (Some (sv (bd_calls b) (ms_mip ms))))
  end.
Definition get_solution (b : builder) : res solinfo :=
  match bd_mip b, bd_sol b with
  | Some ms, Some o => Ok (solution_info (bd_kind b) (bd_cost b) (length (bd_w b)) ms o)
  | _, _ => Err AssertionError
  end.
(** The limits (536-539) are modelled in Model_limits.v; they only influence the solver's answer. *)
Definition fit (sv : solver) (b : builder) : res (builder * solinfo) :=
  let! b' := solve_mip sv b in
  let! i := get_solution b' in
  Ok (b', i).

(** ** populate (551-609) and the two ways of excluding a solution *)
Inductive enum_type := MutuallyExclusive | DistinctSubsets.

Definition with_solution {A} (b : builder) (f : mipstate -> assignment -> A) : res A :=
  match bd_mip b, bd_sol b with
  | Some ms, Some (SOptimal s _) | Some ms, Some (SFeasible s) => Ok (f ms s)
  | _, _ => Err Unmodelled
  end.
(** 906-920 / 1196-1210 remove_all_features *)
Definition remove_all_features (b : builder) : res builder :=
  with_solution b (fun ms s =>
    let on := filter (fun v => isclose0 (s v)) (map off_var (ms_infos ms)) in
    with_mip b (Some {| ms_mip := fold_left (fun m v => set_lower v 1 m) on (ms_mip ms); ms_infos := ms_infos ms |})
             (bd_sol b)).
(** 923-959 (nullify_ind_names) / 1213-1229 (action_off_names) remove_feature_combination *)
Definition exclusion_row (vs : list mvar) (s : assignment) : row :=
  row_le NAnon (map (fun v => (if isclose0 (s v) then - (1) else 1, v)) vs)
         (qz (Z.of_nat (length (filter (fun v => negb (isclose0 (s v))) vs)) - 1)).
Definition excl_vars (k : backend) (infos : list info) : list mvar :=
  match k with CPX => map null_var infos | PyMIP => map off_var infos end.
Definition remove_feature_combination (b : builder) : res builder :=
  with_solution b (fun ms s =>
    with_mip b (Some {| ms_mip := add_row (exclusion_row (excl_vars (bd_kind b) (ms_infos ms)) s) (ms_mip ms);
                        ms_infos := ms_infos ms |}) (bd_sol b)).
Definition remove_solution (et : enum_type) (b : builder) : res builder :=
  match et with MutuallyExclusive => remove_all_features b | DistinctSubsets => remove_feature_combination b end.

(** 590-604: the loop. [total] = None is float('inf'). [fuel] bounds the number of iterations;
    running out of it is reported as [None] (the loop has not ended yet). *)
Fixpoint populate_loop (sv : solver) (fuel : nat) (total : option nat) (et : enum_type) (b : builder)
  : option (res (builder * list sol)) :=
  if match total with Some 0%nat => true | _ => false end then Some (Ok (b, []))
  else
    match fuel with
    | O => None
    | S fuel' =>
        match fit sv b with
        | Err e => Some (Err e)
        | Ok (b1, None) => Some (Ok (b1, []))
        | Ok (b1, Some i) =>
            match remove_solution et b1 with
            | Err e => Some (Err e)
            | Ok b2 =>
                match populate_loop sv fuel' (option_map pred total) et b2 with
                | None => None
                | Some (Err e) => Some (Err e)
                | Some (Ok (b3, l)) => Some (Ok (b3, i :: l))
                end
            end
        end
    end.
(** 573-575: total_items must be a positive int or inf; the mip must exist. *)
Definition populate (sv : solver) (fuel : nat) (total : option nat) (et : enum_type) (b : builder)
  : option (res (builder * list sol)) :=
  match bd_mip b, total with
  | None, _ | _, Some 0%nat => Some (Err AssertionError)
  | _, _ => populate_loop sv fuel total et b
  end.

(** ** Item limits (275-332) *)
(** 309-332 *)
Definition set_min_items (b : builder) (k : option Z) : res builder :=
  match k with
  | None => Ok (with_limits b 0 (bd_max b))
  | Some k => if (0 <=? k)%Z then Ok (with_limits b k (bd_max b)) else Err AssertionError
  end.
Definition set_max_items (b : builder) (k : option Z) : res builder :=
  match k with
  | None => Ok (with_limits b (bd_min b) (n_actionable b))
  | Some k => if (0 <=? k)%Z then Ok (with_limits b (bd_min b) (Z.min k (n_actionable b))) else Err AssertionError
  end.
(** 888-903 / 1179-1193 set_mip_min_items, set_mip_max_items (AttributeError: self._mip is None) *)
Definition set_mip_rhs (p : rname -> bool) (v : Z) (b : builder) : res builder :=
  match bd_mip b with
  | None => Err AttributeError
  | Some ms => Ok (with_mip b (Some {| ms_mip := set_rhs p (qz v) (ms_mip ms); ms_infos := ms_infos ms |}) (bd_sol b))
  end.
(** 275-301 set_mip_item_limits.  As written: nothing happens unless both limits are given, and the
    row "max_items" receives min_nnz_actions, which is unbound unless the first branch ran. Returns
    the builder as it is left behind, with the exception if any. *)
Definition set_mip_item_limits (b : builder) (min_items max_items : option Z) : builder * res unit :=
  match min_items, max_items with
  | Some lo, Some hi =>
      if (lo <=? hi)%Z then
        let step1 :=
          if (lo =? bd_min b)%Z then (b, Ok None)
          else match set_mip_rhs is_min_row (n_actionable b - lo) b with
               | Err e => (b, Err e)
               | Ok b1 => match set_min_items b1 (Some lo) with
                          | Err e => (b1, Err e)
                          | Ok b2 => (b2, Ok (Some (n_actionable b - lo)%Z))
                          end
               end in
        match step1 with
        | (b2, Err e) => (b2, Err e)
        | (b2, Ok min_nnz) =>
            if (hi =? bd_max b2)%Z then (b2, Ok tt)
            else match min_nnz with
                 | None => (b2, Err UnboundLocalError)
                 | Some v => match set_mip_rhs is_max_row v b2 with
                             | Err e => (b2, Err e)
                             | Ok b3 => match set_max_items b3 (Some hi) with
                                        | Err e => (b3, Err e)
                                        | Ok b4 => (b4, Ok tt)
                                        end
                             end
                 end
        end
      else (b, Err AssertionError)
  | _, _ => (b, Ok tt)
  end.
