(** Model of recourse/action_set.py: bounds, grids, percentiles and feasible values of one feature
    (_BoundElement, _ActionElement, _determine_variable_type). *)
From Verif Require Export Py.

(** Components outside the repository, passed as parameters.
    [kde values] is scipy.stats.gaussian_kde(values): None if the constructor raises
    (singular covariance), otherwise the density function.  [nplog] is np.log on positive numbers.
    [set_order] is the iteration order of a Python set of strings (hash dependent). *)
Record env := { kde : list Qc -> option (Qc -> Qc); nplog : Qc -> Qc; set_order : list string -> list string }.

(** action_set.py:1060-1071 _determine_variable_type.
    Simplification: values are numbers, so the str check (1061-1063) never fires. *)
Definition determine_variable_type (values : list Qc) : vtype :=
  if forallb is_integer values then
    if forallb (fun v => (v =? 0) || (v =? 1)) values then TBool else TInt
  else TFloat.

(** np.percentile(values, q), linear interpolation: position q/100*(n-1) in the sorted values.
    None on an empty array. *)
Definition np_percentile (values : list Qc) (q : Qc) : option Qc :=
  let s := qsort values in
  match s with
  | [] => None
  | v0 :: _ =>
    let pos := q / qz 100 * qz (Z.of_nat (length s) - 1) in
    let i := Z.to_nat (qfloor pos) in
    let frac := pos - qz (qfloor pos) in
    let lo := nth i s v0 in
    let hi := nth (S i) s lo in
    Some (lo + frac * (hi - lo))
  end.

Inductive btype := Absolute | Percentile.
(** action_set.py:881-1001 _BoundElement: the stored fields. *)
Record bound := { b_type : btype; b_lb : Qc; b_ub : Qc; b_qlb : Qc; b_qub : Qc }.

(** action_set.py:919-926: bound type strings and codes. *)
Definition parse_btype (v : pyval) : res btype :=
  match v with
  | PStr s => if String.eqb s "a" || String.eqb s "absolute" then Ok Absolute
              else if String.eqb s "p" || String.eqb s "percentile" then Ok Percentile
              else Err AssertionError
  | _ => Err AssertionError
  end.

(** Numeric argument of a percentile bound, action_set.py:932-935: isinstance(float, int, bool,
    ndarray) and 0.0 <= q <= 100.0 (ValueError: truth value of an array with several elements). *)
Definition percentile_arg (v : pyval) : res Qc :=
  let chk := fun f => match f with
    | Fin q => let! _ := passert ((0 <=? q) && (q <=? qz 100)) in Ok q
    | _ => Err AssertionError end in
  match v with
  | PBool _ | PInt _ | PFloat _ => match pynum v with Some f => chk f | None => Err AssertionError end
  | PArr [f] => chk f
  | PArr (_ :: _ :: _) => Err ValueError
  | _ => Err AssertionError
  end.

(** Numeric argument of an absolute bound, action_set.py:945-955 and 964: None means the default
    (minimum or maximum of the values); NaN fails the comparison at 964; infinite bounds are outside
    the model. *)
Definition absolute_arg (v : pyval) (default : option Qc) : res Qc :=
  let chk := fun f => match f with
    | Fin q => Ok q | NaN => Err AssertionError | _ => Err Unmodelled end in
  match v with
  | PNone => of_option AssertionError default
  | PBool _ | PInt _ | PFloat _ => match pynum v with Some f => chk f | None => Err AssertionError end
  | PArr [f] => chk f
  | _ => Err AssertionError
  end.

(** action_set.py:891-972 _BoundElement.__init__ with values given (as every caller in the package
    does; variable_type is then determined from the values, 912-914). *)
Definition mk_bound (values : list Qc) (lb ub btyp : pyval) : res bound :=
  let vt := determine_variable_type values in
  let! t := parse_btype btyp in
  let! r := match t with
    | Percentile =>
        let! ql := percentile_arg lb in
        let! qu := percentile_arg ub in
        let! l := of_option IndexError (np_percentile values ql) in
        let! u := of_option IndexError (np_percentile values qu) in
        Ok (l, u, ql, qu)
    | Absolute =>
        let! l := absolute_arg lb (np_min values) in
        let! u := absolute_arg ub (np_max values) in
        Ok (l, u, 0, qz 100)
    end in
  let '(l, u, ql, qu) := r in
  let! _ := passert (l <=? u) in
  match vt with
  | TInt => Ok {| b_type := t; b_lb := qz (qfloor l); b_ub := qz (qceil u); b_qlb := ql; b_qub := qu |}
  | _ => Ok {| b_type := t; b_lb := l; b_ub := u; b_qlb := ql; b_qub := qu |}
  end.

Inductive stype := Relative | AbsoluteStep.

(** action_set.py:493-546 _ActionElement: the stored fields. [e_flip] = None is _flip_direction =
    nan.  [e_gint]: the numpy dtype of the grid is int (787-788).  [e_interp] is the cached interpolator: the grid and cdf it was built from.
    [e_extra]: attributes stored in the instance __dict__ that the class does not define. *)
Record element := {
  e_name : string; e_values : list Qc; e_vtype : vtype; e_flip : option Z; e_actionable : bool;
  e_bounds : bound; e_step_type : stype; e_step_size : Qc; e_step_dir : Z;
  e_grid : list Qc; e_gint : bool; e_interp : option (list Qc * list Qc); e_extra : dict pyval }.

Definition e_lb (e : element) : Qc := b_lb (e_bounds e).
Definition e_ub (e : element) : Qc := b_ub (e_bounds e).
(** 703-705 *)
Definition e_aligned (e : element) : bool := match e_flip e with Some _ => true | None => false end.

(** Field updates. *)
Definition with_vtype e t := {| e_name := e_name e; e_values := e_values e; e_vtype := t; e_flip := e_flip e; e_actionable := e_actionable e; e_bounds := e_bounds e; e_step_type := e_step_type e; e_step_size := e_step_size e; e_step_dir := e_step_dir e; e_grid := e_grid e; e_gint := e_gint e; e_interp := e_interp e; e_extra := e_extra e |}.
Definition with_flip e f := {| e_name := e_name e; e_values := e_values e; e_vtype := e_vtype e; e_flip := f; e_actionable := e_actionable e; e_bounds := e_bounds e; e_step_type := e_step_type e; e_step_size := e_step_size e; e_step_dir := e_step_dir e; e_grid := e_grid e; e_gint := e_gint e; e_interp := e_interp e; e_extra := e_extra e |}.
Definition with_actionable e b := {| e_name := e_name e; e_values := e_values e; e_vtype := e_vtype e; e_flip := e_flip e; e_actionable := b; e_bounds := e_bounds e; e_step_type := e_step_type e; e_step_size := e_step_size e; e_step_dir := e_step_dir e; e_grid := e_grid e; e_gint := e_gint e; e_interp := e_interp e; e_extra := e_extra e |}.
Definition with_bounds e b := {| e_name := e_name e; e_values := e_values e; e_vtype := e_vtype e; e_flip := e_flip e; e_actionable := e_actionable e; e_bounds := b; e_step_type := e_step_type e; e_step_size := e_step_size e; e_step_dir := e_step_dir e; e_grid := e_grid e; e_gint := e_gint e; e_interp := e_interp e; e_extra := e_extra e |}.
Definition with_step_type e t := {| e_name := e_name e; e_values := e_values e; e_vtype := e_vtype e; e_flip := e_flip e; e_actionable := e_actionable e; e_bounds := e_bounds e; e_step_type := t; e_step_size := e_step_size e; e_step_dir := e_step_dir e; e_grid := e_grid e; e_gint := e_gint e; e_interp := e_interp e; e_extra := e_extra e |}.
Definition with_step_size e s := {| e_name := e_name e; e_values := e_values e; e_vtype := e_vtype e; e_flip := e_flip e; e_actionable := e_actionable e; e_bounds := e_bounds e; e_step_type := e_step_type e; e_step_size := s; e_step_dir := e_step_dir e; e_grid := e_grid e; e_gint := e_gint e; e_interp := e_interp e; e_extra := e_extra e |}.
Definition with_step_dir e d := {| e_name := e_name e; e_values := e_values e; e_vtype := e_vtype e; e_flip := e_flip e; e_actionable := e_actionable e; e_bounds := e_bounds e; e_step_type := e_step_type e; e_step_size := e_step_size e; e_step_dir := d; e_grid := e_grid e; e_gint := e_gint e; e_interp := e_interp e; e_extra := e_extra e |}.
Definition with_grid e g gi := {| e_name := e_name e; e_values := e_values e; e_vtype := e_vtype e; e_flip := e_flip e; e_actionable := e_actionable e; e_bounds := e_bounds e; e_step_type := e_step_type e; e_step_size := e_step_size e; e_step_dir := e_step_dir e; e_grid := g; e_gint := gi; e_interp := e_interp e; e_extra := e_extra e |}.
Definition with_interp e i := {| e_name := e_name e; e_values := e_values e; e_vtype := e_vtype e; e_flip := e_flip e; e_actionable := e_actionable e; e_bounds := e_bounds e; e_step_type := e_step_type e; e_step_size := e_step_size e; e_step_dir := e_step_dir e; e_grid := e_grid e; e_gint := e_gint e; e_interp := i; e_extra := e_extra e |}.
Definition with_extra e x := {| e_name := e_name e; e_values := e_values e; e_vtype := e_vtype e; e_flip := e_flip e; e_actionable := e_actionable e; e_bounds := e_bounds e; e_step_type := e_step_type e; e_step_size := e_step_size e; e_step_dir := e_step_dir e; e_grid := e_grid e; e_gint := e_gint e; e_interp := e_interp e; e_extra := x |}.

(** ** Property setters (one per Python property with a setter) *)

(** 589-592 actionable: np.isin(flag, (False, True)), then bool(flag).  For a list the assert
    inspects the array np.isin returns, while bool(list) is True for every non-empty list. *)
Definition is01 (v : pyval) : bool :=
  match pynum v with Some (Fin q) => (q =? 0) || (q =? 1) | _ => false end.
Definition set_actionable (e : element) (v : pyval) : res element :=
  match v with
  | PList [] | PTuple [] | PArr [] => Err AssertionError
  | PList [w] | PTuple [w] => let! _ := passert (is01 w) in Ok (with_actionable e true)
  | PArr [f] => let! _ := passert (is01 (PFloat f)) in
                Ok (with_actionable e (match f with Fin q => negb (q =? 0) | _ => true end))
  | PList (_ :: _ :: _) | PTuple (_ :: _ :: _) | PArr (_ :: _ :: _) => Err ValueError
  | _ => let! _ := passert (is01 v) in
         Ok (with_actionable e (match pynum v with Some (Fin q) => negb (q =? 0) | _ => true end))
  end.

(** 621-627 variable_type *)
Definition set_variable_type (e : element) (v : pyval) : res element :=
  match v with
  | PNone => Ok (with_vtype e (determine_variable_type (e_values e)))
  | PType t => Ok (with_vtype e t)
  | PList _ | PArr _ => Err TypeError
  | _ => Err AssertionError
  end.

(** 659-669 bounds *)
Definition set_bounds (e : element) (v : pyval) : res element :=
  match v with
  | PList [l; u] | PTuple [l; u] =>
      let! b := mk_bound (e_values e) l u (PStr "absolute") in Ok (with_bounds e b)
  | PList [l; u; t] | PTuple [l; u; t] =>
      let! b := mk_bound (e_values e) l u t in Ok (with_bounds e b)
  | PNone => let! b := mk_bound (e_values e) PNone PNone (PStr "absolute") in Ok (with_bounds e b)
  | _ => Err AssertionError
  end.

(** 677-684 lb and 692-699 ub: a new bound element of the same type. *)
Definition set_lb (e : element) (v : pyval) : res element :=
  let b := e_bounds e in
  let! b' := match b_type b with
    | Percentile => mk_bound (e_values e) v (PFloat (Fin (b_qub b))) (PStr "percentile")
    | Absolute => mk_bound (e_values e) v (PFloat (Fin (b_ub b))) (PStr "absolute")
    end in
  Ok (with_bounds e b').
Definition set_ub (e : element) (v : pyval) : res element :=
  let b := e_bounds e in
  let! b' := match b_type b with
    | Percentile => mk_bound (e_values e) (PFloat (Fin (b_qlb b))) v (PStr "percentile")
    | Absolute => mk_bound (e_values e) (PFloat (Fin (b_lb b))) v (PStr "absolute")
    end in
  Ok (with_bounds e b').

(** np.isfinite + np.sign of the argument of the direction setters (716-719, 740-743).
    np.sign raises TypeError on bool, np.isfinite on non-numbers; one-element lists behave as their
    element (a 1-element array is stored for step_direction; only its sign is ever used). *)
Definition sign_arg (v : pyval) : res Z :=
  let num := fun w => match w with
    | PBool _ => Err TypeError
    | _ => match pynum w with
           | Some (Fin q) => Ok (qsign q)
           | Some _ => Err AssertionError
           | None => Err TypeError
           end end in
  match v with
  | PList [] | PTuple [] | PArr [] => Err AssertionError
  | PList [w] | PTuple [w] => num w
  | PArr [f] => num (PFloat f)
  | PList (_ :: _ :: _) | PTuple (_ :: _ :: _) | PArr (_ :: _ :: _) => Err ValueError
  | _ => num v
  end.
Definition set_flip_direction (e : element) (v : pyval) : res element :=
  let! s := sign_arg v in Ok (with_flip e (Some s)).
Definition set_step_direction (e : element) (v : pyval) : res element :=
  let! s := sign_arg v in Ok (with_step_dir e s).

(** 728-732 step_type *)
Definition set_step_type (e : element) (v : pyval) : res element :=
  match v with
  | PStr s => if String.eqb s "relative" then Ok (with_step_type e Relative)
              else if String.eqb s "absolute" then Ok (with_step_type e AbsoluteStep)
              else Err AssertionError
  | _ => Err AssertionError
  end.

(** 751-757 step_size; an infinite absolute step is outside the model. *)
Definition set_step_size (e : element) (v : pyval) : res element :=
  let chk := fun f => match f with
    | Fin q => let! _ := passert (0 <? q) in
               let! _ := match e_step_type e with Relative => passert (q <=? 1) | _ => Ok tt end in
               Ok (with_step_size e q)
    | PosInf => match e_step_type e with Relative => Err AssertionError | _ => Err Unmodelled end
    | _ => Err AssertionError end in
  match v with
  | PBool _ | PInt _ | PFloat _ => match pynum v with Some f => chk f | None => Err AssertionError end
  | PArr [f] => chk f
  | PArr (_ :: _ :: _) => Err ValueError
  | _ => Err AssertionError
  end.

(** ** Grid *)

(** 765-790: start, stop and step used by update_grid. *)
Definition grid_start (e : element) : Qc :=
  match e_vtype e with TInt => qz (qfloor (e_lb e)) | _ => e_lb e end.
Definition grid_stop (e : element) : Qc :=
  match e_vtype e with TInt => qz (qceil (e_ub e)) | _ => e_ub e end.
Definition grid_step (e : element) : Qc :=
  let step := match e_step_type e with
              | Relative => e_step_size e * (grid_stop e - grid_start e)
              | AbsoluteStep => e_step_size e end in
  match e_vtype e with TInt => qz (qceil step) | _ => step end.
(** 765-790 update_grid.  A zero step is a numpy float (np.multiply at 781; an absolute step is positive), so the length
    (stop - start) / step that np.arange computes is nan and it raises ValueError.  The cast at 788 acts on integers. *)
Definition update_grid (e : element) : res element :=
  if grid_step e =? 0 then Err ValueError
  else Ok (with_grid e (np_arange (grid_start e) (grid_stop e + grid_step e) (grid_step e))
                       (vtype_eqb (e_vtype e) TInt)).

(** 549-559 _check_rep *)
Definition element_check_rep (e : element) : res unit :=
  let! _ := passert (e_lb e <=? e_ub e) in
  let! _ := passert (all_distinct (e_grid e)) in
  passert (nondecr (e_grid e)).

(** 504-546 _ActionElement.__init__; [default_step_size] is 0.01.  The dummy initial fields are
    overwritten before any of them is read. *)
Definition default_step_size : pyval := PFloat (Fin (qfrac 1 100)).
Definition mk_element (name : string) (values : list Qc) (bounds vt actionable step_type step_dir step_size : pyval)
  : res element :=
  let! _ := passert (negb (String.eqb name "")) in
  let vs := qsort values in
  let! _ := passert (negb (Nat.eqb (length vs) 0)) in
  let e0 := {| e_name := name; e_values := vs; e_vtype := TFloat; e_flip := None; e_actionable := true;
               e_bounds := {| b_type := Absolute; b_lb := 0; b_ub := 0; b_qlb := 0; b_qub := 0 |};
               e_step_type := Relative; e_step_size := 0; e_step_dir := 0%Z; e_grid := []; e_gint := false; e_interp := None;
               e_extra := [] |} in
  let! e1 := set_variable_type e0 vt in
  let! e2 := set_actionable e1 actionable in
  let! e3 := set_bounds e2 bounds in
  let! e4 := set_step_type e3 step_type in
  let! e5 := set_step_size e4 step_size in
  let! e6 := set_step_direction e5 step_dir in
  let! e7 := update_grid e6 in
  let! _ := element_check_rep e7 in
  Ok e7.

(** ** Percentiles *)

(** 801-802, 817: default buffers *)
Definition buffer : Qc := qfrac 1 1000000.

(** scipy interp1d(kind = 'linear', bounds_error = False, fill_value = (below, above),
    assume_sorted = True): linear between consecutive grid points, fill values outside. *)
Fixpoint interp_seg (xs ys : list Qc) (x : Qc) : Qc :=
  match xs, ys with
  | x1 :: ((x2 :: _) as xs'), y1 :: ((y2 :: _) as ys') =>
      if x <=? x2 then y1 + (y2 - y1) / (x2 - x1) * (x - x1) else interp_seg xs' ys' x
  | _, y1 :: _ => y1
  | _, [] => 0
  end.
Definition interp (xs ys : list Qc) (x : Qc) : Qc :=
  match xs with
  | [] => 0
  | x0 :: _ => if x <? x0 then buffer
               else if last xs x0 <? x then 1 - buffer
               else interp_seg xs ys x
  end.

(** 801-817 update_interpolator: the (grid, cdf) pair handed to interp1d.
    LinAlgError: gaussian_kde raised; IndexError: cdf_raw[-1] of an empty grid. *)
Definition fresh_interp (E : env) (e : element) : res (list Qc * list Qc) :=
  match kde E (e_values e) with
  | None => Err LinAlgError
  | Some pdf =>
      match e_grid e with
      | [] => Err IndexError
      | _ => let raw := np_cumsum (map pdf (e_grid e)) in
             let total := last raw 0 + buffer + buffer in
             Ok (e_grid e, map (fun r => (buffer + r) / total) raw)
      end
  end.
(** 794-798 interpolator: cached. *)
Definition get_interp (E : env) (e : element) : res (list Qc * list Qc) :=
  match e_interp e with Some i => Ok i | None => fresh_interp E e end.
(** The caching side effect of 794-798 (None: the computation raised, nothing is stored). *)
Definition touch_interp (E : env) (e : element) : element :=
  match get_interp E e with Ok i => with_interp e (Some i) | Err _ => e end.
(** 820-821 percentile *)
Definition percentile (E : env) (e : element) (x : Qc) : res Qc :=
  let! (xs, ys) := get_interp E e in Ok (interp xs ys x).

(** ** Feasible values *)

(** 595-612 compatible (nan for unaligned elements is None). *)
Definition compatible (e : element) : option bool :=
  match e_flip e with
  | None => None
  | Some fd =>
      if negb (e_actionable e) then Some false
      else Some (negb ((Z.sgn fd =? 0)%Z || (Z.sgn fd * Z.sgn (e_step_dir e) =? -1)%Z))
  end.

(** 787-788 and 857: the grid of an integer feature is an int array, so np.insert truncates x. *)
Definition cast_to_grid (e : element) (x : Qc) : Qc := if e_gint e then qz (qtrunc x) else x.

(** 844-868: the array x_new. *)
Definition feasible_x (e : element) (x : Qc) (drop_suboptimal : bool) : list Qc :=
  let x_new :=
    if e_actionable e then
      let g := if (0 <? e_step_dir e)%Z then filter (fun v => x <=? v) (e_grid e)
               else if (e_step_dir e <? 0)%Z then filter (fun v => v <=? x) (e_grid e)
               else e_grid e in
      if qmem x g then g else np_insert g (searchsorted g x) (cast_to_grid e x)
    else [x] in
  if drop_suboptimal then
    match e_flip e with
    | Some fd => if (0 <? fd)%Z then filter (fun v => x <=? v) x_new
                 else if (fd <? 0)%Z then filter (fun v => v <=? x) x_new
                 else x_new
    | None => x_new   (* comparisons with nan are False *)
    end
  else x_new.

(** 825-878 feasible_values: (vals, percentiles if requested). *)
Definition feasible_values (E : env) (e : element) (x : Qc) (return_actions return_percentiles drop_suboptimal : bool)
  : res (list Qc * list Qc) :=
  let! _ := passert (negb return_actions || e_aligned e) in
  let x_new := feasible_x e x drop_suboptimal in
  let vals := if return_actions then map (fun v => v - x) x_new else x_new in
  if return_percentiles then
    let! ps := mapM (percentile E e) x_new in Ok (vals, ps)
  else Ok (vals, []).

(** ** Generic attribute assignment on an element (Python's setattr).
    Names defined by the class _ActionElement: properties with a setter, read-only properties
    (AttributeError), and methods (assigning over a method is outside the model). Any other public
    name is stored in the instance __dict__. *)
Definition elem_settable : list string :=
  ["actionable"; "variable_type"; "bounds"; "lb"; "ub"; "flip_direction"; "step_type"; "step_direction"; "step_size"; "bound_type"].
Definition elem_readonly : list string :=
  ["name"; "values"; "compatible"; "size"; "aligned"; "grid"; "interpolator"].
Definition elem_methods : list string :=
  ["update_grid"; "update_interpolator"; "percentile"; "feasible_values"].
(** hasattr(_ActionElement, name) for public names. *)
Definition elem_hasattr (n : string) : bool := smem n elem_settable || smem n elem_readonly || smem n elem_methods.

Definition elem_setattr (n : string) (v : pyval) (e : element) : res element :=
  if String.eqb n "actionable" then set_actionable e v
  else if String.eqb n "variable_type" then set_variable_type e v
  else if String.eqb n "bounds" then set_bounds e v
  else if String.eqb n "lb" then set_lb e v
  else if String.eqb n "ub" then set_ub e v
  else if String.eqb n "flip_direction" then set_flip_direction e v
  else if String.eqb n "step_type" then set_step_type e v
  else if String.eqb n "step_direction" then set_step_direction e v
  else if String.eqb n "step_size" then set_step_size e v
  else if String.eqb n "bound_type" then Err TypeError  (* 644-651: the setter takes no value *)
  else if smem n elem_readonly then Err AttributeError
  else if smem n elem_methods then Err Unmodelled
  else if String.prefix "_" n then Err Unmodelled
  else Ok (with_extra e (dset n v (e_extra e))).
