(** Model of reading: attributes of action sets, slices and elements (recourse/action_set.py:141-145, 570-762, 1020-1024),
    the summary table of an action set (202-217), the table of to_latex (1134-1180), and flipset.py:90-98, 257-290. *)
From Verif Require Export Model_actionset Model_flipset.
#[local] Open Scope string_scope.
#[local] Open Scope list_scope.
#[local] Open Scope Qc_scope.

(** ** Attributes of one element *)
(** 570-762: getters.  compatible and flip_direction are nan for unaligned elements (600-601, 711-713); step_direction is
    what np.sign returned (a numpy integer; for float arguments a float of the same value).  bounds (a _BoundElement
    object), the interpolator and methods are not modelled. *)
Definition elem_getattr (n : string) (e : element) : res pyval :=
  if String.eqb n "name" then Ok (PStr (e_name e))
  else if String.eqb n "values" then Ok (PArr (map Fin (e_values e)))
  else if String.eqb n "actionable" then Ok (PBool (e_actionable e))
  else if String.eqb n "compatible" then Ok (match compatible e with Some b => PBool b | None => PFloat NaN end)
  else if String.eqb n "variable_type" then Ok (PType (e_vtype e))
  else if String.eqb n "size" then Ok (PInt (Z.of_nat (length (e_grid e))))
  else if String.eqb n "bound_type" then Ok (PStr match b_type (e_bounds e) with Absolute => "absolute" | Percentile => "percentile" end)
  else if String.eqb n "lb" then Ok (PFloat (Fin (e_lb e)))
  else if String.eqb n "ub" then Ok (PFloat (Fin (e_ub e)))
  else if String.eqb n "aligned" then Ok (PBool (e_aligned e))
  else if String.eqb n "flip_direction" then Ok (match e_flip e with Some f => PInt f | None => PFloat NaN end)
  else if String.eqb n "step_type" then Ok (PStr match e_step_type e with Relative => "relative" | AbsoluteStep => "absolute" end)
  else if String.eqb n "step_direction" then Ok (PNpInt (e_step_dir e))
  else if String.eqb n "step_size" then Ok (PFloat (Fin (e_step_size e)))
  else if String.eqb n "grid" then Ok (PArr (map Fin (e_grid e)))
  else if elem_hasattr n || String.prefix "_" n then Err Unmodelled
  else of_option AttributeError (dget n (e_extra e)).

(** 141-145 ActionSet.__getattribute__ for the attributes an element has.  name in ('alignment_known') tests for a
    substring.  Other attributes are those of the ActionSet object itself (Unmodelled here). *)
Definition set_getattr (A : action_set) (n : string) : res (list pyval) :=
  if elem_hasattr n then
    match String.index 0 n "alignment_known" with
    | Some _ => Err AttributeError
    | None => mapM (elem_getattr n) (as_elems A)
    end
  else Err Unmodelled.
(** A[i].n: 1020-1024 for slices, plain attribute access for single elements (one value). *)
Definition index_getattr (A : action_set) (i : Model_actionset.index) (n : string) : res (list pyval) :=
  let! ps := select A i in
  let at_ p := match nth_error (as_elems A) p with Some e => elem_getattr n e | None => Err KeyError end in
  match i with
  | IStr _ | IInt _ => mapM at_ ps
  | _ => mapM (fun w => at_ (fst w)) (slice_dict A ps)
  end.

(** ** The summary table (202-217) *)
Definition summary_columns : list string :=
  ["name"; "variable_type"; "lb"; "ub"; "size"; "step_size"; "actionable"; "compatible"; "step_direction"; "flip_direction"].
(** A data frame: named columns. (The column of sizes is called grid_size in the frame.) *)
Definition summary (A : action_set) : res (list (string * list pyval)) :=
  mapM (fun n => let! l := set_getattr A n in Ok (n, l)) summary_columns.

(** 1111-1131 tabulate_actions, behind str and repr of an ActionSet (157-164) and of an _ActionSlice (1038-1042): a slice
    fails the assertion at 1117, an attempt to print A[i] for a list or slice i.  Simplification: the table's columns; its layout is not modelled. *)
Definition tabulate_columns : list string :=
  ["name"; "variable_type"; "actionable"; "compatible"; "step_direction"; "flip_direction"; "size"; "step_type"; "step_size"; "lb"; "ub"].
Definition tabulate (v : action_set + list nat) : res (list (string * list pyval)) :=
  match v with
  | inl A => mapM (fun n => let! l := set_getattr A n in Ok (n, l)) tabulate_columns
  | inr _ => Err AssertionError
  end.

(** 161-163 ActionSet.__repr__: returns None, which Python rejects, unless print_flag (188-199). *)
Definition set_repr (print_flag : bool) (A : action_set) : res (list (string * list pyval)) :=
  if print_flag then tabulate (inl A) else Err TypeError.

(** ** to_latex of an action set (1134-1180): the cells.  Formatting of numbers is not modelled. *)
Inductive tex_type := TexBinary | TexInteger | TexReal.
Inductive mutability := MutNo | MutYes | MutUp | MutDown.
(** 1163-1166: & binds stronger than ==; pandas turns the result of bool & int into bool. *)
Definition and_int (b : bool) (z : Z) : bool := negb (Z.land (if b then 1 else 0) z =? 0)%Z.
Definition bool_int (b : bool) : Z := if b then 1%Z else 0%Z.
Definition tex_mutability (actionable : bool) (dir : Z) : mutability :=
  if (bool_int (and_int actionable dir) =? -1)%Z then MutDown
  else if (bool_int (and_int actionable dir) =? 1)%Z then MutUp
  else if actionable then MutYes else MutNo.
(** 1147-1156: the type objects bool, int, float are compared with the string 'int'. *)
Definition is_int_string (t : vtype) : bool := false.
Definition tex_type_of (t : vtype) (lb ub : Qc) : tex_type :=
  if is_int_string t then (if (lb =? 0) && (ub =? 1) then TexBinary else TexInteger) else TexReal.
Record tex_row := { tr_name : string; tr_type : tex_type; tr_lb : Qc; tr_ub : Qc; tr_size : nat; tr_step : Qc; tr_mut : mutability }.
Definition tex_table (A : action_set) : list tex_row :=
  map (fun e => {| tr_name := e_name e; tr_type := tex_type_of (e_vtype e) (e_lb e) (e_ub e); tr_lb := e_lb e; tr_ub := e_ub e;
                   tr_size := length (e_grid e); tr_step := e_step_size e;
                   tr_mut := tex_mutability (e_actionable e) (e_step_dir e) |}) (as_elems A).

(** ** Flipset views *)
(** flipset.py:90-93 items: dict(zip(names, actions)) per item; 95-98 actions; 53-57 len. *)
Definition f_item_dicts (f : flipset) : list (dict Qc) :=
  map (fun i => fold_left (fun d p => dset (fst p) (snd p) d) (combine (as_names (f_A f)) (fi_actions i)) []) (f_items f).
Definition f_actions (f : flipset) : list (list Qc) := map fi_actions (f_items f).
(** str.replace(v, w), non-overlapping from the left, for non-empty v; [fuel] at least the length of the text. *)
Fixpoint replace_fuel (fuel : nat) (v w s : string) : string :=
  match fuel with
  | O => s
  | S fuel' =>
      match s with
      | EmptyString => EmptyString
      | String c r => if String.prefix v s
                      then (w ++ replace_fuel fuel' v w (String.substring (String.length v) (String.length s - String.length v) s))%string
                      else String c (replace_fuel fuel' v w r)
      end
  end.
Definition str_replace (v w s : string) : string := replace_fuel (S (String.length s)) v w s.
(** 275-278: every feature name is wrapped by replacing its occurrences in the text, one name after the other. *)
Definition wrapped (fmt n : string) : string := (fmt ++ "{" ++ n ++ "}")%string.
Definition wrap_names (fmt : string) (names : list string) (text : string) : string :=
  fold_left (fun t n => str_replace n (wrapped fmt n) t) names text.
(** 257-290 to_latex: the cells of the column of features, after wrapping.  An empty flipset gives the list [] instead of a
    frame (225-226), which has no columns (264).  Simplification: a name never spans two cells. *)
Definition f_latex_names (srt : sorter) (order : list flat_line -> list flat_line) (fmt : string) (f : flipset) : res (list string) :=
  match snd (to_flat_df srt order f) with
  | Err e => Err e
  | Ok None => Err AttributeError
  | Ok (Some ls) => Ok (map (fun l => wrap_names fmt (f_names f) (fl_feature l)) ls)
  end.
