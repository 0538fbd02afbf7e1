(** Model of recourse/action_set.py: ActionSet, _ActionSlice, _ActionConstraints. *)
From Coq Require Import DecimalString Decimal.
From Verif Require Export Model_element Model_helpers.

(** '%d' % n *)
Definition string_of_nat (n : nat) : string := NilZero.string_of_uint (Nat.to_uint n).

(** ** Constraints (action_set.py:376-489) *)

(** 377: SubsetLimitConstraint namedtuple *)
Record slc := { c_id : string; c_names : list string; c_indices : list nat; c_lb : Z; c_ub : Z }.
(** 385-389: _ActionConstraints fields *)
Record registry := { r_names : list string; r_counter : nat; r_cons : dict slc }.
Definition empty_registry (names : list string) : registry := {| r_names := names; r_counter := 0; r_cons := [] |}.

(** 1046-1057 _check_variable_names on a list of strings *)
Definition check_variable_names (names : list string) : bool :=
  negb (Nat.eqb (length names) 0) && forallb (fun n => negb (String.eqb n "")) names && snodup names.

(** np.argsort(indices) applied to (index, name) pairs; the indices are distinct. *)
Fixpoint pinsert (p : nat * string) (l : list (nat * string)) : list (nat * string) :=
  match l with [] => [p] | q :: r => if Nat.leb (fst p) (fst q) then p :: l else q :: pinsert p r end.
Fixpoint psort (l : list (nat * string)) : list (nat * string) :=
  match l with [] => [] | p :: r => pinsert p (psort r) end.

(** 430-489 add_subset_limit_constraint: returns the id.  [id] = None: no id given. Simplification:
    names is a list of strings and id, if given, a string (458-463 assert this); lb and ub are numbers
    converted by int(). *)
Definition add_subset_limit (r : registry) (names : list string) (lb ub : Qc) (id : option string)
  : res (registry * string) :=
  let id' := match id with None => string_of_nat (r_counter r) | Some s => s end in
  let! _ := passert (negb (String.eqb id' "")) in
  let! _ := passert (check_variable_names names) in
  let! _ := passert (Nat.leb 2 (length names) && Nat.leb (length names) (length (r_names r))) in
  let! indices := mapM (fun n => of_option ValueError (index_of n (r_names r))) names in
  let l := qtrunc lb in
  let u := qtrunc ub in
  let n := Z.of_nat (length (r_names r)) in
  let! _ := passert ((0 <=? l) && (l <=? n))%Z in
  let! _ := passert ((0 <=? u) && (u <=? n))%Z in
  let! _ := passert (l <=? u)%Z in
  let ps := psort (combine indices names) in
  let c := {| c_id := id'; c_names := map snd ps; c_indices := map fst ps; c_lb := l; c_ub := u |} in
  Ok ({| r_names := r_names r; r_counter := S (r_counter r); r_cons := dset id' c (r_cons r) |}, id').

(** 418-428 remove *)
Definition registry_remove (r : registry) (id : string) : res registry :=
  let! _ := passert (negb (String.eqb id "")) in
  match dget id (r_cons r) with
  | Some _ => Ok {| r_names := r_names r; r_counter := r_counter r; r_cons := dpop id (r_cons r) |}
  | None => Err ValueError
  end.

(** 402-415 constrained_names: a Python set, iterated in an order chosen by the runtime. *)
Definition constrained_names (E : env) (r : registry) : list string :=
  set_order E (sdedup (concat (map (fun p => c_names (snd p)) (r_cons r)))).

(** ** ActionSet (19-373) *)

(** Fields of ActionSet. The dicts _indices and _elements (keys = names, in order) are represented by
    the list of elements in name order. *)
Record action_set := { as_names : list string; as_elems : list element; as_cons : registry; as_y : Z }.
Definition with_elems A es := {| as_names := as_names A; as_elems := es; as_cons := as_cons A; as_y := as_y A |}.
Definition with_cons A r := {| as_names := as_names A; as_elems := as_elems A; as_cons := r; as_y := as_y A |}.
Definition with_y A y := {| as_names := as_names A; as_elems := as_elems A; as_cons := as_cons A; as_y := y |}.

(** 83-91: one element per column.  [custom] is custom_bounds, [dflt] default_bounds, [dst]
    default_step_type. *)
Definition mk_column_element (custom : dict pyval) (dflt dst : pyval) (name : string) (col : list Qc) : res element :=
  match determine_variable_type col with
  | TBool => mk_element name col
      (match dget name custom with Some b => b | None => PTuple [PInt 0; PInt 1; PStr "absolute"] end)
      (PType TBool) (PBool true) (PStr "absolute") (PInt 0) (PInt 1)
  | t => mk_element name col
      (match dget name custom with Some b => b | None => dflt end)
      (PType t) (PBool true) dst (PInt 0) default_step_size
  end.
(** 26-27 *)
Definition default_bounds : pyval := PTuple [PInt 1; PInt 99; PStr "percentile"].
Definition default_step_type : pyval := PStr "relative".

Definition column (X : list (list Qc)) (j : nat) : list Qc := map (fun row => nth j row 0) X.

(** 29-101 ActionSet.__init__ for a matrix X (list of rows) of finite numbers.  Simplification: names
    is a list of strings; the flags print_flag/check_flag (77-78) and the check at 101 are
    added in Model_flags.v. *)
Definition mk_action_set (X : list (list Qc)) (names : list string) (y_desired : Z)
    (custom : dict pyval) (dflt dst : pyval) : res action_set :=
  let! _ := passert (check_variable_names names) in
  let! _ := passert (negb (Nat.eqb (length X) 0)) in
  let! _ := passert (forallb (fun row => Nat.eqb (length row) (length names)) X) in
  let! es := mapM (fun p => mk_column_element custom dflt dst (snd p) (column X (fst p)))
                  (combine (seq 0 (length names)) names) in
  let! _ := passert ((y_desired =? -1) || (y_desired =? 0) || (y_desired =? 1))%Z in
  Ok {| as_names := names; as_elems := es; as_cons := empty_registry names;
        as_y := if (0 <? y_desired)%Z then 1%Z else (-1)%Z |}.

(** 104-105 *)
Definition as_len (A : action_set) : nat := length (as_names A).
(** 271-276 alignment_known *)
Definition alignment_known (A : action_set) : bool := forallb e_aligned (as_elems A).

(** 237-253 y_desired setter.  -flip_direction: flip_direction (708-713) is the stored int. *)
Definition set_y_desired (A : action_set) (y : Z) : res action_set :=
  let! _ := passert ((y =? -1) || (y =? 0) || (y =? 1))%Z in
  if (y =? as_y A)%Z then Ok A
  else
    let A' := with_y A (if (0 <? y)%Z then 1%Z else (-1)%Z) in
    if alignment_known A' then
      Ok (with_elems A' (map (fun e => with_flip e (option_map (fun f => Z.sgn (- f)) (e_flip e))) (as_elems A')))
    else Ok A'.

(** 256-268 set_alignment *)
Definition set_alignment (A : action_set) (a : cargs) : res action_set :=
  let! (coefs, _) := parse_classifier_args a in
  let! _ := passert (Nat.eqb (length coefs) (as_len A)) in
  let flips := map (fun w => if (0 <? as_y A)%Z then qsign w else (- qsign w)%Z) coefs in
  Ok (with_elems A (map (fun p => with_flip (fst p) (Some (Z.sgn (snd p)))) (combine (as_elems A) flips))).

(** ** Indexing and attribute assignment *)

Inductive index :=
| IStr (s : string) | IInt (z : Z) | IList (l : list pyval) | IMask (l : list bool) | IIdx (l : list Z)
| ISlice (a b : option Z).

(** Position of a list item used as an index self._names[j] (Python ints, bools and np.int64). *)
Definition as_int (v : pyval) : option Z :=
  match v with PInt z | PNpInt z => Some z | PBool b => Some (if b then 1%Z else 0%Z) | _ => None end.

(** self._names[i] as a position. *)
Definition name_pos (A : action_set) (i : Z) : res nat :=
  of_option IndexError (py_index (seq 0 (as_len A)) i).
(** self._elements[n] as a position. *)
Definition key_pos (A : action_set) (n : string) : res nat := of_option KeyError (index_of n (as_names A)).

(** 118-125: list indices. isinstance(True, int) holds, so a list starting with a bool takes the
    integer branch; an item of another type leaves `names` unbound. *)
Definition select_list (A : action_set) (l : list pyval) : res (list nat) :=
  match l with
  | [] => Err IndexError
  | PInt _ :: _ | PBool _ :: _ =>
      mapM (fun v => match as_int v with Some z => name_pos A z | None => Err TypeError end) l
  | PStr _ :: _ =>
      mapM (fun v => match v with PStr s => key_pos A s | PList _ | PArr _ => Err TypeError | _ => Err KeyError end) l
  | _ => Err UnboundLocalError
  end.

Fixpoint mask_positions (k : nat) (m : list bool) : list nat :=
  match m with [] => [] | b :: r => if b then k :: mask_positions (S k) r else mask_positions (S k) r end.

(** 112-132 __getitem__: positions of the selected elements ([IStr]/[IInt] return a single element,
    the others an _ActionSlice). *)
Definition select (A : action_set) (i : index) : res (list nat) :=
  match i with
  | IStr s => let! p := key_pos A s in Ok [p]
  | IInt z => let! p := name_pos A z in Ok [p]
  | IList l => select_list A l
  | IMask m => if Nat.eqb (length m) (as_len A) then Ok (mask_positions 0 m) else Err IndexError
  | IIdx l => mapM (name_pos A) l
  | ISlice a b => Ok (py_slice (seq 0 (as_len A)) a b)
  end.

(** 1074-1108 _expand_values *)
Definition expand_values (v : pyval) (m : nat) : res (list pyval) :=
  match v with
  | PArr l => if Nat.eqb (length l) m then Ok (map PFloat l)
              else match l with [f] => Ok (repeat (PFloat f) m) | _ => Err ValueError end
  | PList l => if Nat.eqb (length l) m then Ok l
               else match l with [_] => Ok (repeat (PList l) m) | _ => Err ValueError end
  | PStr _ | PBool _ | PInt _ | PFloat _ => Ok (repeat v m)
  | _ => Err ValueError
  end.

(** Assign attribute values to elements one after the other, as the loops at 151-152 and 1032-1033
    do; on an exception the elements assigned so far keep their new values. Work items are
    (position of the element, position in attr_values). *)
Fixpoint assign_loop (name : string) (vals : list pyval) (work : list (nat * nat)) (es : list element)
  : list element * res unit :=
  match work with
  | [] => (es, Ok tt)
  | (p, j) :: r =>
      match nth_error es p, nth_error vals j with
      | Some e, Some v =>
          match elem_setattr name v e with
          | Ok e' => assign_loop name vals r (list_set p e' es)
          | Err x => (es, Err x)
          end
      | _, _ => (es, Err IndexError)
      end
  end.

(** 148-154 ActionSet.__setattr__ for an attribute of _ActionElement (other attributes are stored on
    the ActionSet itself and do not concern the elements). *)
Definition set_setattr (A : action_set) (name : string) (v : pyval) : action_set * res unit :=
  if elem_hasattr name then
    match expand_values v (as_len A) with
    | Err x => (A, Err x)
    | Ok vals =>
        let '(es, r) := assign_loop name vals (map (fun j => (j, j)) (seq 0 (as_len A))) (as_elems A) in
        (with_elems A es, r)
    end
  else (A, Ok tt).

(** 1016-1018 _ActionSlice.__init__: _indices and _elements keyed by element name; a repeated element
    keeps its first place in the dict but its last index.  Result: (position of element, index j). *)
Definition slice_dict (A : action_set) (ps : list nat) : list (nat * nat) :=
  map snd (fold_left (fun (d : dict (nat * nat)) (pj : nat * nat) =>
             match nth_error (as_elems A) (fst pj) with
             | Some e => dset (e_name e) pj d
             | None => d
             end) (combine ps (seq 0 (length ps))) []).

(** 1026-1033 _ActionSlice.__setattr__, and plain attribute assignment on a single element. *)
Definition index_setattr (A : action_set) (i : index) (name : string) (v : pyval) : action_set * res unit :=
  match select A i with
  | Err x => (A, Err x)
  | Ok ps =>
      match i with
      | IStr _ | IInt _ =>
          match ps with
          | [p] => match nth_error (as_elems A) p with
                   | Some e => match elem_setattr name v e with
                               | Ok e' => (with_elems A (list_set p e' (as_elems A)), Ok tt)
                               | Err x => (A, Err x)
                               end
                   | None => (A, Err KeyError)
                   end
          | _ => (A, Err KeyError)
          end
      | _ =>
          if elem_hasattr name then
            let work := slice_dict A ps in
            match expand_values v (length work) with
            | Err x => (A, Err x)
            | Ok vals =>
                let '(es, r) := assign_loop name vals work (as_elems A) in
                (with_elems A es, r)
            end
          else (A, Err AssertionError)
      end
  end.

(** 135-138 __setitem__ *)
Definition setitem (A : action_set) (name : string) (e : element) : res action_set :=
  match index_of name (as_names A) with
  | None => Err AssertionError
  | Some p => Ok (with_elems A (list_set p e (as_elems A)))
  end.

(** 318-365 add_constraint, 368-373 remove_constraint *)
Definition add_constraint (A : action_set) (ctype : string) (names : list string) (lb ub : Qc) (id : option string)
  : res (action_set * string) :=
  if String.eqb ctype "subset_limit" then
    let! (r, i) := add_subset_limit (as_cons A) names lb ub id in Ok (with_cons A r, i)
  else Err ValueError.
Definition remove_constraint (A : action_set) (id : string) : res action_set :=
  let! r := registry_remove (as_cons A) id in Ok (with_cons A r).

(** ** feasible_grid (280-309) *)

(** 293-296: nan (unaligned) counts as true in the filter of the comprehension. *)
Definition grid_included (return_compatible : bool) (e : element) : bool :=
  if return_compatible then match compatible e with Some b => b | None => true end else true.

Definition gridentry := (list Qc * list Qc)%type.
Definition feasible_grid (E : env) (A : action_set) (x : list Qc)
    (return_actions return_percentiles return_compatible : bool) : res (dict gridentry) :=
  let! _ := passert (Nat.eqb (length x) (as_len A)) in
  let! output := mapM (fun q => let '(n, (e, xj)) := q in
                      let! v := feasible_values E e xj return_actions return_percentiles true in Ok (n, v))
                   (filter (fun q => grid_included return_compatible (fst (snd q)))
                           (combine (as_names A) (combine (as_elems A) x))) in
  match r_cons (as_cons A) with
  | [] => Ok output
  | _ =>
      (* 299-304: overwrite (or append) the entries of constrained features, keeping both directions *)
      fold_left (fun acc n =>
          let! out := acc in
          let! j := of_option ValueError (index_of n (as_names A)) in
          match nth_error (as_elems A) j, nth_error x j with
          | Some e, Some xj =>
              let! v := feasible_values E e xj return_actions return_percentiles false in
              Ok (dset n v out)
          | _, _ => Err KeyError
          end)
        (constrained_names E (as_cons A)) (Ok output)
  end.
