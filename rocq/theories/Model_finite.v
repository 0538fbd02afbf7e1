(** Model of what happens to nan and infinite numbers in data matrices, individuals and tables.  The other files model
    finite numbers; the functions here decide on the rest and call them. *)
From Verif Require Export Py Num Model_helpers Model_actionset Model_builder Model_backend Model_flipset.
#[local] Open Scope string_scope.
#[local] Open Scope list_scope.

Definition is_nan (f : fl) : bool := match f with NaN => true | _ => false end.
Definition column_values (X : list (list fl)) (j : nat) : list fl := map (fun row => nth j row (Fin 0)) X.
(** action_set.py:83-91 and 515-524 for one column without nan: a column with an infinite value is real-valued (np.mod(inf, 1)
    is nan, 1064), and the element's constructor, called with a known name, rejects the values (522-523) before it looks
    at anything else. *)
Definition mk_column_values (custom : dict pyval) (dflt dst : pyval) (name : string) (col : list fl) : res element :=
  let! qs := finite_all col in mk_column_element custom dflt dst name qs.
(** action_set.py:64-101 for a matrix of floats.  np.array_equal(X, X + 0.0) (73) is false exactly when there is a nan
    (infinite values are equal to themselves). *)
Definition mk_action_set_values (X : list (list fl)) (names : list string) (y_desired : Z)
    (custom : dict pyval) (dflt dst : pyval) : res action_set :=
  let! _ := passert (check_variable_names names) in
  let! _ := passert (negb (Nat.eqb (length X) 0)) in
  let! _ := passert (forallb (fun row => Nat.eqb (length row) (length names)) X) in
  let! _ := passert (negb (existsb (existsb is_nan) X)) in
  let! es := mapM (fun p => mk_column_values custom dflt dst (snd p) (column_values X (fst p)))
                  (combine (seq 0 (length names)) names) in
  let! _ := passert ((y_desired =? -1) || (y_desired =? 0) || (y_desired =? 1))%Z in
  Ok {| as_names := names; as_elems := es; as_cons := empty_registry names;
        as_y := if (0 <? y_desired)%Z then 1%Z else (-1)%Z |}.

(** 280-292: the values are checked before anything is computed. *)
Definition feasible_grid_values (E : env) (A : action_set) (x : list fl) (ra rp rc : bool) : res (dict gridentry) :=
  let! _ := passert (Nat.eqb (length x) (as_len A)) in
  let! q := finite_all x in feasible_grid E A q ra rp rc.
(** 841 *)
Definition feasible_values_value (E : env) (e : element) (x : fl) (ra rp drop : bool) : res (list Qc * list Qc) :=
  let! q := finite_one x in feasible_values E e q ra rp drop.

(** A builder, and the vector that builder.x (builder.py:168-173) shows. *)
Record vbuilder := { vb_b : builder; vb_x : option (list fl) }.
(** builder.py:176-182: the vector is stored (181) before build_mip (182), whose first step (builder.py:648 and 983, 354;
    action_set.py:292) rejects nan and infinite values; the program that was there stays. *)
Definition set_x_values (E : env) (v : vbuilder) (xs : list fl) : vbuilder * res unit :=
  if Nat.eqb (length xs) (length (bd_w (vb_b v))) then
    match finite_all xs with
    | Ok q => let '(b', r) := set_x E (vb_b v) q in ({| vb_b := b'; vb_x := Some xs |}, r)
    | Err e => ({| vb_b := vb_b v; vb_x := Some xs |}, Err e)
    end
  else (v, Err AssertionError).
(** builder.py:37-89 with any vector x *)
Definition builder_create_values (E : env) (i : installed) (A : action_set) (a : cargs) (ct : cost_type)
    (xs : list fl) (s : option pyval) : action_set * res vbuilder :=
  match builder_create E i A a ct None s with
  | (A', Err e) => (A', Err e)
  | (A', Ok b0) => (A', let '(v, r) := set_x_values E {| vb_b := b0; vb_x := None |} xs in let! _ := r in Ok v)
  end.

(** flipset.py:30-50: any vector is accepted.  A flipset whose vector is not finite, and its populate (141-178) when it has
    no builder yet; nothing is filed. *)
Record vflipset := { vf_A : action_set; vf_x : list fl; vf_w : list Qc; vf_t : Qc; vf_items : list fitem }.
Definition mk_flipset_values (A : action_set) (xs : list fl) (a : cargs) : res vflipset :=
  let! (w, t) := parse_classifier_args a in
  Ok {| vf_A := A; vf_x := xs; vf_w := w; vf_t := t; vf_items := [] |}.
(** 171-176 for a vector that is not finite: the new builder raises (shown below: always); [None] if it does not. *)
Definition populate_values (E : env) (i : installed) (ct : cost_type) (s : option pyval) (f : vflipset) : option (vflipset * exn) :=
  match builder_create_values E i (vf_A f) (coef_args (vf_w f) (vf_t f)) ct (vf_x f) s with
  | (A', Err e) => Some ({| vf_A := A'; vf_x := vf_x f; vf_w := vf_w f; vf_t := vf_t f; vf_items := vf_items f |}, e)
  | (_, Ok _) => None
  end.
