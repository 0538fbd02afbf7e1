(** Model of the flags print_flag and check_flag of action sets, builders and auditors, and of the internal checks
    that check_flag switches on.  Simplification: print_flag decides what is printed (161-163, builder.py:597-605);
    the text itself is modelled in Model_views.v. *)
From Verif Require Export Py Model_actionset Model_builder Model_audit Model_backend Model_views.
#[local] Open Scope string_scope.
#[local] Open Scope list_scope.

(** A flag argument: None = not given (kwargs.get(..., default); the defaults are True, action_set.py:24-25,
    builder.py:28-29, auditor.py:19). *)
Definition given (kw : option pyval) : pyval := match kw with Some v => v | None => PBool true end.
(** action_set.py:192-199, builder.py:110-117 and 125-132, auditor.py:58-65: None restores the default True; np.bool_
    values are not represented (isinstance(flag, bool) is false for them). *)
Definition set_flag (v : pyval) : res bool :=
  match v with PNone => Ok true | PBool b => Ok b | _ => Err AttributeError end.
(** action_set.py:171-174 *)
Definition set_check_flag (v : pyval) : res bool := match v with PBool b => Ok b | _ => Err AssertionError end.

(** action_set.py:177-183: the elements are _ActionElements by construction. *)
Definition set_check_rep (A : action_set) : res unit :=
  passert (forallb e_aligned (as_elems A) || negb (existsb e_aligned (as_elems A))).
(** action_set.py:64-101: the arguments names and X are checked first (64-71), then the flags are set (77-78), then the
    elements are built. *)
Definition mk_action_set_flags (X : list (list Qc)) (names : list string) (y_desired : Z)
    (custom : dict pyval) (dflt dst : pyval) (print check : option pyval) : res (action_set * (bool * bool)) :=
  let! _ := passert (check_variable_names names) in
  let! _ := passert (negb (Nat.eqb (length X) 0)) in
  let! _ := passert (forallb (fun row => Nat.eqb (length row) (length names)) X) in
  let! p := set_flag (given print) in
  let! c := set_check_flag (given check) in
  let! A := mk_action_set X names y_desired custom dflt dst in
  let! _ := if c then set_check_rep A else Ok tt in
  Ok (A, (p, c)).

(** builder.py:92-103; the intercept is a float whenever parse_classifier_args returns (helper_functions.py:66,72). *)
Definition builder_check_rep (b : builder) : res unit :=
  passert (Nat.eqb (as_len (bd_A b)) (length (bd_w b))
           && match bd_x b with None => true | Some x => Nat.eqb (length (bd_w b)) (length x) end
           && alignment_known (bd_A b)
           && (0 <=? bd_min b)%Z && (bd_min b <=? bd_max b)%Z && (bd_max b <=? Z.of_nat (length (bd_w b)))%Z).
(** builder.py:37-89: the classifier is read and the action set is aligned (58-65) before the flags are set (73-74);
    x is assigned and the check is made last (85-89).  Returns the action set as it is left behind. *)
Definition builder_create_flags (E : env) (i : installed) (A : action_set) (a : cargs) (ct : cost_type)
    (x : option (list Qc)) (s : option pyval) (print check : option pyval) : action_set * res (builder * (bool * bool)) :=
  match pick_solver i s with
  | Err e => (A, Err e)
  | Ok k =>
    match mk_builder E k A a ct None with
    | Err e => (A, Err e)
    | Ok b0 =>
      (bd_A b0,
       let! p := set_flag (given print) in
       let! c := set_flag (given check) in
       let! b := match x with None => Ok b0 | Some x' => let '(b', r) := set_x E b0 x' in let! _ := r in Ok b' end in
       let! _ := if c then builder_check_rep b else Ok tt in
       Ok (b, (p, c)))
    end
  end.

(** auditor.py:22-50: the flag is stored as it is (50); the builder is created with its default flags (45-48). *)
Definition auditor_create_flag (E : env) (i : installed) (A : action_set) (a : cargs) (s : option pyval)
    (print : option pyval) : action_set * res (builder * pyval) :=
  match (let! (w, t) := parse_classifier_args a in
         let! A1 := set_alignment A {| k_clf := None; k_classifier := None; k_coefs := None; k_intercept := None;
                                       a_pos := [AVec (map Fin w)] |} in Ok (A1, (w, t))) with
  | Err e => (A, Err e)
  | Ok (A1, (w, t)) =>
      let '(A2, r) := builder_create_flags E i A1 (coef_args w t) CMax None s None None in
      (A2, let! (b, _) := r in Ok (b, given print))
  end.
