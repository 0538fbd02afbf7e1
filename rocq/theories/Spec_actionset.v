(** Specification vocabulary for action sets, selections, alignment, the constraint registry and
    classifier arguments. *)
From Verif Require Export Spec_element.

(** ** Well-formed tables and action sets *)
Definition valid_names (names : list string) : Prop := names <> [] /\ ~ In "" names /\ NoDup names.
Definition valid_table (X : list (list Qc)) (names : list string) : Prop :=
  X <> [] /\ Forall (fun row => length row = length names) X.
(** Column [j] of a table: the j-th entry of every row. *)
Definition is_column (X : list (list Qc)) (j : nat) (col : list Qc) : Prop :=
  Forall2 (fun row v => nth_error row j = Some v) X col.

(** A column whose default bounds (1st to 99th percentile, rounded outwards for integers) leave room. *)
Definition has_room (col : list Qc) : Prop :=
  exists l u b c, is_percentile col (qz 1) l /\ is_percentile col (qz 99) u /\
                  rounded_down col l b /\ rounded_up col u c /\ b < c.

(** ** Registry *)
(** A well-formed subset-limit constraint over feature names [names], filed under [id]. *)
Definition wf_constraint (names : list string) (id : string) (c : slc) : Prop :=
  c_id c = id /\ id <> "" /\ (2 <= length (c_names c))%nat /\ NoDup (c_names c) /\
  Forall2 (fun n j => nth_error names j = Some n) (c_names c) (c_indices c) /\
  StronglySorted lt (c_indices c) /\
  (0 <= c_lb c <= c_ub c)%Z /\ (c_ub c <= Z.of_nat (length names))%Z.
(** The constraint stored under an id. *)
Definition stored (r : registry) (id : string) (c : slc) : Prop := dget id (r_cons r) = Some c.
Definition same_constraints (r r' : registry) : Prop := forall id c, stored r id c <-> stored r' id c.

Inductive reg_op := RAdd (names : list string) (lb ub : Qc) (id : option string) | RRemove (id : string).
(** A failing call raises and leaves the registry as it was. *)
Definition reg_step (r : registry) (o : reg_op) : registry :=
  match o with
  | RAdd ns lb ub id => match add_subset_limit r ns lb ub id with Ok (r', _) => r' | Err _ => r end
  | RRemove id => match registry_remove r id with Ok r' => r' | Err _ => r end
  end.
Definition reg_run (r : registry) (ops : list reg_op) : registry := fold_left reg_step ops r.
(** Ids given by the caller that are not decimal numerals (the form of the automatic ids). *)
Definition no_numeral_id (o : reg_op) : Prop :=
  match o with RAdd _ _ _ (Some id) => forall n, id <> string_of_nat n | _ => True end.

(** ** Histories of an action set *)
Inductive aset_op :=
| OSetAttr (attr : string) (v : pyval)                 (* A.attr = v *)
| OIndexSet (i : index) (attr : string) (v : pyval)    (* A[i].attr = v *)
| OUpdateGrid (j : nat) | OQuery (j : nat)             (* A[j].update_grid(), percentile queries on A[j] *)
| OReplace (name : string) (values : list Qc) (bounds vt actionable step_type step_dir step_size : pyval) (ops : list elem_op)
                                                       (* A[name] = e for an element e of that name, made and edited in any way *)
| ODesire (y : Z) | OAlign (a : cargs)
| OAdd (names : list string) (lb ub : Qc) (id : option string) | ORemove (id : string).
Definition on_elem (j : nat) (f : element -> element) (A : action_set) : action_set :=
  match nth_error (as_elems A) j with Some e => with_elems A (list_set j (f e) (as_elems A)) | None => A end.
Definition aset_step (E : env) (A : action_set) (o : aset_op) : action_set :=
  match o with
  | OSetAttr n v => fst (set_setattr A n v)
  | OIndexSet i n v => fst (index_setattr A i n v)
  | OUpdateGrid j => on_elem j (fun e => elem_step E e EUpdateGrid) A
  | OQuery j => on_elem j (fun e => elem_step E e EQuery) A
  | OReplace n vs bs vt ac st sd ss ops =>
      match mk_element n vs bs vt ac st sd ss with
      | Ok e0 => match setitem A n (elem_run E e0 ops) with Ok A' => A' | Err _ => A end
      | Err _ => A
      end
  | ODesire y => match set_y_desired A y with Ok A' => A' | Err _ => A end
  | OAlign a => match set_alignment A a with Ok A' => A' | Err _ => A end
  | OAdd ns lb ub id => match add_constraint A "subset_limit" ns lb ub id with Ok (A', _) => A' | Err _ => A end
  | ORemove id => match remove_constraint A id with Ok A' => A' | Err _ => A end
  end.
Definition aset_run (E : env) (A : action_set) (ops : list aset_op) : action_set := fold_left (aset_step E) ops A.
Definition aset_created (A : action_set) : Prop :=
  exists X names y custom dflt dst, mk_action_set X names y custom dflt dst = Ok A.
Definition aset_reachable (E : env) (A : action_set) : Prop :=
  exists A0 ops, aset_created A0 /\ A = aset_run E A0 ops.

(** ** Assignment *)
(** The value that position [k] of a selection of [m] features receives when [v] is assigned. *)
Definition value_for (v : pyval) (m k : nat) (w : pyval) : Prop :=
  match v with
  | PList l => (length l = m /\ nth_error l k = Some w) \/ (length l <> m /\ length l = 1%nat /\ w = v)
  | PArr l => (length l = m /\ exists f, nth_error l k = Some f /\ w = PFloat f) \/
              (length l <> m /\ exists f, l = [f] /\ w = PFloat f)
  | _ => w = v
  end.
(** [e'] differs from [e] at most in the setting(s) named by attribute [n]. *)
Definition same_except (n : string) (e e' : element) : Prop :=
  e_name e' = e_name e /\ e_values e' = e_values e /\ e_grid e' = e_grid e /\ e_gint e' = e_gint e /\ e_interp e' = e_interp e /\
  (n <> "actionable" -> e_actionable e' = e_actionable e) /\
  (n <> "variable_type" -> e_vtype e' = e_vtype e) /\
  (~ In n ["bounds"; "lb"; "ub"] -> e_bounds e' = e_bounds e) /\
  (n <> "flip_direction" -> e_flip e' = e_flip e) /\
  (n <> "step_type" -> e_step_type e' = e_step_type e) /\
  (n <> "step_direction" -> e_step_dir e' = e_step_dir e) /\
  (n <> "step_size" -> e_step_size e' = e_step_size e) /\
  (elem_hasattr n = true -> e_extra e' = e_extra e).
Definition positions_mask (m : list bool) (p : nat) : Prop := nth_error m p = Some true.

(** ** Alignment *)
(** Every feature's flip direction is sign(w_j) towards +1 and -sign(w_j) towards -1. *)
Definition flips_match (A : action_set) (w : list Qc) : Prop :=
  length w = length (as_elems A) /\
  forall j e c, nth_error (as_elems A) j = Some e -> nth_error w j = Some c ->
    e_flip e = Some (if (as_y A =? 1)%Z then qsign c else (- qsign c)%Z).
Inductive align_op := AlignTo (a : cargs) | Desire (y : Z).
(** The action set together with the coefficients of the last successful alignment. *)
Definition align_step (s : action_set * option (list Qc)) (o : align_op) : action_set * option (list Qc) :=
  match o with
  | AlignTo a => match set_alignment (fst s) a, parse_classifier_args a with
                 | Ok A', Ok (w, _) => (A', Some w) | _, _ => s end
  | Desire y => match set_y_desired (fst s) y with Ok A' => (A', snd s) | Err _ => s end
  end.
Definition align_run s ops := fold_left align_step ops s.
Definition desire_pm1 (o : align_op) : Prop := match o with Desire y => y = 1%Z \/ y = (-1)%Z | _ => True end.

(** ** Classifier arguments *)
Definition is_finite (f : fl) (q : Qc) : Prop := f = Fin q.
(** A value usable as a coefficient vector / as a single number. *)
Definition vector_of (a : clarg) (l : list fl) : Prop := a = AVec l \/ exists f, a = ANum f /\ l = [f].
Definition number_of (a : clarg) (f : fl) : Prop := a = ANum f \/ a = AVec [f].
(** Binary linear classifier with coefficients [w] and intercept [t]. *)
Definition linear_clf (a : clarg) (w t : list fl) : Prop :=
  exists c, a = AClf c /\ clf_classes c = Some 2%nat /\ clf_coef c = Some w /\ clf_intercept c = Some t.
(** The coefficient vector and intercept described by the arguments (before the finiteness check). *)
Inductive describes : cargs -> list fl -> fl -> Prop :=
| by_clf : forall a c w t, k_clf a = Some c -> linear_clf c w [t] -> describes a w t
| by_classifier : forall a c w t, k_clf a = None -> k_classifier a = Some c -> linear_clf c w [t] -> describes a w t
| by_coefs0 : forall a v w, k_clf a = None -> k_classifier a = None -> k_coefs a = Some v -> k_intercept a = None ->
    vector_of v w -> describes a w (Fin 0)
| by_coefs : forall a v s w t, k_clf a = None -> k_classifier a = None -> k_coefs a = Some v -> k_intercept a = Some s ->
    vector_of v w -> number_of s t -> describes a w t
| by_pos_clf : forall a c w t, k_clf a = None -> k_classifier a = None -> k_coefs a = None -> a_pos a = [c] ->
    linear_clf c w [t] -> describes a w t
| by_pos_vec : forall a w, k_clf a = None -> k_classifier a = None -> k_coefs a = None -> a_pos a = [AVec w] ->
    describes a w (Fin 0)
| by_pos2 : forall a v s w t, k_clf a = None -> k_classifier a = None -> k_coefs a = None -> a_pos a = [v; s] ->
    vector_of v w -> number_of s t -> describes a w t.
