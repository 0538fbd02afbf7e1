(** Model of recourse/flipset.py: the class Flipset.  pandas sorting is an oracle (see [sorter]); numbers are
    exact rationals, costs may be infinite or NaN.  to_latex / to_html rendering is modelled only up to the
    table they render. *)
From Verif Require Export Model_builder.
#[local] Open Scope list_scope.
#[local] Open Scope Qc_scope.

(** ** Items and rows *)
(** An item dict (355-368): the required fields; [None] is a missing key. Other keys are ignored. *)
Record item := { it_feasible : option bool; it_actions : option (list fl); it_cost : option fl }.
(** A validated item: 'actions' replaced by the flattened float array (365, 377). *)
Record fitem := { fi_actions : list Qc; fi_cost : fl }.
(** One row of the table (18-27, 392-415); 'feasible' is always True for validated items (367). *)
Record frow := { r_cost : fl; r_size : nat; r_features : list string; r_idx : list nat; r_x : list Qc; r_xnew : list Qc;
                 r_score : Qc; r_yhat : Z; r_feasible : bool; r_flipped : bool }.
(** The columns of the table (18-27). *)
Inductive column := KCost | KSize | KFeatures | KIdx | KX | KXnew | KScore | KYhat | KFeasible | KFlipped.
(** Columns whose entries are lists or arrays. *)
Definition list_column (c : column) : bool := match c with KFeatures | KIdx | KX | KXnew => true | _ => false end.
(** Numeric reading of a scalar entry. *)
Definition fl_bool (b : bool) : fl := Fin (if b then 1 else 0).
Definition key (c : column) (r : frow) : fl :=
  match c with
  | KCost => r_cost r | KSize => Fin (qz (Z.of_nat (r_size r))) | KScore => Fin (r_score r) | KYhat => Fin (qz (r_yhat r))
  | KFeasible => fl_bool (r_feasible r) | KFlipped => fl_bool (r_flipped r) | _ => NaN
  end.
(** Ascending order of floats; NaN last. *)
Definition fl_lt (a b : fl) : bool :=
  match a, b with
  | NaN, _ => false | _, NaN => true
  | Fin p, Fin q => p <? q
  | NegInf, NegInf => false | NegInf, _ => true | _, NegInf => false
  | PosInf, _ => false | _, PosInf => true
  end.
(** Lexicographic comparison by a list of columns. *)
Fixpoint table_le (ks : list column) (r r' : frow) : bool :=
  match ks with
  | [] => true
  | k :: ks' => fl_lt (key k r) (key k r') || (negb (fl_lt (key k r') (key k r)) && table_le ks' r r')
  end.

(** A table: rows with their index labels. *)
Definition table := list (nat * frow).
(** DataFrame.sort_values(by = ks): result or exception. Ties are resolved by pandas. *)
Definition sorter := list column -> table -> res table.

(** ** The object (30-50) *)
Record flipset := {
  f_A : action_set; f_n : nat; f_names : list string; f_kind : backend; f_x : list Qc; f_w : list Qc; f_t : Qc;
  f_builder : option builder; f_items : list fitem; f_df : table; f_by : list column; f_inplace : bool }.
Definition f_with_builder f b := {| f_A := f_A f; f_n := f_n f; f_names := f_names f; f_kind := f_kind f; f_x := f_x f; f_w := f_w f; f_t := f_t f; f_builder := b; f_items := f_items f; f_df := f_df f; f_by := f_by f; f_inplace := f_inplace f |}.
Definition f_with_items f l d := {| f_A := f_A f; f_n := f_n f; f_names := f_names f; f_kind := f_kind f; f_x := f_x f; f_w := f_w f; f_t := f_t f; f_builder := f_builder f; f_items := l; f_df := d; f_by := f_by f; f_inplace := f_inplace f |}.
Definition f_with_sort f by_ inplace := {| f_A := f_A f; f_n := f_n f; f_names := f_names f; f_kind := f_kind f; f_x := f_x f; f_w := f_w f; f_t := f_t f; f_builder := f_builder f; f_items := f_items f; f_df := f_df f; f_by := by_; f_inplace := inplace |}.
(** 30-50 __init__. x is any list or 1-d array of finite numbers; neither its length nor the number of
    coefficients is checked. *)
Definition mk_flipset (k : backend) (A : action_set) (x : list Qc) (a : cargs) (b : option builder) : res flipset :=
  let! (w, t) := parse_classifier_args a in
  Ok {| f_A := A; f_n := as_len A; f_names := as_names A; f_kind := k; f_x := x; f_w := w; f_t := t; f_builder := b;
        f_items := []; f_df := []; f_by := [KSize; KCost; KScore]; f_inplace := true |}.

(** ** Scores (123-136) *)
(** np.dot of two vectors: ValueError if the lengths differ. *)
Definition np_dot (w x : list Qc) : res Qc := if Nat.eqb (length w) (length x) then Ok (dot w x) else Err ValueError.
(** x + a with numpy broadcasting. *)
Definition np_add (x a : list Qc) : res (list Qc) :=
  if Nat.eqb (length x) (length a) then Ok (vadd x a)
  else match x, a with
       | _, [c] => Ok (map (fun v => v + c) x)
       | [c], _ => Ok (map (fun v => c + v) a)
       | _, _ => Err ValueError
       end.
(** 123-125: yhat is the raw score, not its sign. *)
Definition f_yhat (f : flipset) : res Qc := let! s := np_dot (f_w f) (f_x f) in Ok (f_t f + s).
(** 132-136 score(actions) *)
Definition f_score (f : flipset) (a : list Qc) : res Qc :=
  let! x' := np_add (f_x f) a in let! s := np_dot (f_w f) x' in Ok (f_t f + s).
(** 128-129 predict(actions) *)
Definition f_predict (f : flipset) (a : list Qc) : res Z := let! s := f_score f a in Ok (qsign s).

(** ** Adding items (342-389) *)
(** 371-382 _validate_action.  The message of the first assertion reads self.n_variables, which does not
    exist, so a vector of the wrong length gives an AttributeError. *)
Definition validate_action (f : flipset) (a : list fl) : res (list Qc) :=
  let! _ := if Nat.eqb (length a) (f_n f) then Ok tt else Err AttributeError in
  let! q := finite_all a in
  let! _ := passert (Nat.leb 1 (length (filter (fun v => negb (v =? 0)) q))) in
  let! y := f_yhat f in
  let! h := f_predict f q in
  let! _ := passert (negb (y =? qz h)) in
  Ok q.
(** 355-368 _validate_item *)
Definition validate_item (f : flipset) (i : item) : res fitem :=
  match it_feasible i, it_actions i, it_cost i with
  | Some fe, Some a, Some c =>
      let! q := validate_action f a in
      let! _ := passert (match c with Fin p => 0 <? p | PosInf => true | _ => false end) in
      let! _ := passert fe in
      Ok {| fi_actions := q; fi_cost := c |}
  | _, _, _ => Err AssertionError
  end.
(** 392-415 _item_to_df_row *)
Definition flatnonzero (a : list Qc) : list nat :=
  map fst (filter (fun p => negb (snd p =? 0)) (combine (seq 0 (length a)) a)).
Definition item_row (f : flipset) (i : fitem) : res frow :=
  let a := fi_actions i in
  let! h := f_predict f a in
  let nnz := flatnonzero a in
  let! names := mapM (fun j => of_option IndexError (nth_error (f_names f) j)) nnz in
  let! xs := mapM (fun j => of_option IndexError (nth_error (f_x f) j)) nnz in
  let! vs := mapM (fun j => of_option IndexError (nth_error a j)) nnz in
  let! s := f_score f a in
  let! y := f_yhat f in
  Ok {| r_cost := fi_cost i; r_size := length nnz; r_features := names; r_idx := nnz; r_x := xs; r_xnew := vadd xs vs;
        r_score := s; r_yhat := h; r_feasible := true; r_flipped := negb (qz h =? y) |}.

(** append(ignore_index = True): index labels restart at 0. *)
Definition relabel (rows : list frow) : table := combine (seq 0 (length rows)) rows.
(** 188-190 sort() with the saved arguments. *)
Definition f_resort (srt : sorter) (f : flipset) : flipset * res unit :=
  match srt (f_by f) (f_df f) with
  | Err e => (f, Err e)
  | Ok d => (if f_inplace f then f_with_items f (f_items f) d else f, Ok tt)
  end.
(** 385-389 _add_to_df *)
Definition add_to_df (srt : sorter) (f : flipset) (l : list fitem) : flipset * res unit :=
  match l with
  | [] => (f, Ok tt)
  | _ => match mapM (item_row f) l with
         | Err e => (f, Err e)
         | Ok rows => f_resort srt (f_with_items f (f_items f) (relabel (map snd (f_df f) ++ rows)))
         end
  end.
(** 342-352 _add: all items are validated before anything is stored. *)
Definition f_add (srt : sorter) (f : flipset) (items : list item) : flipset * res unit :=
  match mapM (validate_item f) items with
  | Err e => (f, Err e)
  | Ok l => add_to_df srt (f_with_items f (f_items f ++ l) (f_df f)) l
  end.

(** ** sort (181-209) *)
(** Sort names: a column, or a string that is not one. [by_kw]: given as by = [...] (then inplace and axis may
    be given too) or as keyword names. [axis0]: axis = 0; sorting along the other axis looks the names up in
    the index and raises KeyError. *)
Inductive sort_request := SortSaved | SortBy (names : list (option column)) (inplace axis0 : bool) | SortNames (names : list (option column)).
Fixpoint all_some {A} (l : list (option A)) : option (list A) :=
  match l with [] => Some [] | None :: _ => None | Some a :: r => option_map (cons a) (all_some r) end.
Definition f_sort (srt : sorter) (f : flipset) (q : sort_request) : flipset * res unit :=
  let go names inplace axis0 :=
    match all_some names with
    | None | Some [] => (f, Err AssertionError)
    | Some ks =>
        if axis0 : bool then
          match srt ks (f_df f) with
          | Err e => (f, Err e)
          | Ok d => (f_with_sort (if inplace : bool then f_with_items f (f_items f) d else f) ks inplace, Ok tt)
          end
        else (f, Err KeyError)
    end in
  match q with
  | SortSaved => f_resort srt f
  | SortBy names inplace axis0 => go names inplace axis0
  | SortNames [] => f_resort srt f
  | SortNames names => go names true true
  end.

(** ** populate (141-178) *)
(** builder.solution_info as an item dict: only feasible solutions are returned by builder.populate. *)
Definition sol_item (s : sol) : item :=
  {| it_feasible := Some true; it_actions := Some (map Fin (s_actions s)); it_cost := Some (Fin (s_cost s)) |}.
(** A builder kept from an earlier call (or supplied by the user) is reused as it is: cost_type is then not
    looked at. If creating the builder raises, nothing is kept (the action set may have been aligned; the next
    attempt would align it in the same way, so this is not recorded). None: the solver loop has not ended. *)
Definition f_populate (E : env) (sv : solver) (srt : sorter) (fuel : nat) (total : option nat) (et : enum_type) (ct : cost_type)
    (f : flipset) : option (flipset * res unit) :=
  match match f_builder f with
        | Some b => Ok b
        | None => mk_builder E (f_kind f) (f_A f) (coef_args (f_w f) (f_t f)) ct (Some (f_x f))
        end with
  | Err e => Some (f, Err e)
  | Ok b =>
      match populate sv fuel total et b with
      | None => None
      | Some (Err e) => Some (f_with_builder f (Some b), Err e)
      | Some (Ok (b', l)) => Some (f_add srt (f_with_builder f (Some b')) (map sol_item l))
      end
  end.

(** ** to_flat_df (220-254) *)
(** One line: item label, feature, current value, required value. *)
Record flat_line := { fl_item : nat; fl_feature : string; fl_from : Qc; fl_to : Qc }.
(** set_index('item_id')[n].apply(pd.Series).stack(): one entry (item, position, value) per list entry. *)
Definition explode {A} (get : frow -> list A) (d : table) : list (nat * nat * A) :=
  flat_map (fun p => map (fun q => (fst p, fst q, snd q)) (combine (seq 0 (length (get (snd p)))) (get (snd p)))) d.
(** merge on (item_id, var_id) *)
Definition merge {A B} (l : list (nat * nat * A)) (r : list (nat * nat * B)) : list (nat * nat * (A * B)) :=
  flat_map (fun a => flat_map (fun b => if Nat.eqb (fst (fst a)) (fst (fst b)) && Nat.eqb (snd (fst a)) (snd (fst b))
                                        then [(fst a, (snd a, snd b))] else []) r) l.
Definition flat_lines (d : table) : list flat_line :=
  map (fun p => {| fl_item := fst (fst p); fl_feature := fst (fst (snd p)); fl_from := snd (fst (snd p)); fl_to := snd (snd p) |})
      (merge (merge (explode r_features d) (explode r_x d)) (explode r_xnew d)).
(** sort_values(by = 'item_id'): ties are resolved by pandas. [order] is that sort. The result None is the
    empty Python list returned for an empty flipset (225-226). *)
Definition to_flat_df (srt : sorter) (order : list flat_line -> list flat_line) (f : flipset) : flipset * res (option (list flat_line)) :=
  let '(f', r) := f_resort srt f in
  match r with
  | Err e => (f', Err e)
  | Ok _ => (f', Ok match f_df f' with [] => None | _ => Some (order (flat_lines (f_df f'))) end)
  end.
