(** Specification vocabulary for flipsets. *)
From Verif Require Export Spec_recourse Model_flipset.
#[local] Open Scope list_scope.
#[local] Open Scope Qc_scope.

(** ** Assumptions on pandas *)
(** sort_values by scalar columns returns the rows in ascending order; by two or more columns with a list-valued
    one among them it raises TypeError unless the table is empty; whatever it returns is a rearrangement. *)
Definition ascending (ks : list column) (d : table) : Prop := StronglySorted (fun p q => table_le ks (snd p) (snd q) = true) d.
Definition scalar_keys (ks : list column) : Prop := existsb list_column ks = false.
Definition ok_sorter (srt : sorter) : Prop :=
  (forall ks d, scalar_keys ks -> exists d', srt ks d = Ok d' /\ ascending ks d') /\
  (forall ks d d', srt ks d = Ok d' -> Permutation d' d) /\
  (forall ks d, ~ scalar_keys ks -> (2 <= length ks)%nat -> d <> [] -> srt ks d = Err TypeError) /\
  (forall ks, srt ks [] = Ok []).
(** sort_values(by = 'item_id') *)
Definition ok_order (order : list flat_line -> list flat_line) : Prop :=
  forall l, Permutation (order l) l /\ StronglySorted (fun a b => (fl_item a <= fl_item b)%nat) (order l).

(** ** Histories *)
Inductive flipset_op :=
| FPopulate (fuel : nat) (total : option nat) (et : enum_type) (ct : cost_type)
| FSort (q : sort_request) | FAdd (items : list item) | FFlat.
Definition flipset_step (E : env) (sv : solver) (srt : sorter) (f : flipset) (o : flipset_op) : flipset :=
  match o with
  | FPopulate fuel total et ct => match f_populate E sv srt fuel total et ct f with Some (f', _) => f' | None => f end
  | FSort q => fst (f_sort srt f q)
  | FAdd items => fst (f_add srt f items)
  | FFlat => fst (to_flat_df srt (fun l => l) f)
  end.
Definition flipset_run E sv srt f ops := fold_left (flipset_step E sv srt) ops f.

(** The sort keys a request asks for, if it is well formed. *)
Definition requested (o : flipset_op) : option (list column) :=
  match o with
  | FSort (SortBy names _ true) | FSort (SortNames names) =>
      match all_some names with Some (k :: ks) => Some (k :: ks) | _ => None end
  | _ => None
  end.
(** The keys last chosen. *)
Definition chosen_keys (ops : list flipset_op) : list column :=
  fold_left (fun ks o => match requested o with Some ks' => ks' | None => ks end) ops [KSize; KCost; KScore].
(** Sorting is in place and by scalar columns. *)
Definition plain_sort (o : flipset_op) : Prop :=
  (forall ks, requested o = Some ks -> scalar_keys ks) /\ (forall names axis, o <> FSort (SortBy names false axis)).

(** ** What rows and lines should say *)
(** The prediction: sign of the score. *)
Definition prediction (w : list Qc) (t : Qc) (x : list Qc) : Z := qsign (score w t x).
Definition flips (w : list Qc) (t : Qc) (x a : list Qc) : Prop := prediction w t x <> prediction w t (vadd x a).
Definition describes (w : list Qc) (t : Qc) (x : list Qc) (names : list string) (i : fitem) (r : frow) : Prop :=
  let a := fi_actions i in
  r_cost r = fi_cost i /\ r_size r = n_changed a /\ r_feasible r = true /\
  StronglySorted lt (r_idx r) /\ (forall j, In j (r_idx r) <-> changes a j) /\
  Forall2 (fun j n => nth_error names j = Some n) (r_idx r) (r_features r) /\
  Forall2 (fun j v => nth_error x j = Some v) (r_idx r) (r_x r) /\
  Forall2 (fun j v => exists xj aj, nth_error x j = Some xj /\ nth_error a j = Some aj /\ v = xj + aj) (r_idx r) (r_xnew r) /\
  r_score r = score w t (vadd x a) /\ r_yhat r = prediction w t (vadd x a).
(** The changes of an action, as lines of the flat table. *)
Definition change_lines (names : list string) (x : list Qc) (label : nat) (a : list Qc) : list flat_line :=
  flat_map (fun j => if nth j a 0 =? 0 then []
                     else [{| fl_item := label; fl_feature := nth j names ""%string; fl_from := nth j x 0; fl_to := nth j x 0 + nth j a 0 |}])
           (seq 0 (length a)).
(** A well-formed item dict with action [a] and cost [c] (apart from flipping the prediction). *)
Definition wf_item (n : nat) (i : item) (a : list Qc) (c : fl) : Prop :=
  it_feasible i = Some true /\ it_actions i = Some (map Fin a) /\ it_cost i = Some c /\
  length a = n /\ (exists j, changes a j) /\ (c = PosInf \/ exists q, c = Fin q /\ 0 < q).
(** What the code accepts: a well-formed item for which the score at [x] (not its sign) differs from the
    prediction at x + a.  See C44. *)
Definition filable (A : action_set) (x w : list Qc) (t : Qc) (i : item) (v : fitem) : Prop :=
  wf_item (as_len A) i (fi_actions v) (fi_cost v) /\ score w t x <> qz (prediction w t (vadd x (fi_actions v))).
(** A flipset created for individual [x], action set [A] and classifier (w, t), with some history. *)
Definition flipset_created (k : backend) (A : action_set) (x w : list Qc) (t : Qc) (ob : option builder) (f : flipset) : Prop :=
  exists args, parse_classifier_args args = Ok (w, t) /\ mk_flipset k A x args ob = Ok f.
Definition flipset_reachable E sv srt k A x w t ob (f : flipset) : Prop :=
  exists f0 ops, flipset_created k A x w t ob f0 /\ f = flipset_run E sv srt f0 ops.
(** populate calls among [o] use cost type [ct]. *)
Definition uses_cost (ct : cost_type) (o : flipset_op) : Prop := match o with FPopulate _ _ _ ct' => ct' = ct | _ => True end.
(** Filing a solution returned by the builder. *)
Definition filed (s : sol) : fitem := {| fi_actions := s_actions s; fi_cost := Fin (s_cost s) |}.
