(** Specification vocabulary for single features and action sets: what the properties in
    properties.jsonl talk about, written without the model's helper functions wherever possible.
    The only model definitions used are the API entry points and the stored fields. *)
From Verif Require Export Proofs_num Model_actionset.

(** ** Columns *)
Definition is_int (v : Qc) : Prop := exists z : Z, v = qz z.
Definition is_bit (v : Qc) : Prop := v = 0 \/ v = 1.
(** The values of an integer (not 0/1) feature. *)
Definition int_column (values : list Qc) : Prop := Forall is_int values /\ ~ Forall is_bit values.
Definition bool_column (values : list Qc) : Prop := Forall is_bit values.
Definition is_minimum (values : list Qc) (m : Qc) : Prop := In m values /\ forall v, In v values -> m <= v.
Definition is_maximum (values : list Qc) (m : Qc) : Prop := In m values /\ forall v, In v values -> v <= m.

(** [p] is the [q]-th percentile of [values] by linear interpolation between order statistics: the
    point at position q/100*(n-1) (counted from 0) of the sorted values. *)
Definition is_percentile (values : list Qc) (q p : Qc) : Prop :=
  exists s (i : nat) (f lo : Qc),
    Permutation s values /\ StronglySorted Qcle s /\ 0 <= f /\ f < 1 /\
    q / qz 100 * (qz (Z.of_nat (length s)) - 1) = qz (Z.of_nat i) + f /\
    nth_error s i = Some lo /\
    ((f = 0 /\ p = lo) \/ (exists hi, nth_error s (S i) = Some hi /\ p = lo + f * (hi - lo))).

(** Python numbers accepted by the bound setters, with their value. *)
Definition py_number (v : pyval) (q : Qc) : Prop :=
  match v with
  | PBool b => q = if b then 1 else 0
  | PInt z => q = qz z
  | PFloat (Fin r) => q = r
  | PArr [Fin r] => q = r
  | _ => False
  end.

(** The interval a caller asks for with bounds (lb, ub, type): numbers, or None for the observed
    minimum/maximum, or percentiles of the observed values. *)
Definition requests (values : list Qc) (lb ub : pyval) (t : btype) (l u : Qc) : Prop :=
  match t with
  | Absolute => (py_number lb l \/ (lb = PNone /\ is_minimum values l)) /\
                (py_number ub u \/ (ub = PNone /\ is_maximum values u))
  | Percentile => exists ql qu, py_number lb ql /\ py_number ub qu /\
                    0 <= ql /\ ql <= qz 100 /\ 0 <= qu /\ qu <= qz 100 /\
                    is_percentile values ql l /\ is_percentile values qu u
  end.

(** [b] is [v] rounded down (up) to an integer for integer features, [v] itself otherwise. *)
Definition rounded_down (values : list Qc) (v b : Qc) : Prop :=
  (int_column values -> is_int b /\ b <= v /\ v < b + 1) /\ (~ int_column values -> b = v).
Definition rounded_up (values : list Qc) (v b : Qc) : Prop :=
  (int_column values -> is_int b /\ v <= b /\ b - 1 < v) /\ (~ int_column values -> b = v).

(** ** Histories of one feature *)
(** Operations a user can perform on one element: assign a public attribute, recompute the grid
    (update_grid), query percentiles (which fills the interpolator cache). *)
Inductive elem_op := ESet (attr : string) (v : pyval) | EUpdateGrid | EQuery.
(** A failing operation raises and leaves the element unchanged. *)
Definition elem_step (E : env) (e : element) (o : elem_op) : element :=
  match o with
  | ESet n v => match elem_setattr n v e with Ok e' => e' | Err _ => e end
  | EUpdateGrid => match update_grid e with Ok e' => e' | Err _ => e end
  | EQuery => touch_interp E e
  end.
Definition elem_run (E : env) (e : element) (ops : list elem_op) : element := fold_left (elem_step E) ops e.
Definition elem_created (e : element) : Prop :=
  exists name values bounds vt act st sd ss, mk_element name values bounds vt act st sd ss = Ok e.
Definition elem_reachable (E : env) (e : element) : Prop :=
  exists e0 ops, elem_created e0 /\ e = elem_run E e0 ops.

(** ** Grids *)
Definition grid_from (e : element) (b : Qc) : Prop :=
  match e_vtype e with TInt => is_int b /\ b <= e_lb e /\ e_lb e < b + 1 | _ => b = e_lb e end.
Definition grid_to (e : element) (b : Qc) : Prop :=
  match e_vtype e with TInt => is_int b /\ e_ub e <= b /\ b - 1 < e_ub e | _ => b = e_ub e end.
(** Requested step: a fraction of the range, or an absolute amount; rounded up for integers. *)
Definition grid_step_is (e : element) (lo hi s : Qc) : Prop :=
  let raw := match e_step_type e with Relative => e_step_size e * (hi - lo) | AbsoluteStep => e_step_size e end in
  match e_vtype e with TInt => is_int s /\ raw <= s /\ s - 1 < raw | _ => s = raw end.

(** [g] is the action grid determined by the element's current bounds and step settings. *)
Definition is_grid_of (e : element) (g : list Qc) : Prop :=
  exists lo hi s last,
    grid_from e lo /\ grid_to e hi /\ grid_step_is e lo hi s /\ 0 < s /\
    nth_error g 0 = Some lo /\
    (forall i v, nth_error g i = Some v -> v = lo + qz (Z.of_nat i) * s) /\
    nth_error g (pred (length g)) = Some last /\ hi <= last /\ last < hi + s.

(** ** Permitted values *)
(** The values feature [e] may take for someone whose current value is [x]. *)
Definition permitted (e : element) (x v : Qc) : Prop :=
  v = x \/
  (e_actionable e = true /\ In v (e_grid e) /\
   ((0 < e_step_dir e)%Z -> x <= v) /\ ((e_step_dir e < 0)%Z -> v <= x)).
(** Not against the direction that improves the score. *)
Definition improving (e : element) (x v : Qc) : Prop :=
  match e_flip e with
  | Some fd => ((0 < fd)%Z -> x <= v) /\ ((fd < 0)%Z -> v <= x)
  | None => True
  end.
(** Current values that the grid's type can represent (any value, unless the grid is an int array). *)
Definition representable (e : element) (x : Qc) : Prop := e_gint e = true -> is_int x.

(** ** Percentile scale *)
(** Cumulative density over the grid, rescaled with the two buffers so that it stays inside (0,1). *)
Definition cdf_of (pdf : Qc -> Qc) (g : list Qc) : list Qc :=
  let raw := np_cumsum (map pdf g) in
  map (fun r => (buffer + r) / (last raw 0 + buffer + buffer)) raw.

(** [x] lies in the range of the grid. *)
Definition within (g : list Qc) (x : Qc) : Prop := exists lo hi, In lo g /\ In hi g /\ lo <= x /\ x <= hi.
(** Percentile queries on [e] are currently answered from grid [g]. *)
Definition percentile_grid (e : element) (g : list Qc) : Prop :=
  match e_interp e with Some (g', _) => g = g' | None => g = e_grid e end.

(** The operation does not assign step_type = 'relative'. *)
Definition never_relative (o : elem_op) : Prop :=
  match o with ESet n (PStr s) => n <> "step_type" \/ s <> "relative" | _ => True end.

(** ** Test harness for concrete witnesses *)
Definition ok_and {A} (r : res A) (t : A -> bool) : bool := match r with Ok a => t a | Err _ => false end.
Lemma ok_and_true {A} (r : res A) t : ok_and r t = true -> exists a, r = Ok a /\ t a = true.
Proof. destruct r as [a|]; [|discriminate]. cbn. eauto. Qed.
(** A concrete environment: uniform density, a strictly increasing stand-in for log with log 1 = 0,
    sets iterated in insertion order. *)
Definition env0 : env := {| kde := fun _ => Some (fun _ => 1); nplog := fun q => q - 1; set_order := fun l => l |}.
Definition num (n : Z) : pyval := PInt n.
Fixpoint forallb2 {A B} (f : A -> B -> bool) (l : list A) (m : list B) : bool :=
  match l, m with [], [] => true | a :: l', b :: m' => f a b && forallb2 f l' m' | _, _ => false end.
