(** Specification vocabulary for recourse: permitted actions, scores, costs, histories of a builder.
    The only model definitions used are API entry points and stored fields. *)
From Verif Require Export Spec_actionset Model_builder.

(** ** Assumptions on the environment *)
(** Iterating a Python set visits exactly its members. *)
Definition ok_env (E : env) : Prop := forall l, Permutation (set_order E l) l.
(** Densities are non-negative. *)
Definition density (E : env) : Prop := forall values pdf v, kde E values = Some pdf -> 0 <= pdf v.
(** What is used about the logarithm: log 1 = 0 and it increases on positive numbers. *)
Definition is_log (E : env) : Prop :=
  nplog E 1 = 0 /\ forall p q, 0 < p -> p < q -> nplog E p < nplog E q.

(** ** Individuals, actions, outcomes *)
Definition score (w : list Qc) (t : Qc) (x : list Qc) : Qc := dot w x + t.
(** The classifier's side: y = 1 means score >= 0 is wanted, otherwise score <= 0. *)
Definition on_side (y : Z) (s : Qc) : Prop := if (0 <? y)%Z then 0 <= s else s <= 0.
(** The prediction (sign of the score) is the desired outcome, strictly. *)
Definition attains (y : Z) (s : Qc) : Prop := if (0 <? y)%Z then 0 < s else s < 0.
(** The individual clearly lacks the desired outcome. *)
Definition denied (y : Z) (s : Qc) : Prop := ~ on_side y s.

(** [a] is an action vector the action set permits for individual [x]: one entry per feature, each
    feature keeps its value or moves to a permitted value. *)
Definition permitted_action (A : action_set) (x a : list Qc) : Prop :=
  length a = as_len A /\
  forall j e xj aj, nth_error (as_elems A) j = Some e -> nth_error x j = Some xj -> nth_error a j = Some aj ->
    permitted e xj (xj + aj).
(** The features an action changes. *)
Definition changes (a : list Qc) (j : nat) : Prop := exists aj, nth_error a j = Some aj /\ aj <> 0.
Definition n_changed (a : list Qc) : nat := length (filter (fun v => negb (v =? 0)) a).
(** At least [lo] (and at least one) and at most [hi] features are changed. *)
Definition size_between (lo hi : Z) (a : list Qc) : Prop :=
  (Z.max lo 1 <= Z.of_nat (n_changed a) <= hi)%Z.

(** Cost of moving a feature from [x] to [v]: the shift in percentile (or in log of the upper
    percentile mass for 'local'), counted positively in the direction of the move. *)
Definition move_cost (E : env) (ct : cost_type) (e : element) (x v c : Qc) : Prop :=
  exists p q, percentile E e x = Ok p /\ percentile E e v = Ok q /\
    c = match ct with
        | CLocal => if x <=? v then nplog E ((1 - p) / (1 - q)) else nplog E ((1 - q) / (1 - p))
        | _ => if x <=? v then q - p else p - q
        end.
(** Per-feature costs of an action vector; features that are not changed cost nothing. *)
Definition action_costs (E : env) (ct : cost_type) (A : action_set) (x a cs : list Qc) : Prop :=
  length cs = length a /\
  forall j e xj aj c, nth_error (as_elems A) j = Some e -> nth_error x j = Some xj -> nth_error a j = Some aj ->
    nth_error cs j = Some c -> (aj = 0 /\ c = 0) \/ (aj <> 0 /\ move_cost E ct e xj (xj + aj) c).
(** The overall cost: sum for 'total' and 'local', largest entry for 'max'. *)
Definition largest (cs : list Qc) (m : Qc) : Prop := In m cs /\ forall c, In c cs -> c <= m.
Definition overall_cost (ct : cost_type) (cs : list Qc) (c : Qc) : Prop :=
  match ct with CMax => largest cs c | _ => c = qsum cs end.

(** Number of features among [js] that are on (non-zero) at [v]. *)
Definition n_on (v : list Qc) (js : list nat) : nat :=
  length (filter (fun j => negb (nth j v 0 =? 0)) js).

(** ** Subset limits *)
(** Feature [j] is named in a constraint of the action set. *)
Definition constrained_at (A : action_set) (j : nat) : Prop :=
  exists id c, stored (as_cons A) id c /\ In j (c_indices c).
(** [a] takes [x] to a point that meets every constraint: among the features it names, at least the lower and at
    most the upper limit are on. *)
Definition compliant (A : action_set) (x a : list Qc) : Prop :=
  forall id c, stored (as_cons A) id c -> (c_lb c <= Z.of_nat (n_on (vadd x a) (c_indices c)) <= c_ub c)%Z.

(** ** Builders *)
Definition builder_created (E : env) (b : builder) : Prop :=
  exists k A a ct x, aset_reachable E A /\ mk_builder E k A a ct x = Ok b.

(** Operations on a builder (and on the action set it shares with its creator). *)
Inductive builder_op :=
| BSetX (x : list Qc) | BFit | BPopulate (fuel : nat) (total : option nat) (et : enum_type)
| BLimits (lo hi : option Z) | BMin (k : option Z) | BMax (k : option Z) | BAset (o : aset_op).
Definition builder_step (E : env) (sv : solver) (b : builder) (o : builder_op) : builder :=
  match o with
  | BSetX x => fst (set_x E b x)
  | BFit => match fit sv b with Ok (b', _) => b' | Err _ => b end
  | BPopulate f n et => match populate sv f n et b with Some (Ok (b', _)) => b' | _ => b end
  | BLimits lo hi => fst (set_mip_item_limits b lo hi)
  | BMin k => match set_min_items b k with Ok b' => b' | Err _ => b end
  | BMax k => match set_max_items b k with Ok b' => b' | Err _ => b end
  | BAset o => with_aset b (aset_step E (bd_A b) o)
  end.
Definition builder_run (E : env) (sv : solver) (b : builder) (ops : list builder_op) : builder :=
  fold_left (builder_step E sv) ops b.
Definition builder_reachable (E : env) (sv : solver) (b : builder) : Prop :=
  exists b0 ops, builder_created E b0 /\ b = builder_run E sv b0 ops.

(** Calls of fit and populate on one builder (between assignments of x), with everything they return. *)
Inductive session (sv : solver) : builder -> list sol -> builder -> Prop :=
| ses_done : forall b, session sv b [] b
| ses_fit : forall b b1 r l b2, fit sv b = Ok (b1, r) -> session sv b1 l b2 ->
    session sv b ((match r with Some s => [s] | None => [] end) ++ l)%list b2
| ses_populate : forall b fuel total et b1 l1 l b2, populate sv fuel total et b = Some (Ok (b1, l1)) -> session sv b1 l b2 ->
    session sv b (l1 ++ l)%list b2.
(** x is assigned successfully to a builder with an arbitrary history. *)
Definition assigned (E : env) (sv : solver) (b : builder) (x : list Qc) (b0 : builder) : Prop :=
  builder_reachable E sv b /\ set_x E b x = (b0, Ok tt).

(** ** Enumerations *)
(** Two actions change a common feature / exactly the same features. *)
Definition shares (a a' : list Qc) : Prop := exists j, changes a j /\ changes a' j.
Definition same_features (a a' : list Qc) : Prop := forall j, changes a j <-> changes a' j.
(** A returned action [a] rules out [a'] for the rest of the enumeration. *)
Definition rules_out (et : enum_type) (a a' : list Qc) : Prop :=
  match et with MutuallyExclusive => shares a a' | DistinctSubsets => same_features a a' end.
(** Calls of populate on one builder between two assignments of x (calls of fit may be interleaved), with
    everything populate returned and the enumeration type it was returned under, in order. *)
Inductive enumeration (sv : solver) : builder -> list (enum_type * sol) -> builder -> Prop :=
| en_done : forall b, enumeration sv b [] b
| en_fit : forall b b1 r l b2, fit sv b = Ok (b1, r) -> enumeration sv b1 l b2 -> enumeration sv b l b2
| en_populate : forall b fuel total et b1 l1 l b2, populate sv fuel total et b = Some (Ok (b1, l1)) ->
    enumeration sv b1 l b2 -> enumeration sv b (map (pair et) l1 ++ l)%list b2.
(** Every change of [a] moves the score strictly towards the desired outcome. *)
Definition helpful (y : Z) (w a : list Qc) : Prop :=
  forall j wj aj, nth_error w j = Some wj -> nth_error a j = Some aj -> aj <> 0 -> attains y (wj * aj).
(** ... except changes of features under constraints, which may be needed to meet them. *)
Definition worthwhile (A : action_set) (w a : list Qc) : Prop :=
  forall j wj aj, nth_error w j = Some wj -> nth_error a j = Some aj -> aj <> 0 ->
    constrained_at A j \/ attains (as_y A) (wj * aj).
(** What the builder looks for: a permitted action of admissible size whose changes all help, that reaches the
    desired side and meets the constraints. *)
Definition acceptable (b : builder) (x a : list Qc) : Prop :=
  permitted_action (bd_A b) x a /\ worthwhile (bd_A b) (bd_w b) a /\ size_between (bd_min b) (bd_max b) a /\
  on_side (as_y (bd_A b)) (score (bd_w b) (bd_t b) (vadd x a)) /\ compliant (bd_A b) x a.

(** ** Regular individuals: each offered change is resolvable and has a positive price *)
(** Percentiles increase strictly over the values permitted to [x], its current values included. *)
Definition strict_at (E : env) (e : element) (xj : Qc) : Prop :=
  forall u v, permitted e xj u -> permitted e xj v -> u < v ->
    exists p q, percentile E e u = Ok p /\ percentile E e v = Ok q /\ p < q.
Definition strict_percentiles (E : env) (A : action_set) (x : list Qc) : Prop :=
  forall j e xj, nth_error (as_elems A) j = Some e -> nth_error x j = Some xj -> strict_at E e xj.
(** Permitted changes are larger than 1e-8 and current values fit the type of the grid. *)
Definition resolvable_at (e : element) (xj : Qc) : Prop :=
  representable e xj /\ forall v, permitted e xj v -> v <> xj -> qfrac 1 100000000 < qabs (v - xj).
Definition resolvable (A : action_set) (x : list Qc) : Prop :=
  forall j e xj, nth_error (as_elems A) j = Some e -> nth_error x j = Some xj -> resolvable_at e xj.
Definition regular (E : env) (A : action_set) (x : list Qc) : Prop := strict_percentiles E A x /\ resolvable A x.
(** The logarithm is only consulted for cost type 'local'. *)
Definition log_ok (E : env) (ct : cost_type) : Prop := ct = CLocal -> is_log E.
Definition unconstrained (A : action_set) : Prop := r_cons (as_cons A) = [].

(** Percentile queries are answered from the grid currently shown to the user. *)
Definition current_percentiles (A : action_set) : Prop :=
  forall j e, nth_error (as_elems A) j = Some e -> percentile_grid e (e_grid e).
(** Current values fit the type of the grid (integers for integer grids). *)
Definition fits_grids (A : action_set) (x : list Qc) : Prop :=
  forall j e xj, nth_error (as_elems A) j = Some e -> nth_error x j = Some xj -> representable e xj.

(** An action that changes only features whose current value fits the type of their grid. *)
Definition movable_only (A : action_set) (x a : list Qc) : Prop :=
  forall j e xj aj, nth_error (as_elems A) j = Some e -> nth_error x j = Some xj -> nth_error a j = Some aj -> aj <> 0 -> representable e xj.

(** Steps in direction [d] (1 up, -1 down, 0 both) can move a score with coefficient [wj] to the desired side. *)
Definition can_help (y : Z) (wj : Qc) (d : Z) : Prop :=
  (d <> -1 /\ attains y wj)%Z \/ (d <> 1 /\ attains y (- wj))%Z.
(** Every feature up to the last constrained one can be changed (in a direction that helps, unless it is itself
    under a constraint): then constraints are applied to the features they name (see C34). *)
Definition in_line (A : action_set) (w x : list Qc) : Prop :=
  forall j i e wi xi, constrained_at A j -> (i <= j)%nat ->
    nth_error (as_elems A) i = Some e -> nth_error w i = Some wi -> nth_error x i = Some xi ->
    e_actionable e = true /\ can_help (as_y A) wi (e_step_dir e) /\ representable e xi /\
    exists v, permitted e xi v /\ v <> xi /\ (constrained_at A i \/ attains (as_y A) (wi * (v - xi))).
(** In addition, features under constraints have non-negative values and changes of positive price.  Action sets
    without constraints are always orderly. *)
Definition orderly (E : env) (A : action_set) (w x : list Qc) : Prop :=
  in_line A w x /\
  forall j e xj, constrained_at A j -> nth_error (as_elems A) j = Some e -> nth_error x j = Some xj ->
    0 <= xj /\ strict_at E e xj /\ resolvable_at e xj.

(** Features under constraints move in one direction only and, if on, can be switched off (as indicators can). *)
Definition one_way (A : action_set) (x : list Qc) : Prop :=
  forall j e xj, constrained_at A j -> nth_error (as_elems A) j = Some e -> nth_error x j = Some xj ->
    ((forall v, permitted e xj v -> xj <= v) \/ (forall v, permitted e xj v -> v <= xj)) /\ (0 < xj -> permitted e xj 0).
(** Constrained features that are on (positive) can only be kept or switched off (set to 0), as indicator
    features can. *)
Definition switches_off (E : env) (A : action_set) (x : list Qc) : Prop :=
  forall j e xj v n, nth_error (as_names A) j = Some n -> In n (constrained_names E (as_cons A)) ->
    nth_error (as_elems A) j = Some e -> nth_error x j = Some xj -> 0 < xj -> permitted e xj v -> v = xj \/ v = 0.

(** ** Comparing builders *)
(** Same action set, classifier, cost type, back end and item limits (whatever happened before). *)
Definition same_problem (b b' : builder) : Prop :=
  bd_kind b' = bd_kind b /\ bd_w b' = bd_w b /\ bd_t b' = bd_t b /\ bd_A b' = bd_A b /\ bd_cost b' = bd_cost b /\
  bd_min b' = bd_min b /\ bd_max b' = bd_max b.
(** ... which moreover hold the same program. *)
Definition twin (b b' : builder) : Prop := same_problem b b' /\ bd_mip b' = bd_mip b.
(** A solver whose answer depends only on the program it is given. *)
Definition stateless (sv : solver) : Prop := forall n n' m, sv n m = sv n' m.
(** The same builder with the other solver back end. *)
Definition on_kind (k : backend) (b : builder) : builder :=
  {| bd_kind := k; bd_w := bd_w b; bd_t := bd_t b; bd_A := bd_A b; bd_cost := bd_cost b; bd_actionable := bd_actionable b; bd_min := bd_min b; bd_max := bd_max b;
     bd_x := bd_x b; bd_mip := bd_mip b; bd_sol := bd_sol b; bd_calls := bd_calls b |}.
(** Programs with the same feasible points at the same objective values. *)
Definition same_mip (m m' : mip) : Prop := forall s, mip_sat m s = mip_sat m' s /\ objective m s = objective m' s.
(** The feasible point the solver holds at the end of a call, if any. *)
Definition has_point (o : outcome) : option assignment := match o with SOptimal s _ | SFeasible s => Some s | _ => None end.

(** Every feature of [x] may be moved in a direction that helps, and its current value fits the grid. *)
Definition all_offered (A : action_set) (x : list Qc) : Prop :=
  forall j e xj, nth_error (as_elems A) j = Some e -> nth_error x j = Some xj ->
    compatible e = Some true /\ representable e xj /\ exists v, permitted e xj v /\ improving e xj v /\ v <> xj.
(** No permitted action changes anything. *)
Definition nothing_to_change (A : action_set) (x : list Qc) : Prop := forall a, permitted_action A x a -> n_changed a = 0%nat.
(** Every feature answers percentile queries. *)
Definition answers (E : env) (A : action_set) : Prop := forall j e v, nth_error (as_elems A) j = Some e -> exists p, percentile E e v = Ok p.
(** Number of actionable features. *)
Definition n_actionable_features (A : action_set) : nat := length (filter e_actionable (as_elems A)).
(** Coefficients are zero or larger than 1e-8 (the tolerance of np.isclose). *)
Definition tiny_free (w : list Qc) : Prop := forall j wj, nth_error w j = Some wj -> wj = 0 \/ qfrac 1 100000000 < qabs wj.
(** The situation in which the package is meant to be used: constraints, if any, in order, alignment with the
    classifier, up-to-date percentiles, no minimum size above one, an individual who lacks the desired outcome. *)
Definition good_setup (E : env) (b : builder) (x : list Qc) : Prop :=
  orderly E (bd_A b) (bd_w b) x /\ flips_match (bd_A b) (bd_w b) /\ current_percentiles (bd_A b) /\ (bd_min b <= 1)%Z /\
  denied (as_y (bd_A b)) (score (bd_w b) (bd_t b) x).
(** ... without any constraints. *)
Definition plain_setup (E : env) (b : builder) (x : list Qc) : Prop := unconstrained (bd_A b) /\ good_setup E b x.
