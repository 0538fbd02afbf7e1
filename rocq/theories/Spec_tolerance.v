(** Solvers that work with tolerances: every real solver accepts points that violate rows, bounds and integrality a
    little.  [d] is the tolerance. *)
From Verif Require Export Spec_recourse.
#[local] Open Scope list_scope.
#[local] Open Scope Qc_scope.

(** A point that meets a program up to [d]: bounds, integrality of binary variables, rows and SOS-1 sets. *)
Definition var_within (d : Qc) (s : assignment) (v : vdecl) : Prop :=
  (v_bin v = true -> qabs (s (v_var v)) <= d \/ qabs (s (v_var v) - 1) <= d) /\
  v_lb v - d <= s (v_var v) /\ (forall u, v_ub v = Some u -> s (v_var v) <= u + d).
Definition row_within (d : Qc) (s : assignment) (r : row) : Prop :=
  (forall b, r_lo r = Some b -> b - d <= eval s (r_terms r)) /\ (forall b, r_hi r = Some b -> eval s (r_terms r) <= b + d).
Definition sos_within (d : Qc) (s : assignment) (l : list mvar) : Prop :=
  (length (filter (fun v => negb (qabs (s v) <=? d)%Qc) l) <= 1)%nat.
Definition meets_within (d : Qc) (m : mip) (s : assignment) : Prop :=
  Forall (var_within d s) (m_vars m) /\ Forall (row_within d s) (m_rows m) /\ Forall (sos_within d s) (m_sos m).
(** An answer that is right up to [d]: optimal points are at most [d] worse than every exact point; a program called
    infeasible has no exact point. *)
Definition valid_within (d : Qc) (m : mip) (o : outcome) : Prop :=
  match o with
  | SOptimal s _ => meets_within d m s /\ forall s', mip_sat m s' = true -> objective m s <= objective m s' + d
  | SFeasible s => meets_within d m s
  | SInfeasible => forall s, mip_sat m s = false
  | SUnknown => True
  end.
Definition solver_within (d : Qc) (sv : solver) : Prop := forall n m, valid_within d m (sv n m).

(** The tolerance is small for the number of features and for the numbers of values on their grids. *)
Definition fine_for (d : Qc) (A : action_set) : Prop :=
  0 <= d /\ d * qz (1 + Z.of_nat (as_len A)) < 1 /\ forall e, In e (as_elems A) -> d * qz (2 + Z.of_nat (length (e_grid e))) < 1.
(** No permitted change is larger than [M]. *)
Definition changes_up_to (M : Qc) (A : action_set) (x : list Qc) : Prop :=
  0 <= M /\ forall j e xj v, nth_error (as_elems A) j = Some e -> nth_error x j = Some xj -> permitted e xj v -> qabs (v - xj) <= M.
(** [a] is [g] up to small errors. *)
Definition close_to (d M : Qc) (A : action_set) (a g : list Qc) : Prop :=
  length a = length g /\ forall j e aj gj, nth_error (as_elems A) j = Some e -> nth_error a j = Some aj -> nth_error g j = Some gj ->
    qabs (aj - gj) <= d * (1 + M * qz (1 + Z.of_nat (length (e_grid e)))).
(** The desired side up to [d]. *)
Definition on_side_within (d : Qc) (y : Z) (s : Qc) : Prop := if (0 <? y)%Z then - d <= s else s <= d.
(** A reported item stands for the action [g]: [g] is permitted and of admissible size, the reported action is [g] up
    to small errors, and the score it reaches is on the desired side up to [d]. *)
Definition stands_for (d M : Qc) (b : builder) (x : list Qc) (s : sol) (g : list Qc) : Prop :=
  permitted_action (bd_A b) x g /\ size_between (bd_min b) (bd_max b) g /\ close_to d M (bd_A b) (s_actions s) g /\
  on_side_within d (as_y (bd_A b)) (score (bd_w b) (bd_t b) (vadd x (s_actions s))).
(** Answers whose binary variables are exactly 0 or 1 (real-valued variables and rows may still be off by a little). *)
Definition whole_indicators (sv : solver) : Prop := forall n m s g v, (sv n m = SOptimal s g \/ sv n m = SFeasible s) -> In v (m_vars m) -> v_bin v = true ->
  s (v_var v) = 0 \/ s (v_var v) = 1.
(** No permitted change costs more than [K]. *)
Definition prices_up_to (E : env) (ct : cost_type) (K : Qc) (A : action_set) (x : list Qc) : Prop :=
  0 <= K /\ forall j e xj v p, nth_error (as_elems A) j = Some e -> nth_error x j = Some xj -> permitted e xj v -> move_cost E ct e xj v p -> qabs p <= K.
(** The errors in the prices of all features together. *)
Definition cost_slack (d K : Qc) (A : action_set) : Qc := qsum (map (fun e => d * (1 + K * qz (1 + Z.of_nat (length (e_grid e))))) (as_elems A)).
(** How far the score of a reported action can be from that of the action it stands for. *)
Definition action_slack (d M : Qc) (A : action_set) (w : list Qc) : Qc :=
  dot (map qabs w) (map (fun e => d * (1 + M * qz (1 + Z.of_nat (length (e_grid e))))) (as_elems A)).
(** No permitted action misses the desired side by less than [r]. *)
Definition clear_cut (r : Qc) (A : action_set) (w : list Qc) (t : Qc) (x : list Qc) : Prop :=
  forall a, permitted_action A x a -> on_side_within r (as_y A) (score w t (vadd x a)) -> on_side (as_y A) (score w t (vadd x a)).
(** What is reported for one audited individual. *)
Definition tolerably_judged (E : env) (d : Qc) (A : action_set) (w : list Qc) (t : Qc) (x : list Qc) (f : bool) (c : fl) : Prop :=
  (f = true /\ exists r, c = Fin r /\ forall M K, changes_up_to M A x -> prices_up_to E CMax K A x ->
     exists a g cs m, permitted_action A x g /\ (1 <= n_changed g)%nat /\ (orderly E A w x -> compliant A x g) /\
       close_to d M A a g /\ on_side_within d (as_y A) (score w t (vadd x a)) /\ on_side_within (d + action_slack d M A w) (as_y A) (score w t (vadd x g)) /\
       action_costs E CMax A x g cs /\ largest cs m /\ 0 < m /\ m <= r + d + cost_slack d K A /\
       (orderly E A w x -> current_percentiles A -> regular E A x -> denied (as_y A) (score w t x) ->
         forall a' cs' m' j e xj u v p q, permitted_action A x a' -> compliant A x a' -> on_side (as_y A) (score w t (vadd x a')) -> action_costs E CMax A x a' cs' -> largest cs' m' ->
           nth_error (as_elems A) j = Some e -> nth_error x j = Some xj -> (exists wj, nth_error w j = Some wj /\ wj <> 0 /\ on_side (as_y A) (wj * (u - xj)) /\ on_side (as_y A) (wj * (v - xj))) ->
           permitted e xj u -> permitted e xj v ->
           move_cost E CMax e xj u p -> move_cost E CMax e xj v q -> p < q -> r <= m' + (q - p) + d + cost_slack d K A)) \/
  (f = false /\ c = PosInf /\ (orderly E A w x -> current_percentiles A -> denied (as_y A) (score w t x) ->
     forall a, permitted_action A x a -> movable_only A x a -> compliant A x a -> ~ on_side (as_y A) (score w t (vadd x a)))).
(** Permitted changes are larger than the errors. *)
Definition coarse (d M : Qc) (A : action_set) (x : list Qc) : Prop :=
  forall j e xj v, nth_error (as_elems A) j = Some e -> nth_error x j = Some xj -> permitted e xj v -> v <> xj ->
    d * (1 + M * qz (1 + Z.of_nat (length (e_grid e)))) < qabs (v - xj).
