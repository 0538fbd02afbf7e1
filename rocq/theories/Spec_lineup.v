(** Specification vocabulary for what subset limits limit (C34, without provisos on the order of the features). *)
From Verif Require Export Spec_recourse.
#[local] Open Scope list_scope.
#[local] Open Scope Qc_scope.

(** Feature [j] takes part in the search for [x]: its value fits the type of its grid and it may move, in a direction that
    helps unless it is named in a constraint. *)
Definition takes_part (A : action_set) (w x : list Qc) (j : nat) : Prop :=
  exists e wj xj v, nth_error (as_elems A) j = Some e /\ nth_error w j = Some wj /\ nth_error x j = Some xj /\
    representable e xj /\ permitted e xj v /\ v <> xj /\ (constrained_at A j \/ attains (as_y A) (wj * (v - xj))).
(** The direction in which feature [j] may move can help. *)
Definition helps (A : action_set) (w : list Qc) (j : nat) : Prop :=
  exists e wj, nth_error (as_elems A) j = Some e /\ nth_error w j = Some wj /\ can_help (as_y A) wj (e_step_dir e).
(** The features that take part, in the order of the columns, except that those that cannot help come last. *)
Definition lineup (A : action_set) (w x : list Qc) (slots : list nat) : Prop :=
  NoDup slots /\ (forall j, In j slots <-> takes_part A w x j) /\
  exists l r, slots = l ++ r /\ StronglySorted lt l /\ (forall j, In j l -> helps A w j) /\ (forall j, In j r -> ~ helps A w j).
(** Feature [j] counts as used by [a]: features under constraints that are on count unless switched off, all others count if changed. *)
Definition counts (A : action_set) (x a : list Qc) (j : nat) : Prop :=
  exists xj aj, nth_error x j = Some xj /\ nth_error a j = Some aj /\
    ((constrained_at A j /\ 0 < xj /\ xj + aj <> 0) \/ (~ (constrained_at A j /\ 0 < xj) /\ aj <> 0)).
(** [a] keeps the limits as they are applied: a constraint on the features number j1, j2, ... limits how many of
    slots number j1, j2, ... count as used. *)
Definition limited (A : action_set) (slots : list nat) (x a : list Qc) : Prop :=
  forall id c, stored (as_cons A) id c -> exists fs used, Forall2 (fun j f => nth_error slots j = Some f) (c_indices c) fs /\
    NoDup used /\ (forall f, In f used <-> In f fs /\ counts A x a f) /\ (c_lb c <= Z.of_nat (length used) <= c_ub c)%Z.
(** What the builder looks for, with the limits as they are applied. *)
Definition sought (b : builder) (slots : list nat) (x a : list Qc) : Prop :=
  permitted_action (bd_A b) x a /\ worthwhile (bd_A b) (bd_w b) a /\ size_between (bd_min b) (bd_max b) a /\
  on_side (as_y (bd_A b)) (score (bd_w b) (bd_t b) (vadd x a)) /\ limited (bd_A b) slots x a.
(** Changes that are considered at all: the current value is representable on the feature's grid, the change is larger than 1e-8 and
    its price is positive. (For regular individuals every permitted action is like that.) *)
Definition priced (E : env) (ct : cost_type) (A : action_set) (x a : list Qc) : Prop :=
  forall j e xj aj, nth_error (as_elems A) j = Some e -> nth_error x j = Some xj -> nth_error a j = Some aj -> aj <> 0 ->
    representable e xj /\ qfrac 1 100000000 < qabs aj /\ exists p, move_cost E ct e xj (xj + aj) p /\ 0 < p.
Definition considered (E : env) (b : builder) (slots : list nat) (x a : list Qc) : Prop :=
  sought b slots x a /\ priced E (bd_cost b) (bd_A b) x a.
(** The same for an action set [A], a classifier (w, t) and the cost type 'max' (audits), with no limits on the number of changes. *)
Definition in_reach (E : env) (A : action_set) (w : list Qc) (t : Qc) (slots : list nat) (x a : list Qc) : Prop :=
  permitted_action A x a /\ worthwhile A w a /\ (1 <= n_changed a)%nat /\ on_side (as_y A) (score w t (vadd x a)) /\ limited A slots x a /\
  priced E CMax A x a.
