(** Specification vocabulary for leaving features out of a question (C137). *)
From Verif Require Export Spec_columns Spec_idle Spec_setup Spec_recourse.
#[local] Open Scope list_scope.
#[local] Open Scope Qc_scope.

(** Feature [j] cannot be changed, or is ignored by the classifier. *)
Definition left_out (A : action_set) (w : list Qc) (j : nat) : Prop := fixed_at A j \/ nth_error w j = Some 0.
Definition same_or_no_bound (b b' : builder) : Prop :=
  bd_max b' = bd_max b \/ (Z.of_nat (n_actionable_features (bd_A b)) <= bd_max b /\ Z.of_nat (n_actionable_features (bd_A b')) <= bd_max b')%Z.
(** Question b', x' is question b, x with the features p only, in that order: names, features, coefficients and values are
    those of p, and so are the constraints, which name no other feature; the features left out cannot be changed or have
    coefficient 0, and what they contribute to the score at x has been added to the intercept.  The bounds on the number of
    changes are the same, or in both questions no less than the number of actionable features. *)
Definition narrowed (p : list nat) (b : builder) (x : list Qc) (b' : builder) (x' : list Qc) : Prop :=
  NoDup p /\ rearranged p (as_names (bd_A b)) (as_names (bd_A b')) /\ rearranged p (as_elems (bd_A b)) (as_elems (bd_A b')) /\
  rearranged p (bd_w b) (bd_w b') /\ rearranged p x x' /\
  (forall j, ~ In j p -> left_out (bd_A b) (bd_w b) j) /\ score (bd_w b') (bd_t b') x' = score (bd_w b) (bd_t b) x /\
  as_y (bd_A b') = as_y (bd_A b) /\ bd_cost b' = bd_cost b /\ bd_min b' = bd_min b /\ same_or_no_bound b b' /\
  same_limits p (bd_A b) (bd_A b') /\ (forall j, constrained_at (bd_A b) j -> In j p).
(** Assignments to attributes of single features, selected by names that are not among [ns]. *)
Definition edits_others (ns : list string) (o : aset_op) : Prop := match o with OIndexSet (IStr n) _ _ => ~ In n ns | _ => False end.
(** The same for an action set and a classifier (without the individual). *)
Definition narrowed_set (p : list nat) (A : action_set) (w : list Qc) (A' : action_set) (w' : list Qc) : Prop :=
  NoDup p /\ rearranged p (as_names A) (as_names A') /\ rearranged p (as_elems A) (as_elems A') /\ rearranged p w w' /\
  (forall j, ~ In j p -> left_out A w j) /\ as_y A' = as_y A /\ same_limits p A A' /\ (forall j, constrained_at A j -> In j p).
