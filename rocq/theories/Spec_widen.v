(** Specification vocabulary for C105-: what it means to allow more. *)
From Verif Require Export Spec_compare Spec_audit.
#[local] Open Scope string_scope.
#[local] Open Scope list_scope.
#[local] Open Scope Qc_scope.

(** Feature [e'] allows every change that [e] allows: it stays actionable, no value is dropped from the grid, and
    its step direction is the same or free. *)
Definition widens (e e' : element) : Prop :=
  (e_actionable e = true -> e_actionable e' = true) /\ (forall v, In v (e_grid e) -> In v (e_grid e')) /\
  (e_step_dir e' = 0%Z \/ e_step_dir e' = e_step_dir e).
(** Action set [A'] (for the same features and outcome) allows everything that [A] allows: feature by feature, and each constraint of [A'] is implied by
    one of [A] on the same features. *)
Definition allows_more (A A' : action_set) : Prop :=
  as_names A' = as_names A /\ as_y A' = as_y A /\ Forall2 widens (as_elems A) (as_elems A') /\
  forall id c, stored (as_cons A') id c ->
    exists id0 c0, stored (as_cons A) id0 c0 /\ c_indices c = c_indices c0 /\ (c_lb c <= c_lb c0)%Z /\ (c_ub c0 <= c_ub c)%Z.
(** Current values that fit the type of a feature's grid in [A] fit it in [A'] as well. *)
Definition no_coarser (A A' : action_set) (x : list Qc) : Prop :=
  forall j e e' xj, nth_error (as_elems A) j = Some e -> nth_error (as_elems A') j = Some e' -> nth_error x j = Some xj -> representable e xj -> representable e' xj.
(** The same bounds or wider ones, with all other settings (value type, step, direction, actionability) the same. *)
Definition wider_bounds (e e' : element) : Prop :=
  e_lb e' <= e_lb e /\ e_ub e <= e_ub e' /\ e_values e' = e_values e /\ e_vtype e' = e_vtype e /\ e_actionable e' = e_actionable e /\
  e_step_type e' = e_step_type e /\ e_step_size e' = e_step_size e /\ e_step_dir e' = e_step_dir e.
(** Edits of an action set that can only allow more: a feature made actionable or free in direction (assigned to the
    whole set, to one feature or to a selection), the removal of a constraint.  (Percentile queries change nothing.) *)
Definition relaxing (o : aset_op) : Prop :=
  match o with
  | OSetAttr n v | OIndexSet _ n v => (n = "actionable" /\ v = PBool true) \/ (n = "step_direction" /\ v = PInt 0)
  | ORemove _ | OQuery _ => True
  | _ => False
  end.
