(** Specification vocabulary for C132: set up an action set from data, edit it, use it. *)
From Verif Require Export Spec_audit Spec_recourse.
#[local] Open Scope string_scope.
#[local] Open Scope list_scope.
#[local] Open Scope Qc_scope.

(** The edits users make before they first use an action set: assigning attributes other than variable_type (on the set, on single features, on
    slices), recomputing grids, setting the desired outcome, aligning.  No constraints, no exchanged elements. *)
Definition set_up_edit (o : aset_op) : Prop :=
  match o with
  | OSetAttr n _ | OIndexSet _ n _ => n <> "variable_type"
  | OUpdateGrid _ | ODesire _ | OAlign _ => True
  | OQuery _ | OReplace _ _ _ _ _ _ _ _ _ | OAdd _ _ _ _ | ORemove _ => False
  end.
(** [A] was created from the matrix [X] (with any names, bounds, step type and outcome) and then edited. *)
Definition set_up (E : env) (X : list (list Qc)) (A : action_set) : Prop :=
  exists names y custom dflt dst A0 edits,
    mk_action_set X names y custom dflt dst = Ok A0 /\ Forall set_up_edit edits /\ A = aset_run E A0 edits.
(** An individual like those of [X]: whole values in the columns of [X] that hold whole numbers only. *)
Definition like_rows (X : list (list Qc)) (x : list Qc) : Prop :=
  forall j xj, nth_error x j = Some xj -> (forall row v, In row X -> nth_error row j = Some v -> is_int v) -> is_int xj.
