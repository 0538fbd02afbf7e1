(** Specification vocabulary for features that play no role. *)
From Verif Require Export Spec_lineup Spec_audit.
#[local] Open Scope list_scope.
#[local] Open Scope Qc_scope.

(** Two questions - action set, coefficients, individual - that differ only in features which take part in the search for
    neither of them ([takes_part]: the feature may move, in a direction that helps unless it is named in a constraint, and
    its value fits its grid). *)
Definition alike (A : action_set) (w x : list Qc) (A' : action_set) (w' x' : list Qc) : Prop :=
  as_names A' = as_names A /\ as_cons A' = as_cons A /\ as_y A' = as_y A /\
  forall j, (nth_error (as_elems A') j = nth_error (as_elems A) j /\ nth_error w' j = nth_error w j /\ nth_error x' j = nth_error x j) \/
            (~ takes_part A w x j /\ ~ takes_part A' w' x' j).
(** Feature [j] cannot be changed: it is marked as not actionable, ... *)
Definition fixed_at (A : action_set) (j : nat) : Prop := forall e, nth_error (as_elems A) j = Some e -> e_actionable e = false.
(** ... or it is ignored by the classifier and by the constraints. *)
Definition ignored_at (A : action_set) (w : list Qc) (j : nat) : Prop := nth_error w j = Some 0 /\ ~ constrained_at A j.
