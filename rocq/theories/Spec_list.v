(** Specification vocabulary for the list of items a new flipset gets. *)
From Verif Require Export Spec_flipset.
#[local] Open Scope list_scope.
#[local] Open Scope Qc_scope.

(** A way to the desired outcome: an action the action set permits for [x], within its constraints, that reaches the
    desired side of the classifier (w, t). *)
Definition reaches (A : action_set) (w : list Qc) (t : Qc) (x a : list Qc) : Prop :=
  permitted_action A x a /\ compliant A x a /\ on_side (as_y A) (score w t (vadd x a)).
(** An item with action [a] covers the way [a']: they share a feature ('mutually_exclusive'), or [a'] changes every feature
    that [a] changes, and possibly more ('distinct_subsets'). *)
Definition covers (et : enum_type) (a a' : list Qc) : Prop :=
  match et with MutuallyExclusive => shares a a' | DistinctSubsets => forall j, changes a j -> changes a' j end.
