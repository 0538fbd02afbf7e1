(** Specification vocabulary for C129. *)
From Verif Require Export Spec_widen.
#[local] Open Scope list_scope.
#[local] Open Scope Qc_scope.

(** Percentiles, and with them the prices of changes, are the same in both action sets. *)
Definition same_prices (E : env) (A A' : action_set) : Prop :=
  Forall2 (fun e e' => forall v, percentile E e' v = percentile E e v) (as_elems A) (as_elems A').
