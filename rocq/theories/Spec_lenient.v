(** Specification vocabulary for C130. *)
From Verif Require Export Spec_compare Spec_audit.
#[local] Open Scope Qc_scope.

(** The intercept [t'] is at least as favourable to the outcome [y] as [t]. *)
Definition at_least_as_lenient (y : Z) (t t' : Qc) : Prop := if (0 <? y)%Z then t <= t' else t' <= t.
