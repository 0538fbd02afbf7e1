(** Parts of an action. *)
From Verif Require Export Spec_recourse.
#[local] Open Scope Qc_scope.

(** [a'] makes some of the changes of [a] and leaves the other features alone. *)
Definition part_of (a' a : list Qc) : Prop := Forall2 (fun p q => p = 0 \/ p = q) a' a.
