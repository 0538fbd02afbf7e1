(** Specification vocabulary for audit reports. *)
From Verif Require Export Spec_audit Model_report.
#[local] Open Scope list_scope.
(** Exactly [n] members of the list satisfy [P]. *)
Inductive count {A} (P : A -> Prop) : list A -> nat -> Prop :=
| ct_nil : count P [] 0
| ct_yes : forall a l n, P a -> count P l n -> count P (a :: l) (S n)
| ct_no : forall a l n, ~ P a -> count P l n -> count P (a :: l) n.
(** What the runtime guarantees about == on index labels and outcomes, and about list(set(..)). *)
Definition decides {A} (eqb : A -> A -> bool) : Prop := forall a b, eqb a b = true <-> a = b.
Definition ok_set {A} (f : list A -> list A) : Prop := forall l, NoDup (f l) /\ forall a, In a (f l) <-> In a l.
