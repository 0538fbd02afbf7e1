(** Specification vocabulary for which individuals a builder accepts (C64, C65, without provisos on the order of the features). *)
From Verif Require Export Spec_lineup.
#[local] Open Scope list_scope.
#[local] Open Scope Qc_scope.

(** Feature [j] can be handled for [x]: its coefficient is not within 1e-8 of 0 and, if it is named in a constraint, it moves in one
    direction only and can be switched off if it is on. *)
Definition handled (A : action_set) (w x : list Qc) (j : nat) : Prop :=
  exists e wj xj, nth_error (as_elems A) j = Some e /\ nth_error w j = Some wj /\ nth_error x j = Some xj /\ qfrac 1 100000000 < qabs wj /\
    (constrained_at A j -> ((forall v, permitted e xj v -> xj <= v) \/ (forall v, permitted e xj v -> v <= xj)) /\ (0 < xj -> permitted e xj 0)).
(** [x] can be handled: every feature that takes part can, and no constraint names a column whose number is not below the number of
    features that take part. *)
Definition settable (A : action_set) (w x : list Qc) : Prop :=
  (forall j, takes_part A w x j -> handled A w x j) /\
  exists part, NoDup part /\ (forall j, In j part <-> takes_part A w x j) /\ forall j, constrained_at A j -> (j < length part)%nat.
