(** What is used of floating-point arithmetic: the result of an operation is the exact result, rounded. *)
From Verif Require Export Num Model_rounding.
#[local] Open Scope Qc_scope.

(** The unit roundoff of binary64. *)
Definition unit64 : Qc := qfrac 1 (2 ^ 53).
(** A rounding function: monotone, symmetric, idempotent, exact on integers up to 2^53, and accurate to half a unit in the last place. *)
Definition rounding (rnd : Qc -> Qc) : Prop :=
  (forall x y, x <= y -> rnd x <= rnd y) /\ (forall x, rnd (- x) = - rnd x) /\ (forall x, rnd (rnd x) = rnd x) /\
  (forall n, (Z.abs n <= 2 ^ 53)%Z -> rnd (qz n) = qz n) /\ (forall x, qabs (rnd x - x) <= unit64 * qabs x).
(** The numbers that the machine can represent. *)
Definition machine (rnd : Qc -> Qc) (x : Qc) : Prop := rnd x = x.
(** The entries of a list increase. *)
Definition increasing (g : list Qc) : Prop := forall i j u v, (i < j)%nat -> nth_error g i = Some u -> nth_error g j = Some v -> u < v.
(** How far a computed score may be from the exact one: the sum of the magnitudes of its terms, times roughly (number of features + 1) roundings. *)
Definition score_slack (w : list Qc) (t : Qc) (x : list Qc) : Qc :=
  (Qcpower (1 + unit64) (length w + 1) - 1) * (dot (map qabs w) (map qabs x) + qabs t).
