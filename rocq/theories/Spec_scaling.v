(** What it means to standardise data (sklearn's StandardScaler), independently of the helper. *)
From Verif Require Export Model_scaling Spec_recourse.
Open Scope Qc_scope.

(** A square root: zero exactly at zero. *)
Definition root (sq : Qc -> Qc) : Prop := forall v, sq v = 0 <-> v = 0.

(** StandardScaler.transform: subtract the mean, divide by the deviation; columns that do not vary are
    only shifted (sklearn's scale_ is 1 there). *)
Inductive standardised (sq : Qc -> Qc) : list Qc -> list Qc -> list Qc -> list Qc -> Prop :=
| std_nil : standardised sq [] [] [] []
| std_varies m v x ms vs xs zs : v <> 0 -> standardised sq ms vs xs zs ->
    standardised sq (m :: ms) (v :: vs) (x :: xs) ((x - m) / sq v :: zs)
| std_constant m x ms vs xs zs : standardised sq ms vs xs zs ->
    standardised sq (m :: ms) (0 :: vs) (x :: xs) (x - m :: zs).

(** The numbers of a classifier, when they are numbers. *)
Definition usable (w : list fl) (b : fl) (w' : list Qc) (b' : Qc) : Prop := w = map Fin w' /\ b = Fin b'.
