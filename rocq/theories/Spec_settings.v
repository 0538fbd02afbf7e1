(** Specification vocabulary for the settings of a feature (C118). *)
From Verif Require Export Spec_element.
#[local] Open Scope list_scope.
#[local] Open Scope Qc_scope.

(** A value that is not a list or tuple. *)
Definition plain (v : pyval) : Prop := match v with PList _ | PTuple _ => False | _ => True end.
(** The values that Python considers equal to False or True (1-element arrays included). *)
Definition truth (v : pyval) (b : bool) : Prop :=
  match v with
  | PBool c => b = c
  | PInt n | PNpInt n => n = if b then 1%Z else 0%Z
  | PFloat f | PArr [f] => f = Fin (if b then 1 else 0)
  | _ => False
  end.
(** Finite numbers other than bools. *)
Definition numeric (v : pyval) (q : Qc) : Prop :=
  match v with
  | PInt n | PNpInt n => q = qz n
  | PFloat f | PArr [f] => f = Fin q
  | _ => False
  end.
Definition sign_of (q : Qc) (s : Z) : Prop := (0 < q /\ s = 1%Z) \/ (q = 0 /\ s = 0%Z) \/ (q < 0 /\ s = (-1)%Z).
(** +inf, which this model does not follow as an absolute step size. *)
Definition infinite (v : pyval) : Prop := v = PFloat PosInf \/ v = PArr [PosInf].
