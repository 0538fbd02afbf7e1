(** Specification of finite input (C136). *)
From Verif Require Import Py Model_finite Spec_recourse.
#[local] Open Scope list_scope.
(** Some number of the vector is nan, inf or -inf. *)
Definition not_finite (v : list fl) : Prop := exists f, In f v /\ (f = NaN \/ f = PosInf \/ f = NegInf).
(** What a program does with one builder: assign any vector, or anything else that Spec_recourse lists. *)
Inductive vop := VAssign (xs : list fl) | VOther (o : builder_op).
Definition vstep (E : env) (sv : solver) (v : vbuilder) (o : vop) : vbuilder :=
  match o with
  | VAssign xs => fst (set_x_values E v xs)
  | VOther o => {| vb_b := builder_step E sv (vb_b v) o; vb_x := vb_x v |}
  end.
Definition vrun (E : env) (sv : solver) (v : vbuilder) (ops : list vop) : vbuilder := fold_left (vstep E sv) ops v.
(** The same program with the rejected vectors left out. *)
Inductive leaves_out : list vop -> list builder_op -> Prop :=
| lo_nil : leaves_out [] []
| lo_rejected xs ops ops' : not_finite xs -> leaves_out ops ops' -> leaves_out (VAssign xs :: ops) ops'
| lo_assigned q ops ops' : leaves_out ops ops' -> leaves_out (VAssign (map Fin q) :: ops) (BSetX q :: ops')
| lo_other o ops ops' : leaves_out ops ops' -> leaves_out (VOther o :: ops) (o :: ops').
