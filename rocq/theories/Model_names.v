(** The textual names of variables and rows of a recourse program (recourse/builder.py:396-399, 668, 683, 703, 731,
    747, 766-767; 1011, 1030-1033, 1052-1053, 1060-1061, 1086-1088).  Everywhere else in the model variables and rows are
    referred to by the structured names of Model_mip.v. *)
From Coq Require Import Strings.String.
From Verif Require Export Model_mip Model_actionset Model_builder.
#[local] Open Scope string_scope.

(** 396-398: 'a[%d]', 'u[%d][%d]', 'c[%d]'; 747 / 1077: 'max_cost' *)
Definition var_name (v : mvar) : string :=
  match v with
  | VA j => "a[" ++ string_of_nat j ++ "]"
  | VU j k => "u[" ++ string_of_nat j ++ "][" ++ string_of_nat k ++ "]"
  | VC j => "c[" ++ string_of_nat j ++ "]"
  | VMax => "max_cost"
  end.
(** Names of rows; None: the name is chosen by the solver library (954-956, 1229). *)
Definition row_name (b : backend) (n : rname) : option string :=
  match n with
  | NScore => Some match b with CPX => "score" | PyMIP => "flip_prediction" end
  | NSet j => Some ("set_a[" ++ string_of_nat j ++ "]")
  | NPick j => Some match b with CPX => "pick_a[" ++ string_of_nat j ++ "]" | PyMIP => "pick_a['" ++ string_of_nat j ++ "']" end
  | NMaxItems => Some "max_items"
  | NMinItems => Some "min_items"
  | NSubset id => Some ("subset_limit_" ++ id)
  | NSubsetLb i => Some ("constr_" ++ string_of_nat i ++ "_lb")
  | NSubsetUb i => Some ("constr_" ++ string_of_nat i ++ "_ub")
  | NDefCost j => Some ("def_cost[" ++ string_of_nat j ++ "]")
  | NSetMax j => Some ("set_max_cost[" ++ string_of_nat j ++ "]")
  | NAnon => None
  end.
