(** Specification of flags (C135). *)
From Verif Require Import Py.
(** The argument kw puts the flag b in force: it is not given (then the flag is True), it is True or False, or it is
    None (then the flag is True) where None is allowed. *)
Inductive in_force (none_allowed : Prop) : option pyval -> bool -> Prop :=
| Not_given : in_force none_allowed None true
| Given b : in_force none_allowed (Some (PBool b)) b
| Given_none : none_allowed -> in_force none_allowed (Some PNone) true.
