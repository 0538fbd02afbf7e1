(** Specification vocabulary for objects that share an action set. *)
From Verif Require Export Model_shared Spec_backend.
#[local] Open Scope list_scope.
#[local] Open Scope Qc_scope.

(** A workspace with an arbitrary history: some action set, then edits, creations and calls in any order. *)
Definition ws_reachable (E : env) (svs : nat -> solver) (srt : sorter) (s : workspace) : Prop :=
  exists A ops, aset_reachable E A /\ s = ws_run E svs srt {| ws_A := A; ws_things := [] |} ops.
(** The i-th object. *)
Definition holds (s : workspace) (i : nat) (o : thing) : Prop := nth_error (ws_things s) i = Some o.
(** A step that is not a call on the i-th object. *)
Definition elsewhere (i : nat) (o : ws_op) : Prop := match o with WUse j _ => j <> i | _ => True end.
(** A step that neither edits the action set nor creates an object or, by the first populate of a flipset, a builder. *)
Definition mere_use (s : workspace) (o : ws_op) : Prop :=
  match o with
  | WUse j r => (forall op, r <> RBuilder (BAset op)) /\
                forall f fuel total et ct, holds s j (TFlipset f) -> r = RFlipset (FPopulate fuel total et ct) -> f_builder f <> None
  | _ => False
  end.
(** Creations, and calls that do not edit the action set. *)
Definition no_edit (o : ws_op) : Prop :=
  match o with WAset _ => False | WUse _ r => forall op, r <> RBuilder (BAset op) | _ => True end.
