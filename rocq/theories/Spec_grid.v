(** Specification vocabulary for ActionSet.feasible_grid. *)
From Verif Require Export Spec_recourse.
#[local] Open Scope list_scope.
#[local] Open Scope Qc_scope.

(** Column [j] of the action set has name [n] and settings [e]; the individual's value there is [xj]. *)
Definition feature (A : action_set) (x : list Qc) (j : nat) (n : string) (e : element) (xj : Qc) : Prop :=
  nth_error (as_names A) j = Some n /\ nth_error (as_elems A) j = Some e /\ nth_error x j = Some xj.
(** Not known to be of no use: before alignment every feature; after it, features that may be changed, have a
    coefficient other than zero, and may move in the direction that helps. *)
Definition may_serve (e : element) : Prop :=
  match e_flip e with
  | None => True
  | Some fd => e_actionable e = true /\ fd <> 0%Z /\ ~ (0 < fd /\ e_step_dir e < 0)%Z /\ ~ (fd < 0 /\ 0 < e_step_dir e)%Z
  end.
(** The features that appear in the result. *)
Definition listed (return_compatible : bool) (A : action_set) (j : nat) (e : element) : Prop :=
  return_compatible = false \/ constrained_at A j \/ may_serve e.
(** Every feature knows its direction (the action set has been aligned). *)
Definition all_aligned (A : action_set) : Prop := forall j e, nth_error (as_elems A) j = Some e -> e_flip e <> None.
