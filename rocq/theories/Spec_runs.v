(** Vocabulary for C108: the same program in another run of Python. *)
From Verif Require Import Spec_recourse.
#[local] Open Scope list_scope.
#[local] Open Scope Qc_scope.

(** Two runs of the same installation: the libraries compute the same numbers, but sets of strings are iterated in
    another order (PYTHONHASHSEED is chosen at random when Python starts). *)
Definition other_run (E E' : env) : Prop := ok_env E /\ ok_env E' /\ kde E' = kde E /\ nplog E' = nplog E.
(** Feature [j] may be changed in the direction that moves the score to the desired side. *)
Definition useful (A : action_set) (w : list Qc) (j : nat) : Prop :=
  exists e wj, nth_error (as_elems A) j = Some e /\ nth_error w j = Some wj /\ e_actionable e = true /\ can_help (as_y A) wj (e_step_dir e).
(** No two features under constraints are both useless on their own. *)
Definition order_free (A : action_set) (w : list Qc) : Prop :=
  forall j j', constrained_at A j -> constrained_at A j' -> j <> j' -> useful A w j \/ useful A w j'.
