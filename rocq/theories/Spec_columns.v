(** Specification vocabulary for rearranging the features of a question (C119). *)
From Verif Require Export Spec_compare.
#[local] Open Scope list_scope.
#[local] Open Scope Qc_scope.

(** [l'] is [l] rearranged: entry number k of l' is entry number p_k of l. *)
Definition rearranged {T} (p : list nat) (l l' : list T) : Prop := Forall2 (fun j v => nth_error l j = Some v) p l'.
(** The constraints of [A'] are those of [A], on the same features. *)
Definition same_limits (p : list nat) (A A' : action_set) : Prop :=
  (forall id c, stored (as_cons A) id c -> exists c', stored (as_cons A') id c' /\ c_lb c' = c_lb c /\ c_ub c' = c_ub c /\
     forall k j, nth_error p k = Some j -> In k (c_indices c') <-> In j (c_indices c)) /\
  (forall id c', stored (as_cons A') id c' -> exists c, stored (as_cons A) id c).
(** The same question about the same person with the features in another order: names, features, coefficients and values are
    rearranged alike (in any way), everything else is the same. *)
Definition reordered (p : list nat) (b : builder) (x : list Qc) (b' : builder) (x' : list Qc) : Prop :=
  Permutation p (seq 0 (length (bd_w b))) /\
  rearranged p (as_names (bd_A b)) (as_names (bd_A b')) /\ rearranged p (as_elems (bd_A b)) (as_elems (bd_A b')) /\
  rearranged p (bd_w b) (bd_w b') /\ rearranged p x x' /\
  as_y (bd_A b') = as_y (bd_A b) /\ bd_t b' = bd_t b /\ bd_cost b' = bd_cost b /\ bd_min b' = bd_min b /\ bd_max b' = bd_max b /\
  same_limits p (bd_A b) (bd_A b').
