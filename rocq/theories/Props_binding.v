(** C120, and additions to C05 (exact condition) and C14 (queries do not disturb builders and auditors). *)
From Verif Require Import Spec_element Spec_recourse Spec_flipset Model_audit Proofs_exact Proofs_queries Proofs_binding.
#[local] Open Scope string_scope.
#[local] Open Scope list_scope.
#[local] Open Scope Qc_scope.

(** * C05: no value is below the lower bound, none a full step or more above the upper one, and all are inside
      exactly when the step divides the range. *)
Theorem C05_exactly_when_partial : forall E e e',
  elem_created e' \/ (elem_reachable E e /\ update_grid e = Ok e') ->
  exists lo hi s, grid_from e' lo /\ grid_to e' hi /\ grid_step_is e' lo hi s /\ 0 < s /\
    (forall v, In v (e_grid e') -> lo <= v /\ v < hi + s) /\
    ((forall v, In v (e_grid e') -> v <= hi) <-> exists n : nat, hi - lo = qz (Z.of_nat n) * s).
Proof. exact c05_overshoot. Qed.
Print Assumptions C05_exactly_when_partial.

(** * C14: filling the caches of any features, at any time, changes no answer. *)
Theorem C14_answers_undisturbed : forall E sv b js, let A' := aset_run E (bd_A b) (map OQuery js) in
  (forall x, set_x E (with_aset b A') x = (with_aset (fst (set_x E b x)) A', snd (set_x E b x))) /\
  fit sv (with_aset b A') = (match fit sv b with Ok (b1, r) => Ok (with_aset b1 A', r) | Err e => Err e end) /\
  (forall fuel total et, populate sv fuel total et (with_aset b A') =
     match populate sv fuel total et b with Some (Ok (b1, l)) => Some (Ok (with_aset b1 A', l)) | Some (Err e) => Some (Err e) | None => None end) /\
  (forall I (X : list (I * list fl)) y, audit E sv (with_aset b A') X y = (with_aset (fst (audit E sv b X y)) A', snd (audit E sv b X y))).
Proof. exact c14_builders. Qed.
Print Assumptions C14_answers_undisturbed.
Example C14_answers_nonvacuous : exists b b0 x, (forall sv, assigned env0 sv b x b0) /\ aset_run env0 (bd_A b) (map OQuery [0; 1]%nat) <> bd_A b.
Proof. exact queries_case. Qed.

(** * C120 *)
Theorem C120_not_actionable : forall E sv b i ps A' x b0 b1 l s p,
  ok_env E -> sound_solver sv -> builder_reachable E sv b -> select (bd_A b) i = Ok ps -> NoDup ps ->
  assigned E sv (with_aset b A') x b0 -> session sv b0 l b1 -> In s l -> In p ps ->
  index_setattr (bd_A b) i "actionable" (PBool false) = (A', Ok tt) -> ~ changes (s_actions s) p.
Proof. exact c120_fixed. Qed.
Print Assumptions C120_not_actionable.
Theorem C120_direction : forall E sv b i ps A' x b0 b1 l s p,
  ok_env E -> sound_solver sv -> builder_reachable E sv b -> select (bd_A b) i = Ok ps -> NoDup ps ->
  assigned E sv (with_aset b A') x b0 -> session sv b0 l b1 -> In s l -> In p ps ->
  forall d aj, index_setattr (bd_A b) i "step_direction" (PInt d) = (A', Ok tt) -> nth_error (s_actions s) p = Some aj ->
  ((0 < d)%Z -> 0 <= aj) /\ ((d < 0)%Z -> aj <= 0).
Proof. exact c120_direction. Qed.
Print Assumptions C120_direction.
(** Both kinds of assignment are always accepted. *)
Theorem C120_accepted : forall E A i ps, aset_reachable E A -> select A i = Ok ps -> NoDup ps ->
  (forall f, exists A', index_setattr A i "actionable" (PBool f) = (A', Ok tt)) /\
  (forall d, exists A', index_setattr A i "step_direction" (PInt d) = (A', Ok tt)).
Proof. exact c120_accepted. Qed.
Print Assumptions C120_accepted.
(** Everything populate files in a flipset for the edited action set. *)
Theorem C120_flipsets : forall E sv srt k A i ps A' x w t f fuel total et ct f',
  ok_env E -> sound_solver sv -> ok_sorter srt ->
  aset_reachable E A -> select A i = Ok ps -> NoDup ps -> index_setattr A i "actionable" (PBool false) = (A', Ok tt) ->
  flipset_reachable E sv srt k A' x w t None f -> length x = as_len A' -> denied (as_y A') (score w t x) -> scalar_keys (f_by f) ->
  total <> Some 0%nat -> (2 ^ as_len A' < fuel)%nat ->
  f_populate E sv srt fuel total et ct f = Some (f', Ok tt) ->
  exists l, f_items f' = f_items f ++ map filed l /\ forall s p, In s l -> In p ps -> ~ changes (s_actions s) p.
Proof. exact c120_flipset. Qed.
Print Assumptions C120_flipsets.
Example C120_nonvacuous : exists b ps A' x, builder_created env0 b /\ select (bd_A b) (IStr "a") = Ok ps /\ NoDup ps /\
  index_setattr (bd_A b) (IStr "a") "actionable" (PBool false) = (A', Ok tt) /\
  forall sv, sound_solver sv -> finishing_solver sv -> exists b0 b1 s, assigned env0 sv (with_aset b A') x b0 /\ fit sv b0 = Ok (b1, Some s) /\ changes (s_actions s) 1.
Proof. exact c120_case. Qed.
Example C120_direction_nonvacuous : exists b ps A' x, builder_created env0 b /\ select (bd_A b) (IStr "b") = Ok ps /\ NoDup ps /\
  index_setattr (bd_A b) (IStr "b") "step_direction" (PInt (-1)) = (A', Ok tt) /\
  forall sv, sound_solver sv -> finishing_solver sv -> exists b0 b1 s, assigned env0 sv (with_aset b A') x b0 /\ fit sv b0 = Ok (b1, Some s) /\ changes (s_actions s) 0.
Proof. exact c120_direction_case. Qed.
(** * C20, in terms of answers: the README's A['Married'].mutable = False raises nothing, and answers change the feature all the same. *)
Theorem C20_immutable_in_vain_refuted : forall k ct, exists b A' x, builder_created env0 b /\ bd_kind b = k /\ bd_cost b = ct /\
  index_setattr (bd_A b) (IStr "a") "mutable" (PBool false) = (A', Ok tt) /\ nth_error (as_names A') 0 = Some "a" /\
  forall sv, sound_solver sv -> finishing_solver sv -> exists b0 b1 s, assigned env0 sv (with_aset b A') x b0 /\ fit sv b0 = Ok (b1, Some s) /\ changes (s_actions s) 0.
Proof. exact c20_vain. Qed.
Print Assumptions C20_immutable_in_vain_refuted.
