(** Property theorems for objects that share an action set: C123, C124.  Vocabulary: Spec_shared.v, Model_shared.v.
    A workspace is one action set and the builders, auditors and flipsets created with it; [ws_reachable]: any history of
    edits of the action set, creations (successful or not) and calls.  [svs i] is the solver behind the i-th object. *)
From Verif Require Import Spec_shared Spec_audit Spec_flipset Proofs_concrete Proofs_shared Proofs_shared2.
#[local] Open Scope string_scope.
#[local] Open Scope list_scope.
#[local] Open Scope Qc_scope.

(** * C123 *)
(** Every object is in a state it could have reached with the action set and its caller alone; so every theorem about one
    builder, auditor or flipset and an action set edited at will applies to it, with the action set as it is now. *)
Theorem C123_builders : forall E svs srt s i b, ws_reachable E svs srt s -> holds s i (TBuilder b) -> bd_A b = ws_A s /\ builder_reachable E (svs i) b.
Proof. exact shared_builder. Qed.
Print Assumptions C123_builders.
Theorem C123_auditors : forall E svs srt s i b, ws_reachable E svs srt s -> holds s i (TAuditor b) ->
  bd_A b = ws_A s /\ exists k A0 w t, aset_reachable E A0 /\ auditor_reachable E (svs i) k A0 w t b.
Proof. exact shared_auditor. Qed.
Print Assumptions C123_auditors.
(** [A0]: the action set as it was when the flipset was first populated. *)
Theorem C123_flipsets : forall E svs srt s i f, ws_reachable E svs srt s -> holds s i (TFlipset f) ->
  exists k A0 x w t f0, aset_reachable E A0 /\ flipset_reachable E (svs i) srt k A0 x w t None f0 /\ f = f_shared f0 (ws_A s) /\
    (f_builder f = None -> A0 = ws_A s /\ f = f0).
Proof. exact shared_flipset. Qed.
Print Assumptions C123_flipsets.
(** Whatever is done elsewhere, an individual assigned to a builder gets the same answers, ... *)
Theorem C123_answers : forall E svs srt s i b ops, ws_reachable E svs srt s -> holds s i (TBuilder b) -> Forall (elsewhere i) ops ->
  exists b', holds (ws_run E svs srt s ops) i (TBuilder b') /\
    (forall b1 r, fit (svs i) b = Ok (b1, r) -> exists b1', fit (svs i) b' = Ok (b1', r)) /\
    (forall fuel total et b1 l, populate (svs i) fuel total et b = Some (Ok (b1, l)) -> exists b1', populate (svs i) fuel total et b' = Some (Ok (b1', l))).
Proof. exact c123_answers. Qed.
Print Assumptions C123_answers.
(** ... a flipset keeps its items and table and goes on as it would have. *)
Theorem C123_tables : forall E svs srt s i f ops, ws_reachable E svs srt s -> holds s i (TFlipset f) -> Forall (elsewhere i) ops ->
  exists f', holds (ws_run E svs srt s ops) i (TFlipset f') /\ f_items f' = f_items f /\ f_df f' = f_df f /\
    (forall order, snd (to_flat_df srt order f') = snd (to_flat_df srt order f)) /\
    (f_builder f <> None -> forall fuel total et ct f1 r, f_populate E (svs i) srt fuel total et ct f = Some (f1, r) ->
       exists f1', f_populate E (svs i) srt fuel total et ct f' = Some (f1', r) /\ f_items f1' = f_items f1 /\ f_df f1' = f_df f1).
Proof. exact c123_tables. Qed.
Print Assumptions C123_tables.
(** Calls on one object leave the action set and all other objects exactly as they are (but see the next theorem for the
    first populate of a flipset). *)
Theorem C123_use : forall E svs srt s o i t, ws_reachable E svs srt s -> mere_use s o -> elsewhere i o -> holds s i t ->
  ws_A (ws_step E svs srt s o) = ws_A s /\ holds (ws_step E svs srt s o) i t.
Proof. exact c123_use. Qed.
Print Assumptions C123_use.
(** Creations, whether they succeed or raise, and calls can change nothing of the action set but its flip directions. *)
Theorem C123_directions : forall E svs srt ops s, ws_reachable E svs srt s -> Forall no_edit ops -> only_directions_differ (ws_A s) (ws_A (ws_run E svs srt s ops)).
Proof. exact c123_directions. Qed.
Print Assumptions C123_directions.
Example C123_nonvacuous : exists A, aset_reachable env0 A /\ forall svs srt, let s := ws_run env0 svs srt {| ws_A := A; ws_things := [] |} three in
  exists b b' f, holds s 0 (TBuilder b) /\ holds s 1 (TAuditor b') /\ holds s 2 (TFlipset f) /\ f_builder f = None /\ exists e, nth_error (as_elems (ws_A s)) 0 = Some e /\ e_actionable e = false.
Proof. exact c123_case. Qed.

(** * C124.  The full property: once the caller has changed the action set, answers of existing objects respect the change.
      False for a builder with an individual and for a flipset that has been populated: feature "a" is made
      non-actionable, and the next answer changes it. *)
Theorem C124_fit_refuted : forall k ct, exists A x w t, aset_reachable env0 A /\ forall svs srt, sound_solver (svs 0%nat) -> finishing_solver (svs 0%nat) ->
  let s := ws_run env0 svs srt {| ws_A := A; ws_things := [] |} [WBuilder k (coef_args w t) ct (Some x); WAset (OIndexSet (IStr "a") "actionable" (PBool false))] in
  exists b b1 r e, holds s 0 (TBuilder b) /\ nth_error (as_names (ws_A s)) 0 = Some "a" /\ nth_error (as_elems (ws_A s)) 0 = Some e /\ e_actionable e = false /\
    fit (svs 0%nat) b = Ok (b1, Some r) /\ changes (s_actions r) 0.
Proof. exact c124_builder_ignored. Qed.
Print Assumptions C124_fit_refuted.
Theorem C124_populate_refuted : forall k ct, exists A x w t, aset_reachable env0 A /\ forall svs srt, sound_solver (svs 0%nat) -> finishing_solver (svs 0%nat) -> ok_sorter srt ->
  let s := ws_run env0 svs srt {| ws_A := A; ws_things := [] |} [WFlipset k x (coef_args w t); WUse 0 (RFlipset (FPopulate 5 (Some 1%nat) DistinctSubsets ct)); WAset (OIndexSet (IStr "a") "actionable" (PBool false))] in
  exists f f' e l r, holds s 0 (TFlipset f) /\ nth_error (as_names (ws_A s)) 0 = Some "a" /\ nth_error (as_elems (ws_A s)) 0 = Some e /\ e_actionable e = false /\
    f_populate env0 (svs 0%nat) srt 5 None DistinctSubsets ct f = Some (f', Ok tt) /\ f_items f' = f_items f ++ map filed l /\ In r l /\ changes (s_actions r) 0.
Proof. exact c124_flipset_ignored. Qed.
Print Assumptions C124_populate_refuted.
(** Followed by builders once an individual is assigned (again) after the change, ... *)
Theorem C124_reassigned_partial : forall E svs srt s i b x b0 l b1 r, ok_env E -> sound_solver (svs i) -> ws_reachable E svs srt s -> holds s i (TBuilder b) ->
  set_x E b x = (b0, Ok tt) -> session (svs i) b0 l b1 -> In r l ->
  permitted_action (ws_A s) x (s_actions r) /\ on_side (as_y (ws_A s)) (score (bd_w b) (bd_t b) (vadd x (s_actions r))).
Proof. exact c124_reassigned. Qed.
Print Assumptions C124_reassigned_partial.
(** ... by auditors at once, ... *)
Theorem C124_audits_partial : forall (I : Type) E svs srt s i b (X : list (I * list Qc)) y b' out, ok_env E -> sound_solver (svs i) -> finishing_solver (svs i) -> ws_reachable E svs srt s -> holds s i (TAuditor b) ->
  audit E (svs i) b (table_of X) y = (b', Ok out) ->
  Forall2 (fun p q => forall c, snd q = Some (true, c) ->
    exists a cs m, c = Fin m /\ permitted_action (ws_A s) (snd p) a /\ (1 <= n_changed a)%nat /\ on_side (as_y (ws_A s)) (score (bd_w b) (bd_t b) (vadd (snd p) a)) /\
      action_costs E CMax (ws_A s) (snd p) a cs /\ largest cs m) X out.
Proof. exact @c124_auditor. Qed.
Print Assumptions C124_audits_partial.
(** ... and by flipsets that have not been populated yet. *)
Theorem C124_first_populate_partial : forall E svs srt s i f fuel total et ct f', ok_env E -> sound_solver (svs i) -> ok_sorter srt -> ws_reachable E svs srt s -> holds s i (TFlipset f) -> f_builder f = None ->
  denied (as_y (ws_A s)) (score (f_w f) (f_t f) (f_x f)) -> scalar_keys (f_by f) -> total <> Some 0%nat -> (2 ^ as_len (ws_A s) < fuel)%nat ->
  f_populate E (svs i) srt fuel total et ct f = Some (f', Ok tt) ->
  exists l, f_items f' = f_items f ++ map filed l /\ forall r, In r l -> permitted_action (ws_A s) (f_x f) (s_actions r) /\ on_side (as_y (ws_A s)) (score (f_w f) (f_t f) (vadd (f_x f) (s_actions r))).
Proof. exact c124_flipset. Qed.
Print Assumptions C124_first_populate_partial.
Example C124_nonvacuous : forall k ct, exists A x w t, aset_reachable env0 A /\ forall svs srt, sound_solver (svs 0%nat) -> finishing_solver (svs 0%nat) ->
  let s := ws_run env0 svs srt {| ws_A := A; ws_things := [] |} [WBuilder k (coef_args w t) ct (Some x); WAset (OIndexSet (IStr "a") "actionable" (PBool false))] in
  exists b b0 b1 r, holds s 0 (TBuilder b) /\ set_x env0 b x = (b0, Ok tt) /\ fit (svs 0%nat) b0 = Ok (b1, Some r) /\ changes (s_actions r) 1.
Proof. exact c124_followed_case. Qed.
