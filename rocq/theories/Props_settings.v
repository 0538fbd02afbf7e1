(** C118: accepted settings are the ones asked for. *)
From Verif Require Import Proofs_num Spec_settings Proofs_settings.
#[local] Open Scope string_scope.
#[local] Open Scope list_scope.
#[local] Open Scope Qc_scope.

(** * C118.  The full property: an assignment to a setting of a feature is accepted exactly when the value is one of the
      documented ones, the setting then has that value, and nothing else changes.  False of the code: actionable = [False]
      is accepted and makes the feature actionable. *)
Theorem C118_list_refuted : forall e, elem_setattr "actionable" (PList [PBool false]) e = Ok (with_actionable e true).
Proof. reflexivity. Qed.
Print Assumptions C118_list_refuted.
(** What holds for values that are not lists. *)
Theorem C118_actionable_partial : forall e v e', plain v ->
  elem_setattr "actionable" v e = Ok e' <-> exists b, truth v b /\ e' = with_actionable e b.
Proof. exact actionable_set. Qed.
Print Assumptions C118_actionable_partial.
Theorem C118_step_direction : forall e v e', plain v ->
  elem_setattr "step_direction" v e = Ok e' <-> exists q s, numeric v q /\ sign_of q s /\ e' = with_step_dir e s.
Proof. exact step_direction_set. Qed.
Print Assumptions C118_step_direction.
Theorem C118_flip_direction : forall e v e', plain v ->
  elem_setattr "flip_direction" v e = Ok e' <-> exists q s, numeric v q /\ sign_of q s /\ e' = with_flip e (Some s).
Proof. exact flip_direction_set. Qed.
Print Assumptions C118_flip_direction.
Theorem C118_step_type : forall e v e',
  elem_setattr "step_type" v e = Ok e' <-> (v = PStr "relative" /\ e' = with_step_type e Relative) \/ (v = PStr "absolute" /\ e' = with_step_type e AbsoluteStep).
Proof. exact step_type_set. Qed.
Print Assumptions C118_step_type.
Theorem C118_step_size : forall e v e', ~ infinite v ->
  elem_setattr "step_size" v e = Ok e' <-> exists q, py_number v q /\ 0 < q /\ (e_step_type e = Relative -> q <= 1) /\ e' = with_step_size e q.
Proof. exact step_size_set. Qed.
Print Assumptions C118_step_size.
(** None stands for the type inferred from the data (C03). *)
Theorem C118_variable_type : forall e v e',
  elem_setattr "variable_type" v e = Ok e' <-> exists t, (v = PType t \/ (v = PNone /\ t = determine_variable_type (e_values e))) /\ e' = with_vtype e t.
Proof. exact variable_type_set. Qed.
Print Assumptions C118_variable_type.
(** The arguments of the constructor. *)
Theorem C118_created : forall name values bounds vt act st sd ss e,
  mk_element name values bounds vt act st sd ss = Ok e ->
  (forall b, truth act b -> e_actionable e = b) /\ (forall t, vt = PType t -> e_vtype e = t) /\
  (forall q s, numeric sd q -> sign_of q s -> e_step_dir e = s) /\
  (st = PStr "relative" -> e_step_type e = Relative) /\ (st = PStr "absolute" -> e_step_type e = AbsoluteStep) /\
  (forall q, py_number ss q -> e_step_size e = q).
Proof. exact created_settings. Qed.
Print Assumptions C118_created.
Example C118_case : truth (PFloat (Fin 0)) false /\ numeric (PInt (-3)) (- qz 3) /\ sign_of (- qz 3) (-1) /\ py_number (PFloat (Fin (qfrac 1 4))) (qfrac 1 4) /\
  ok_and (mk_element "age" [qz 20; qz 33; qz 60] (PTuple [PInt 20; PInt 60]) PNone (PFloat (Fin 0)) (PStr "relative") (PInt (-3)) (PFloat (Fin (qfrac 1 4))))
    (fun e => negb (e_actionable e) && Z.eqb (e_step_dir e) (-1) && (e_step_size e =? qfrac 1 4)) = true.
Proof.
  split; [reflexivity|]. split; [cbn [numeric]; apply Qc_is_canon; reflexivity|]. split; [right; right; split; [apply qlt_iff; reflexivity|reflexivity]|].
  split; [reflexivity|]. vm_compute. reflexivity.
Qed.
