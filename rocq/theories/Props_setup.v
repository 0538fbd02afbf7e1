(** Theorem C132: out of the box. *)
From Verif Require Import Spec_setup Proofs_concrete Proofs_scen Proofs_audit4 Proofs_setup.
#[local] Open Scope list_scope.
#[local] Open Scope Qc_scope.

(** * C132: set up an action set from data, edit it, use it.
      No side condition on grids, percentiles or constraints is left: whoever creates an action set from data, edits it as [set_up] describes and hands it to
      an auditor gets, line by line, a blank for those who have the outcome; for those on the wrong side of the boundary, the cost of a permitted action
      that reaches the right side, or [(False, inf)] and no permitted action reaches it. *)
Theorem C132_audit : forall (I : Type) E sv k X A w t b (rows : list (I * list Qc)) y b' out, ok_env E -> sound_solver sv -> finishing_solver sv -> density E ->
  set_up E X A -> auditor_used E sv k A w t b -> (0 <? y)%Z = (0 <? as_y A)%Z -> (forall p, In p rows -> like_rows X (snd p)) ->
  audit E sv b (table_of rows) y = (b', Ok out) ->
  Forall2 (fun p q => fst q = fst p /\ (snd q = None <-> has_outcome y (score w t (snd p))) /\
    (denied y (score w t (snd p)) ->
      (exists a cs c, snd q = Some (true, Fin c) /\ permitted_action A (snd p) a /\ on_side y (score w t (vadd (snd p) a)) /\ action_costs E CMax A (snd p) a cs /\ largest cs c /\ 0 < c) \/
      (snd q = Some (false, PosInf) /\ forall a, permitted_action A (snd p) a -> ~ on_side y (score w t (vadd (snd p) a))))) rows out.
Proof. exact @setup_audit. Qed.
Print Assumptions C132_audit.
(** The rows of the data itself are such individuals. *)
Theorem C132_data : forall (X : list (list Qc)) r, In r X -> like_rows X r.
Proof. exact rows_like_rows. Qed.
Print Assumptions C132_data.
(** The same for a builder created for the action set, unless the set was aligned with another classifier (C55): the fit of a denied individual returns a
    permitted action on the right side, or nothing and there is none. *)
Theorem C132_fit : forall E sv k X A args ct w t x b0, ok_env E -> sound_solver sv -> finishing_solver sv -> density E -> log_ok E ct ->
  set_up E X A -> parse_classifier_args args = Ok (w, t) -> alignment_known A = false \/ flips_match A w -> mk_builder E k A args ct (Some x) = Ok b0 ->
  like_rows X x -> denied (as_y A) (score w t x) ->
  exists b1 r, fit sv b0 = Ok (b1, r) /\
    match r with
    | Some s => permitted_action A x (s_actions s) /\ on_side (as_y A) (score w t (vadd x (s_actions s)))
    | None => forall a, permitted_action A x a -> ~ on_side (as_y A) (score w t (vadd x a))
    end.
Proof. exact setup_fit. Qed.
Print Assumptions C132_fit.
(** What the vocabulary hides: such sets are reachable, unconstrained, their percentiles come from the grids shown, and individuals like the rows fit the grids. *)
Theorem C132_set_up : forall E X A, set_up E X A -> aset_reachable E A /\ current_percentiles A /\ unconstrained A /\ forall x, like_rows X x -> fits_grids A x.
Proof. exact set_up_props. Qed.
Print Assumptions C132_set_up.
(** An action set from four rows, its first feature then fixed and the grid of the second recomputed; two lines for the same denied individual, one blank. *)
Example C132_case : exists A b, set_up env0 tab2 A /\ auditor_created env0 PyMIP A [z 1; z 1] (- z 3) b /\ as_y A = 1%Z /\ (forall p, In p X_case -> like_rows tab2 (snd p)) /\
  forall sv, sound_solver sv -> finishing_solver sv -> exists b' v, audit env0 sv b (table_of X_case) 1 = (b', Ok [(5%nat, Some (true, v)); (7%nat, None); (9%nat, Some (true, v))]).
Proof. exact setup_case. Qed.
Example C132_like : like_rows tab2 [z 9; - z 4] /\ ~ like_rows tab2 [qfrac 1 2; z 0].
Proof. exact like_case. Qed.
