(** Theorems C106 and C107: the three interfaces agree with each other, and with themselves when asked again. *)
From Verif Require Import Spec_compare Spec_audit Spec_flipset Proofs_concrete Proofs_scen Proofs_builder8 Proofs_audit4 Proofs_agree Proofs_again.
#[local] Open Scope list_scope.
#[local] Open Scope Qc_scope.

(** * C106: audits, builders and flipsets agree.
      False of an individual who has nothing left to change: the audit reports that there is no recourse, and populate on a
      flipset raises KeyError for the cost types 'local' (its default) and 'total'. *)
Theorem C106_nothing_to_change_refuted : forall ct, ct <> CMax -> exists A b f, aset_reachable env0 A /\ auditor_created env0 PyMIP A [z 1; z 1] (- z 8) b /\ unconstrained A /\ current_percentiles A /\ alignment_known A = false /\ as_y A = 1%Z /\ fits_grids A x33 /\ denied 1 (score [z 1; z 1] (- z 8) x33) /\
  flipset_created PyMIP A x33 [z 1; z 1] (- z 8) None f /\
  forall sv, sound_solver sv -> finishing_solver sv -> (exists b', audit env0 sv b (table_of X33) 1 = (b', Ok [(0%nat, Some (false, PosInf))])) /\
    forall srt fuel total et, f_populate env0 sv srt fuel total et ct f = Some (f, Err KeyError).
Proof. exact agree_refuted. Qed.
Print Assumptions C106_nothing_to_change_refuted.
(** Whenever populate succeeds, it files items exactly for those whom the audit gave recourse: with any two solvers, back ends, and
    any cost type, enumeration type and number of items.  Missing: data tables replaced since the grids were made (C52). *)
Theorem C106_verdicts_partial : forall (I : Type) E sv sv' srt k k' A w t b (X : list (I * list Qc)) y b' out fuel total et ct, ok_env E -> sound_solver sv -> finishing_solver sv -> sound_solver sv' -> finishing_solver sv' -> ok_sorter srt -> density E -> log_ok E ct ->
  aset_reachable E A -> current_percentiles A -> alignment_known A = false \/ flips_match A w -> auditor_used E sv k A w t b -> (0 <? y)%Z = (0 <? as_y A)%Z ->
  audit E sv b (table_of X) y = (b', Ok out) -> total <> Some 0%nat -> (2 ^ as_len A < fuel)%nat ->
  Forall2 (fun p q => orderly E A w (snd p) -> denied y (score w t (snd p)) ->
    forall f f', flipset_created k' A (snd p) w t None f -> f_populate E sv' srt fuel total et ct f = Some (f', Ok tt) ->
      ((exists c, snd q = Some (true, Fin c)) <-> f_items f' <> []) /\ (snd q = Some (false, PosInf) <-> f_items f' = [])) X out.
Proof. exact @agree_verdict. Qed.
Print Assumptions C106_verdicts_partial.
(** With one solver that answers equal questions equally, an audit's line is what a new builder with cost type 'max' answers for that
    individual: the verdict and the cost, whoever was audited before. *)
Theorem C106_builder : forall (I : Type) E sv k A w t b (X : list (I * list Qc)) y b' out, stateless sv ->
  aset_reachable E A -> alignment_known A = false \/ flips_match A w -> auditor_used E sv k A w t b ->
  audit E sv b (table_of X) y = (b', Ok out) ->
  Forall2 (fun p q => denied y (score w t (snd p)) -> forall b0 b1 r, mk_builder E k A (coef_args w t) CMax (Some (snd p)) = Ok b0 -> fit sv b0 = Ok (b1, r) ->
    snd q = Some (match r with Some s => (true, Fin (s_cost s)) | None => (false, PosInf) end)) X out.
Proof. exact @agree_builder. Qed.
Print Assumptions C106_builder.
(** ... and the first item of a flipset populated with that cost type has the cost the audit reports. *)
Theorem C106_costs : forall (I : Type) E sv srt k A w t b (X : list (I * list Qc)) y b' out fuel total et, ok_env E -> sound_solver sv -> stateless sv -> ok_sorter srt ->
  aset_reachable E A -> alignment_known A = false \/ flips_match A w -> auditor_used E sv k A w t b -> (0 <? y)%Z = (0 <? as_y A)%Z ->
  audit E sv b (table_of X) y = (b', Ok out) -> total <> Some 0%nat -> (2 ^ as_len A < fuel)%nat ->
  Forall2 (fun p q => denied y (score w t (snd p)) -> forall f f', flipset_created k A (snd p) w t None f -> f_populate E sv srt fuel total et CMax f = Some (f', Ok tt) ->
    (snd q = Some (false, PosInf) /\ f_items f' = []) \/ exists v vs, f_items f' = v :: vs /\ snd q = Some (true, fi_cost v)) X out.
Proof. exact @agree_flipset. Qed.
Print Assumptions C106_costs.
(** Both verdicts occur. *)
Example C106_case : forall t0 (fe : bool), (t0 = - z 3 /\ fe = true) \/ (t0 = - z 7 /\ fe = false) -> exists A b f, aset_reachable env0 A /\ auditor_created env0 PyMIP A [z 1; z 1] t0 b /\ unconstrained A /\ current_percentiles A /\ alignment_known A = false /\ as_y A = 1%Z /\ fits_grids A x01 /\ denied 1 (score [z 1; z 1] t0 x01) /\
  flipset_created PyMIP A x01 [z 1; z 1] t0 None f /\
  forall sv, sound_solver sv -> finishing_solver sv -> (exists b' v, audit env0 sv b (table_of [(5%nat, x01)]) 1 = (b', Ok [(5%nat, Some (fe, v))])) /\
    forall srt fuel et ct, ok_sorter srt -> (2 ^ as_len A < fuel)%nat -> exists f', f_populate env0 sv srt fuel None et ct f = Some (f', Ok tt).
Proof. exact agree_case. Qed.

(** * C107: asking again gives the same answer.
      [enumeration sv b1 [] b2]: between [b1] and [b2] only calls that hand out no item: any number of fit, and populate that finds nothing.
      Verdict and optimal value are the same although the solver may answer differently at each call. *)
Theorem C107_again : forall E sv b x b0 l b1 b2, ok_env E -> sound_solver sv -> finishing_solver sv -> assigned E sv b x b0 -> enumeration sv b0 l b1 -> enumeration sv b1 [] b2 ->
  answers_related (same_answer (bd_cost b)) sv sv b1 b2.
Proof. exact again_thm. Qed.
Print Assumptions C107_again.
(** With a solver that answers equal questions equally, so are the items themselves and all enumerations. *)
Theorem C107_identical : forall sv b1 b2, stateless sv -> enumeration sv b1 [] b2 ->
  (forall c r, fit sv b1 = Ok (c, r) -> exists c', fit sv b2 = Ok (c', r)) /\
  forall fuel total et c l, populate sv fuel total et b1 = Some (Ok (c, l)) -> exists c', populate sv fuel total et b2 = Some (Ok (c', l)).
Proof. exact again_same. Qed.
Print Assumptions C107_identical.
Example C107_case : exists b x b0, (forall sv, assigned env0 sv b x b0) /\ forall sv, sound_solver sv -> finishing_solver sv ->
  exists l b1 b2, enumeration sv b0 l b1 /\ length l = 1%nat /\ bd_calls b2 <> bd_calls b1 /\ enumeration sv b1 [] b2.
Proof. exact again_case. Qed.
