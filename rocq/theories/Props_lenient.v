(** Theorem C130: a more lenient classifier. *)
From Verif Require Import Spec_lenient Proofs_concrete Proofs_scen Proofs_lenient Proofs_lenient2.
#[local] Open Scope list_scope.
#[local] Open Scope Qc_scope.

(** * C130: moving the intercept towards the desired outcome.
      Prices: false for the cost type 'max' (which audits use), for the reason given under C30/C129: an action that becomes sufficient can have
      fewer changes but a higher maximum. *)
Theorem C130_max_refuted : forall k, exists E b b' x b0 b0', ok_env E /\ density E /\ (forall sv, assigned E sv b x b0) /\ (forall sv, assigned E sv b' x b0') /\ bd_kind b = k /\ bd_kind b' = k /\ bd_A b' = bd_A b /\ bd_w b' = bd_w b /\ at_least_as_lenient (as_y (bd_A b)) (bd_t b) (bd_t b') /\
  bd_cost b = CMax /\ bd_cost b' = CMax /\ bd_max b' = bd_max b /\ plain_setup E b x /\ plain_setup E b' x /\ regular E (bd_A b) x /\
  forall sv, sound_solver sv -> finishing_solver sv -> exists b1 s b1' s', fit sv b0 = Ok (b1, Some s) /\ fit sv b0' = Ok (b1', Some s') /\ s_cost s < s_cost s'.
Proof. exact lenient_dearer. Qed.
Print Assumptions C130_max_refuted.
(** Recourse is never lost, whatever the cost type.  Missing from the full property (here and below): individuals outside the usual setting ([good_setup]; false by C34). *)
Theorem C130_never_lost_partial : forall E sv sv' b b' x b0 b0' b1 s, ok_env E -> sound_solver sv -> sound_solver sv' -> finishing_solver sv' -> density E -> log_ok E (bd_cost b) ->
  assigned E sv b x b0 -> assigned E sv' b' x b0' -> bd_A b' = bd_A b -> bd_w b' = bd_w b -> at_least_as_lenient (as_y (bd_A b)) (bd_t b) (bd_t b') ->
  bd_cost b' = bd_cost b -> (bd_max b <= bd_max b')%Z -> good_setup E b' x ->
  fit sv b0 = Ok (b1, Some s) -> exists b1' s', fit sv' b0' = Ok (b1', Some s').
Proof. exact lenient_exists. Qed.
Print Assumptions C130_never_lost_partial.
(** 'total' and 'local' costs never rise. *)
Theorem C130_sums_partial : forall E sv sv' b b' x b0 b0' b1 s, ok_env E -> sound_solver sv -> sound_solver sv' -> finishing_solver sv' -> density E -> log_ok E (bd_cost b) ->
  assigned E sv b x b0 -> assigned E sv' b' x b0' -> bd_A b' = bd_A b -> bd_w b' = bd_w b -> at_least_as_lenient (as_y (bd_A b)) (bd_t b) (bd_t b') ->
  bd_cost b' = bd_cost b -> (bd_max b <= bd_max b')%Z -> good_setup E b' x ->
  fit sv b0 = Ok (b1, Some s) -> regular E (bd_A b') x -> bd_cost b <> CMax ->
  exists b1' s', fit sv' b0' = Ok (b1', Some s') /\ s_cost s' <= s_cost s.
Proof. exact lenient_sum. Qed.
Print Assumptions C130_sums_partial.
(** For 'max', the cost and the sum of the costs of the changes cannot both get worse. *)
Theorem C130_max_partial : forall E sv sv' b b' x b0 b0' b1 s, ok_env E -> sound_solver sv -> finishing_solver sv -> sound_solver sv' -> finishing_solver sv' -> density E -> log_ok E (bd_cost b) ->
  assigned E sv b x b0 -> assigned E sv' b' x b0' -> bd_A b' = bd_A b -> bd_w b' = bd_w b -> at_least_as_lenient (as_y (bd_A b)) (bd_t b) (bd_t b') ->
  bd_cost b' = bd_cost b -> (bd_max b <= bd_max b')%Z -> good_setup E b' x ->
  fit sv b0 = Ok (b1, Some s) -> regular E (bd_A b') x -> bd_cost b = CMax ->
  exists b1' s', fit sv' b0' = Ok (b1', Some s') /\ (s_cost s <= s_cost s' -> qsum (s_costs s') <= qsum (s_costs s)) /\ (qsum (s_costs s) <= qsum (s_costs s') -> s_cost s' <= s_cost s).
Proof. exact lenient_max. Qed.
Print Assumptions C130_max_partial.
(** Audits of the same table: whoever had recourse either no longer needs it or still has it. *)
Theorem C130_audits_partial : forall (I : Type) E sv sv' k k' A w t t' b b' (X : list (I * list Qc)) y c out c' out', ok_env E -> sound_solver sv -> sound_solver sv' -> finishing_solver sv -> finishing_solver sv' -> density E -> aset_reachable E A -> current_percentiles A ->
  auditor_used E sv k A w t b -> auditor_used E sv' k' A w t' b' -> (0 <? y)%Z = (0 <? as_y A)%Z -> at_least_as_lenient y t t' ->
  audit E sv b (table_of X) y = (c, Ok out) -> audit E sv' b' (table_of X) y = (c', Ok out') ->
  forall i r l l', nth_error X i = Some r -> nth_error out i = Some l -> nth_error out' i = Some l' -> orderly E A w (snd r) -> denied y (score w t (snd r)) ->
    (exists v, snd l = Some (true, Fin v)) -> on_side y (score w t' (snd r)) \/ exists v', snd l' = Some (true, Fin v').
Proof. exact @lenient_audit. Qed.
Print Assumptions C130_audits_partial.
(** A more lenient intercept makes the answer strictly cheaper. *)
Example C130_case : forall k ct, ct <> CMax -> exists b b' x b0 b0', (forall sv, assigned env0 sv b x b0) /\ (forall sv, assigned env0 sv b' x b0') /\ bd_kind b = k /\ bd_kind b' = k /\ bd_A b' = bd_A b /\ bd_w b' = bd_w b /\ at_least_as_lenient (as_y (bd_A b)) (bd_t b) (bd_t b') /\
  bd_cost b = ct /\ bd_cost b' = ct /\ bd_max b' = bd_max b /\ plain_setup env0 b x /\ plain_setup env0 b' x /\ regular env0 (bd_A b) x /\
  forall sv, sound_solver sv -> finishing_solver sv -> exists b1 s b1' s', fit sv b0 = Ok (b1, Some s) /\ fit sv b0' = Ok (b1', Some s') /\ s_cost s' < s_cost s.
Proof. exact lenient_cheaper. Qed.
