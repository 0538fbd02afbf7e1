(** Theorem C129: allowing more never makes the answer dearer. *)
From Verif Require Import Spec_widen Spec_cheaper Proofs_concrete Proofs_scen Proofs_widen Proofs_cheaper Proofs_cheaper2.
#[local] Open Scope list_scope.
#[local] Open Scope Qc_scope.

(** * C129: the price of allowing more.
      False for the cost type 'max' (which audits use): the tie-breaking term can prefer an action with a higher
      maximum but fewer changes, as soon as such an action becomes available.  Here one feature is made actionable and the
      cost of the answer rises. *)
Theorem C129_max_refuted : forall k, exists E b b' x b0 b0' o, ok_env E /\ density E /\ (forall sv, assigned E sv b x b0) /\ (forall sv, assigned E sv b' x b0') /\ bd_kind b = k /\ relaxing o /\ bd_A b' = aset_step E (bd_A b) o /\ bd_w b' = bd_w b /\ bd_t b' = bd_t b /\
  bd_cost b = CMax /\ bd_cost b' = CMax /\ bd_max b' = bd_max b /\ plain_setup E b x /\ regular E (bd_A b) x /\ plain_setup E b' x /\ regular E (bd_A b') x /\
  forall sv, sound_solver sv -> finishing_solver sv -> exists b1 s b1' s', fit sv b0 = Ok (b1, Some s) /\ fit sv b0' = Ok (b1', Some s') /\ s_cost s < s_cost s'.
Proof. exact dearer. Qed.
Print Assumptions C129_max_refuted.
(** True for 'total' and 'local' costs.  Missing from the full property: 'max' (false, above) and the situations in which C29 itself fails ([good_setup], [regular]). *)
Theorem C129_sums_partial : forall E sv sv' b b' x b0 b0' b1 s, ok_env E -> sound_solver sv -> sound_solver sv' -> finishing_solver sv' -> density E -> log_ok E (bd_cost b) ->
  assigned E sv b x b0 -> assigned E sv' b' x b0' -> allows_more (bd_A b) (bd_A b') -> same_prices E (bd_A b) (bd_A b') ->
  bd_w b' = bd_w b -> bd_t b' = bd_t b -> bd_cost b' = bd_cost b -> (bd_max b <= bd_max b')%Z ->
  orderly E (bd_A b) (bd_w b) x -> flips_match (bd_A b) (bd_w b) -> good_setup E b' x -> regular E (bd_A b') x ->
  fit sv b0 = Ok (b1, Some s) -> bd_cost b <> CMax ->
  exists b1' s', fit sv' b0' = Ok (b1', Some s') /\ s_cost s' <= s_cost s.
Proof. exact cheaper_sum. Qed.
Print Assumptions C129_sums_partial.
(** For 'max': if the cost of the answer does not fall, the sum of the costs of its changes does not rise; if that sum does not fall, the cost does not rise. *)
Theorem C129_max_partial : forall E sv sv' b b' x b0 b0' b1 s, ok_env E -> sound_solver sv -> finishing_solver sv -> sound_solver sv' -> finishing_solver sv' -> density E -> log_ok E (bd_cost b) ->
  assigned E sv b x b0 -> assigned E sv' b' x b0' -> allows_more (bd_A b) (bd_A b') -> same_prices E (bd_A b) (bd_A b') ->
  bd_w b' = bd_w b -> bd_t b' = bd_t b -> bd_cost b' = bd_cost b -> (bd_max b <= bd_max b')%Z ->
  orderly E (bd_A b) (bd_w b) x -> flips_match (bd_A b) (bd_w b) -> good_setup E b' x -> regular E (bd_A b') x ->
  fit sv b0 = Ok (b1, Some s) -> bd_cost b = CMax ->
  exists b1' s', fit sv' b0' = Ok (b1', Some s') /\ (s_cost s <= s_cost s' -> qsum (s_costs s') <= qsum (s_costs s)) /\ (qsum (s_costs s) <= qsum (s_costs s') -> s_cost s' <= s_cost s).
Proof. exact cheaper_max. Qed.
Print Assumptions C129_max_partial.
(** Making features actionable or free in direction and removing constraints allows more and keeps the prices. *)
Theorem C129_edits : forall E A ops, Forall relaxing ops -> allows_more A (aset_run E A ops) /\ same_prices E A (aset_run E A ops).
Proof. intros E A ops H. split; [now apply relaxing_run|now apply relaxing_run_prices]. Qed.
Print Assumptions C129_edits.
(** One feature is made actionable and the answer becomes strictly cheaper. *)
Example C129_case : forall k ct, ct <> CMax -> exists b b' x b0 b0' o, (forall sv, assigned env0 sv b x b0) /\ (forall sv, assigned env0 sv b' x b0') /\ bd_kind b = k /\ bd_cost b = ct /\ relaxing o /\ bd_A b' = aset_step env0 (bd_A b) o /\ bd_w b' = bd_w b /\ bd_t b' = bd_t b /\
  bd_cost b' = bd_cost b /\ bd_max b' = bd_max b /\ good_setup env0 b x /\ good_setup env0 b' x /\ regular env0 (bd_A b') x /\
  forall sv, sound_solver sv -> finishing_solver sv -> exists b1 s b1' s', fit sv b0 = Ok (b1, Some s) /\ fit sv b0' = Ok (b1', Some s') /\ s_cost s' < s_cost s.
Proof. exact cheaper_case. Qed.
