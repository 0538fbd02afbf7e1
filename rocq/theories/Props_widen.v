(** Theorem C105: allowing more never takes recourse away. *)
From Verif Require Import Spec_widen Proofs_concrete Proofs_assign3 Proofs_widen.
#[local] Open Scope list_scope.
#[local] Open Scope Qc_scope.

(** * C105: allowing more changes.
      False of wider bounds: the grid starts at the lower bound, so lowering the bound moves every value on it.  Here 0..10
      with step 4 offers 0, 4, 8, 12 and -1..10 offers -1, 3, 7, 11; the first reaches the required 12, the second
      does not. *)
Theorem C105_wider_bounds_refuted : exists b b' x b0 b0', (forall sv, assigned env0 sv b x b0) /\ (forall sv, assigned env0 sv b' x b0') /\
  Forall2 wider_bounds (as_elems (bd_A b)) (as_elems (bd_A b')) /\ as_names (bd_A b') = as_names (bd_A b) /\ as_y (bd_A b') = as_y (bd_A b) /\ bd_w b' = bd_w b /\ bd_t b' = bd_t b /\ bd_cost b' = bd_cost b /\ bd_min b' = bd_min b /\ bd_max b' = bd_max b /\
  plain_setup env0 b x /\ fits_grids (bd_A b) x /\ plain_setup env0 b' x /\ fits_grids (bd_A b') x /\
  forall sv, sound_solver sv -> finishing_solver sv -> (exists b1 s, fit sv b0 = Ok (b1, Some s)) /\ exists b1, fit sv b0' = Ok (b1, None).
Proof. exact widen_refuted. Qed.
Print Assumptions C105_wider_bounds_refuted.
(** True whenever no value is dropped from a grid.  Missing from the full property: wider bounds that shift the grid (false, above) and
    individuals outside the usual setting ([good_setup]: false by C34) or features that become unmovable ([no_coarser]: false by C27). *)
Theorem C105_widening_partial : forall E E' sv sv' b b' x b0 b0' b1 s, ok_env E -> ok_env E' -> sound_solver sv -> sound_solver sv' -> finishing_solver sv' -> density E' -> log_ok E' (bd_cost b') ->
  assigned E sv b x b0 -> assigned E' sv' b' x b0' -> allows_more (bd_A b) (bd_A b') -> bd_w b' = bd_w b -> bd_t b' = bd_t b -> (bd_max b <= bd_max b')%Z ->
  orderly E (bd_A b) (bd_w b) x -> flips_match (bd_A b) (bd_w b) -> good_setup E' b' x -> no_coarser (bd_A b) (bd_A b') x ->
  fit sv b0 = Ok (b1, Some s) -> exists b1' s', fit sv' b0' = Ok (b1', Some s').
Proof. exact widen_thm. Qed.
Print Assumptions C105_widening_partial.
(** The same for audits: nobody with recourse loses it. *)
Theorem C105_audits_partial : forall (I : Type) E E' sv sv' k k' A A' w t b b' (X : list (I * list Qc)) y c out c' out', ok_env E -> ok_env E' -> sound_solver sv -> sound_solver sv' -> finishing_solver sv -> finishing_solver sv' ->
  density E -> density E' -> aset_reachable E A -> aset_reachable E' A' -> current_percentiles A -> current_percentiles A' -> auditor_used E sv k A w t b -> auditor_used E' sv' k' A' w t b' ->
  (0 <? y)%Z = (0 <? as_y A)%Z -> allows_more A A' -> audit E sv b (table_of X) y = (c, Ok out) -> audit E' sv' b' (table_of X) y = (c', Ok out') ->
  forall i r l l', nth_error X i = Some r -> nth_error out i = Some l -> nth_error out' i = Some l' -> orderly E A w (snd r) -> orderly E' A' w (snd r) -> no_coarser A A' (snd r) ->
    denied y (score w t (snd r)) -> (exists v, snd l = Some (true, Fin v)) -> exists v', snd l' = Some (true, Fin v').
Proof. exact @widen_audit. Qed.
Print Assumptions C105_audits_partial.
(** Edits that allow more: making features actionable or free in direction, removing constraints. *)
Theorem C105_edits : forall E A ops, Forall relaxing ops -> allows_more A (aset_run E A ops).
Proof. exact relaxing_run. Qed.
Print Assumptions C105_edits.
(** Wider bounds, for absolute steps, as long as the lowest value is kept (as when only the upper bound is raised). *)
Theorem C105_grids : forall e e' g g', wider_bounds e e' -> e_step_type e = AbsoluteStep -> is_grid_of e g -> is_grid_of e' g' ->
  (forall v, nth_error g 0 = Some v -> In v g') -> forall v, In v g -> In v g'.
Proof. exact wider_grid. Qed.
Print Assumptions C105_grids.
Example C105_case : exists b b' x b0 b0', (forall sv, assigned env0 sv b x b0) /\ (forall sv, assigned env0 sv b' x b0') /\ relaxing op67 /\ bd_A b' = aset_step env0 (bd_A b) op67 /\ allows_more (bd_A b) (bd_A b') /\
  (n_actionable_features (bd_A b) < n_actionable_features (bd_A b'))%nat /\ bd_w b' = bd_w b /\ bd_t b' = bd_t b /\ (bd_max b <= bd_max b')%Z /\
  orderly env0 (bd_A b) (bd_w b) x /\ flips_match (bd_A b) (bd_w b) /\ good_setup env0 b' x /\ no_coarser (bd_A b) (bd_A b') x /\
  forall sv, sound_solver sv -> finishing_solver sv -> exists b1 s, fit sv b0 = Ok (b1, Some s).
Proof. exact widen_case. Qed.
