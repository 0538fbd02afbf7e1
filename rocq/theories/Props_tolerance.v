(** Theorems C97-C99, C121, C122: solvers that work with tolerances.  Everything before this file asks for exact answers ([sound_solver]);
    here the solver may be off by [d] everywhere. *)
From Verif Require Import Spec_tolerance Spec_audit Spec_flipset Proofs_concrete Proofs_scen Proofs_tol3 Proofs_tol4 Proofs_tol5 Proofs_tol6 Proofs_tol7 Proofs_tol8 Proofs_tol9 Proofs_tol10.
#[local] Open Scope list_scope.
#[local] Open Scope Qc_scope.

(** * C97: a small tolerance does not change what a returned action means, and does not hide recourse. *)
Theorem C97_tolerance : forall E sv b x b0 d M, ok_env E -> solver_within d sv -> assigned E sv b x b0 -> fine_for d (bd_A b) -> changes_up_to M (bd_A b) x ->
  exists b1 r, fit sv b0 = Ok (b1, r) /\
    match r with
    | Some s => exists g, stands_for d M b x s g /\ (flips_match (bd_A b) (bd_w b) -> orderly E (bd_A b) (bd_w b) x -> compliant (bd_A b) x g) /\
        (finishing_solver sv -> bd_cost b <> CMax -> density E -> log_ok E (bd_cost b) -> orderly E (bd_A b) (bd_w b) x -> flips_match (bd_A b) (bd_w b) -> regular E (bd_A b) x ->
         forall a, acceptable b x a -> exists cs, action_costs E (bd_cost b) (bd_A b) x a cs /\ s_cost s <= qsum cs + d)
    | None => finishing_solver sv -> density E -> log_ok E (bd_cost b) -> orderly E (bd_A b) (bd_w b) x -> flips_match (bd_A b) (bd_w b) -> regular E (bd_A b) x ->
        forall a, ~ acceptable b x a
    end.
Proof. exact tol_fit. Qed.
Print Assumptions C97_tolerance.
(** For 'max': the reported cost is, up to small errors, at least the largest cost of the action it stands for, and exceeds the largest cost of any other
    action that helps by at most one price step of some feature (as with exact solvers, C30). *)
Theorem C97_max_cost : forall E sv b x b0 d M K b1 s, ok_env E -> solver_within d sv -> assigned E sv b x b0 -> fine_for d (bd_A b) -> changes_up_to M (bd_A b) x ->
  bd_cost b = CMax -> prices_up_to E (bd_cost b) K (bd_A b) x -> fit sv b0 = Ok (b1, Some s) ->
  exists g cs m, stands_for d M b x s g /\ (flips_match (bd_A b) (bd_w b) -> orderly E (bd_A b) (bd_w b) x -> compliant (bd_A b) x g) /\
    action_costs E (bd_cost b) (bd_A b) x g cs /\ largest cs m /\ 0 < m /\ close_to d K (bd_A b) (s_costs s) cs /\ m <= s_cost s + d + cost_slack d K (bd_A b) /\
    (finishing_solver sv -> density E -> log_ok E (bd_cost b) -> good_setup E b x -> regular E (bd_A b) x ->
     forall a cs' m' j e xj u v c c', permitted_action (bd_A b) x a -> (Z.of_nat (n_changed a) <= bd_max b)%Z ->
       on_side (as_y (bd_A b)) (score (bd_w b) (bd_t b) (vadd x a)) -> compliant (bd_A b) x a ->
       action_costs E (bd_cost b) (bd_A b) x a cs' -> largest cs' m' ->
       nth_error (as_elems (bd_A b)) j = Some e -> nth_error x j = Some xj -> (exists wj, nth_error (bd_w b) j = Some wj /\ wj <> 0) ->
       permitted e xj u -> improving e xj u -> permitted e xj v -> improving e xj v ->
       move_cost E (bd_cost b) e xj u c -> move_cost E (bd_cost b) e xj v c' -> c < c' ->
       s_cost s <= m' + (c' - c) + d + cost_slack d K (bd_A b)).
Proof. exact tol_max. Qed.
Print Assumptions C97_max_cost.
(** "No recourse" is right about all actions on movable features, whatever the tolerance. *)
Theorem C97_no_recourse : forall E sv b x b0 d b1 a, ok_env E -> solver_within d sv -> finishing_solver sv -> density E -> log_ok E (bd_cost b) -> assigned E sv b x b0 -> fine_for d (bd_A b) -> good_setup E b x ->
  fit sv b0 = Ok (b1, None) -> permitted_action (bd_A b) x a -> movable_only (bd_A b) x a -> (Z.of_nat (n_changed a) <= bd_max b)%Z -> compliant (bd_A b) x a ->
  ~ on_side (as_y (bd_A b)) (score (bd_w b) (bd_t b) (vadd x a)).
Proof. exact tol_none. Qed.
Print Assumptions C97_no_recourse.
(** Exact solvers are solvers with any tolerance. *)
Theorem C97_exact : forall d sv, 0 <= d -> sound_solver sv -> solver_within d sv /\ whole_indicators sv.
Proof. intros d sv H S. split; [now apply sound_within|now apply sound_whole]. Qed.
Print Assumptions C97_exact.
Example C97_nonvacuous : forall k ct d, 0 <= d -> d <= qfrac 1 1000000 -> exists b b0, (forall sv, assigned env0 sv b [z 0; z 1] b0) /\ fine_for d (bd_A b) /\ changes_up_to (z 3) (bd_A b) [z 0; z 1] /\ bd_kind b = k /\ bd_cost b = ct /\
  prices_up_to env0 ct (z 10000000) (bd_A b) [z 0; z 1] /\ switches_off env0 (bd_A b) [z 0; z 1] /\
  flips_match (bd_A b) (bd_w b) /\ orderly env0 (bd_A b) (bd_w b) [z 0; z 1] /\ regular env0 (bd_A b) [z 0; z 1] /\ acceptable b [z 0; z 1] [z 2; z 0] /\
  (forall sv, sound_solver sv -> finishing_solver sv -> solver_within d sv /\ whole_indicators sv /\ exists b1 s, fit sv b0 = Ok (b1, Some s)).
Proof. exact tol_case. Qed.

(** * C98.  The full property: with a small tolerance populate still ends, and returns no item twice.  False of the code: an indicator
      of 1e-7, which a solver with tolerance 1e-6 may return, is not "close to 0" (np.isclose's 1e-8), so populate fails to exclude
      the item, returns it again and again, and never ends without a limit on the number of items. *)
Theorem C98_repeats_refuted : forall k et, exists sv b b0 b1 s, solver_within (qfrac 1 1000000) sv /\ finishing_solver sv /\ bd_kind b = k /\ assigned env0 sv b [z 0; z 1] b0 /\
  fine_for (qfrac 1 1000000) (bd_A b) /\ changes_up_to (z 3) (bd_A b) [z 0; z 1] /\ fit sv b0 = Ok (b1, Some s) /\
  (forall n, (0 < n)%nat -> exists b2, populate sv n (Some n) et b0 = Some (Ok (b2, repeat s n))) /\
  (forall fuel, populate sv fuel None et b0 = None).
Proof. exact tol_repeats. Qed.
Print Assumptions C98_repeats_refuted.
(** What holds: with a tolerance of at most 1e-8 populate ends; its items stand for permitted actions, none of which an earlier one rules out;
    and with a finishing solver and unless the limit was reached, every acceptable action is ruled out by one of them. *)
Theorem C98_populate_partial : forall E sv b x b0 d M fuel total et, ok_env E -> solver_within d sv -> d <= qfrac 1 100000000 -> assigned E sv b x b0 -> fine_for d (bd_A b) -> changes_up_to M (bd_A b) x ->
  total <> Some 0%nat -> (2 ^ as_len (bd_A b) < fuel)%nat ->
  exists b2 l gs, populate sv fuel total et b0 = Some (Ok (b2, l)) /\ (length l <= 2 ^ as_len (bd_A b))%nat /\ Forall2 (stands_for d M b x) l gs /\
    (forall n, total = Some n -> (length l <= n)%nat) /\
    ((bd_kind b = CPX -> et = DistinctSubsets -> switches_off E (bd_A b) x) ->
       forall i j g g', (i < j)%nat -> nth_error gs i = Some g -> nth_error gs j = Some g' -> ~ rules_out et g g') /\
    (finishing_solver sv -> density E -> log_ok E (bd_cost b) -> orderly E (bd_A b) (bd_w b) x -> flips_match (bd_A b) (bd_w b) -> regular E (bd_A b) x ->
       (bd_kind b = CPX -> switches_off E (bd_A b) x) -> total <> Some (length l) -> forall a, acceptable b x a -> exists g, In g gs /\ rules_out et g a).
Proof. exact tol_populate. Qed.
Print Assumptions C98_populate_partial.

(** * C99.  The full property: the reported cost of each feature is, up to small errors, that of the change reported for it.  False of the code however
      accurate the solver is: indicators that are not exactly 0 count as chosen (np.flatnonzero), so that the costs slip to other features. *)
Theorem C99_slipped_costs_refuted : forall k, exists sv b b0 b1 s, solver_within (qfrac 1 1000000000000) sv /\ finishing_solver sv /\ bd_kind b = k /\ assigned env0 sv b [z 0; z 1] b0 /\
  fine_for (qfrac 1 1000000000000) (bd_A b) /\ changes_up_to (z 3) (bd_A b) [z 0; z 1] /\ bd_cost b = CTotal /\ fit sv b0 = Ok (b1, Some s) /\
  s_actions s = [1; 0] /\ exists c, 0 < c /\ s_costs s = [0; c] /\ action_costs env0 CTotal (bd_A b) [z 0; z 1] [1; 0] [c; 0].
Proof. exact tol_misattributes. Qed.
Print Assumptions C99_slipped_costs_refuted.
(** What holds: with whole indicators the costs are exactly those of the action that the item stands for; for 'max' they are close to them in any case. *)
Theorem C99_costs_partial : forall E sv b x b0 d M b1 s, ok_env E -> solver_within d sv -> assigned E sv b x b0 -> fine_for d (bd_A b) -> changes_up_to M (bd_A b) x -> fit sv b0 = Ok (b1, Some s) ->
  exists g cs, stands_for d M b x s g /\ action_costs E (bd_cost b) (bd_A b) x g cs /\
    (whole_indicators sv -> bd_cost b <> CMax -> s_costs s = cs /\ s_cost s = qsum cs) /\
    (bd_cost b = CMax -> forall K, prices_up_to E (bd_cost b) K (bd_A b) x -> close_to d K (bd_A b) (s_costs s) cs).
Proof. exact tol_costs. Qed.
Print Assumptions C99_costs_partial.

(** * C121.  The full property: an audit by a solver with tolerances says "feasible" exactly of those whom some permitted action helps.  False: a solver
      with tolerance 1e-6 calls someone feasible whom no permitted action helps. *)
Theorem C121_verdict_refuted : forall k, exists sv A w t b x b' c, solver_within (qfrac 1 1000000) sv /\ finishing_solver sv /\ aset_reachable env0 A /\ current_percentiles A /\ unconstrained A /\ fits_grids A x /\
  auditor_created env0 k A w t b /\ fine_for (qfrac 1 1000000) A /\
  (forall a, permitted_action A x a -> ~ on_side 1 (score w t (vadd x a))) /\ audit env0 sv b (table_of [(0%nat, x)]) 1 = (b', Ok [(0%nat, Some (true, Fin c))]).
Proof. exact tol_wrongly_feasible. Qed.
Print Assumptions C121_verdict_refuted.
(** What every row of the report means: who is not audited is so exactly because of the score; "feasible" means a permitted action that reaches the desired side
    up to small errors, and whose largest cost is the reported one up to small errors and one price step; "infeasible" is exact. *)
Theorem C121_audit_partial : forall I E sv k A w t b (X : list (I * list Qc)) y b' out d, ok_env E -> solver_within d sv -> finishing_solver sv -> density E ->
  aset_reachable E A -> fine_for d A -> auditor_used E sv k A w t b -> audit E sv b (table_of X) y = (b', Ok out) ->
  Forall2 (fun p q => fst q = fst p /\ (snd q = None <-> has_outcome y (score w t (snd p))) /\ forall f c, snd q = Some (f, c) -> tolerably_judged E d A w t (snd p) f c) X out.
Proof. exact @tol_audit. Qed.
Print Assumptions C121_audit_partial.
(** For individuals of whom no permitted action misses the desired side by less than the errors, the verdict is exact. *)
Theorem C121_clear_cut_partial : forall I E sv k A w t b (X : list (I * list Qc)) y b' out d, ok_env E -> solver_within d sv -> finishing_solver sv -> density E ->
  aset_reachable E A -> current_percentiles A -> fine_for d A -> auditor_used E sv k A w t b -> (0 <? y)%Z = (0 <? as_y A)%Z -> audit E sv b (table_of X) y = (b', Ok out) ->
  Forall2 (fun p q => forall M, changes_up_to M A (snd p) -> clear_cut (d + action_slack d M A w) A w t (snd p) ->
    orderly E A w (snd p) -> fits_grids A (snd p) -> denied y (score w t (snd p)) ->
    ((exists c, snd q = Some (true, Fin c)) <-> exists a, permitted_action A (snd p) a /\ compliant A (snd p) a /\ on_side y (score w t (vadd (snd p) a))) /\
    (snd q = Some (false, PosInf) <-> forall a, permitted_action A (snd p) a -> compliant A (snd p) a -> ~ on_side y (score w t (vadd (snd p) a)))) X out.
Proof. exact @tol_audit_clear. Qed.
Print Assumptions C121_clear_cut_partial.
(** The bounds that the errors are measured in always exist. *)
Theorem C121_bounds : forall E ct A x, (exists M, changes_up_to M A x) /\ exists K, prices_up_to E ct K A x.
Proof. intros. split; [apply changes_bound|apply prices_bound]. Qed.
Print Assumptions C121_bounds.
Example C121_nonvacuous : forall k t0 (fe : bool), (t0 = - z 3 /\ fe = true) \/ (t0 = - z 7 /\ fe = false) -> exists A b, aset_reachable env0 A /\ auditor_created env0 k A [z 1; z 1] t0 b /\
  current_percentiles A /\ orderly env0 A [z 1; z 1] [z 0; z 1] /\ regular env0 A [z 0; z 1] /\ as_y A = 1%Z /\ fits_grids A [z 0; z 1] /\ denied 1 (score [z 1; z 1] t0 [z 0; z 1]) /\
  fine_for (qfrac 1 1000000) A /\ changes_up_to (z 3) A [z 0; z 1] /\ clear_cut (qfrac 1 1000000 + action_slack (qfrac 1 1000000) (z 3) A [z 1; z 1]) A [z 1; z 1] t0 [z 0; z 1] /\
  forall sv, sound_solver sv -> finishing_solver sv -> solver_within (qfrac 1 1000000) sv /\ exists b' v, audit env0 sv b (table_of [(5%nat, [z 0; z 1])]) 1 = (b', Ok [(5%nat, Some (fe, v))]).
Proof. exact tol_audit_case. Qed.

(** * C122.  The full property: a flipset files every item its builder finds, and filed items flip the prediction.  Both false however accurate the solver:
      an action that ends just short of the boundary has the wrong predicted label, and then the item is refused, and all others with it, if the raw
      score happens to equal that label (C48), and is filed otherwise. *)
Theorem C122_lost_refuted : forall k et, exists sv A f, solver_within (qfrac 1 100000000) sv /\ finishing_solver sv /\ aset_reachable env0 A /\ unconstrained A /\ fine_for (qfrac 1 100000000) A /\
  changes_up_to (z 3) A [z 0; z 1] /\ coarse (qfrac 1 100000000) (z 3) A [z 0; z 1] /\ denied (as_y A) (score [z 1; z 1] (- z 2) [z 0; z 1]) /\
  flipset_created k A [z 0; z 1] [z 1; z 1] (- z 2) None f /\
  forall srt fuel total, ok_sorter srt -> total <> Some 0%nat -> (4 < fuel)%nat -> exists f' e, f_populate env0 sv srt fuel total et CTotal f = Some (f', Err e) /\ f_items f' = [].
Proof. exact tol_lost. Qed.
Print Assumptions C122_lost_refuted.
Theorem C122_not_flipped_refuted : forall k et, exists sv A f a c, solver_within (qfrac 1 100000000) sv /\ finishing_solver sv /\ aset_reachable env0 A /\ unconstrained A /\ fine_for (qfrac 1 100000000) A /\
  changes_up_to (z 3) A [z 0; z 1] /\ coarse (qfrac 1 100000000) (z 3) A [z 0; z 1] /\ as_y A = 1%Z /\
  prediction [z 1; z 1] (- z 3) [z 0; z 1] = (-1)%Z /\ prediction [z 1; z 1] (- z 3) (vadd [z 0; z 1] a) = (-1)%Z /\ flipset_created k A [z 0; z 1] [z 1; z 1] (- z 3) None f /\
  forall srt fuel, ok_sorter srt -> (4 < fuel)%nat -> exists f', f_populate env0 sv srt fuel (Some 1%nat) et CTotal f = Some (f', Ok tt) /\ f_items f' = [{| fi_actions := a; fi_cost := Fin c |}].
Proof. exact tol_not_flipped. Qed.
Print Assumptions C122_not_flipped_refuted.
(** What holds of the first populate, with a tolerance of at most 1e-8: it ends; its items stand for permitted actions that reach the desired side up to small
    errors; and they are all filed, unless one of them changes nothing, costs nothing or meets the label test - then it raises and files none. *)
Theorem C122_populate_partial : forall E sv srt k A x w t f d M fuel total et ct b0, ok_env E -> solver_within d sv -> d <= qfrac 1 100000000 -> ok_sorter srt -> aset_reachable E A ->
  flipset_created k A x w t None f -> mk_builder E k A (coef_args w t) ct (Some x) = Ok b0 -> fine_for d A -> changes_up_to M A x -> total <> Some 0%nat -> (2 ^ as_len A < fuel)%nat ->
  exists b2 l, populate sv fuel total et b0 = Some (Ok (b2, l)) /\ (forall n, total = Some n -> (length l <= n)%nat) /\
    (forall s, In s l -> exists g, permitted_action A x g /\ (1 <= n_changed g)%nat /\ close_to d M A (s_actions s) g /\ on_side_within d (as_y A) (score w t (vadd x (s_actions s))) /\
       (coarse d M A x -> (1 <= n_changed (s_actions s))%nat)) /\
    ((exists f', f_populate E sv srt fuel total et ct f = Some (f', Ok tt) /\ f_items f' = map filed l) \/
     (exists f' e s, f_populate E sv srt fuel total et ct f = Some (f', Err e) /\ f_items f' = [] /\ In s l /\
        (n_changed (s_actions s) = 0%nat \/ s_cost s <= 0 \/ score w t x = qz (prediction w t (vadd x (s_actions s)))))).
Proof. exact tol_flipset. Qed.
Print Assumptions C122_populate_partial.
Example C122_nonvacuous : forall k ct, exists A b0 f, aset_reachable env0 A /\ flipset_created k A [z 0; z 1] [z 1; z 1] (- z 3) None f /\ mk_builder env0 k A (coef_args [z 1; z 1] (- z 3)) ct (Some [z 0; z 1]) = Ok b0 /\
  fine_for (qfrac 1 100000000) A /\ changes_up_to (z 3) A [z 0; z 1] /\ coarse (qfrac 1 100000000) (z 3) A [z 0; z 1] /\ as_len A = 2%nat /\ exists sv, solver_within (qfrac 1 100000000) sv /\ finishing_solver sv.
Proof. exact tol_flipset_case. Qed.
