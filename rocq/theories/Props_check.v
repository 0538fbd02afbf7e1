(** Theorem C109: the builder's check of its own answers. *)
From Verif Require Import Spec_recourse Model_check Proofs_concrete Proofs_scen Proofs_check Proofs_check2.
#[local] Open Scope list_scope.
#[local] Open Scope Qc_scope.

(** * C109: every answer passes the builder's own check.
      False for individuals who already have the desired outcome by a margin of at most 1e-4: the answer keeps the prediction, the score stays
      near zero, and the check raises AssertionError. *)
Theorem C109_approved_refuted : forall k ct, exists b x b0, bd_kind b = k /\ bd_cost b = ct /\ (forall sv, assigned env0 sv b x b0) /\ 0 < score (bd_w b) (bd_t b) x /\ forall sv, sound_solver sv -> finishing_solver sv ->
  exists b1 s, fit sv b0 = Ok (b1, Some s) /\ check_solution b1 (Some s) = Err AssertionError.
Proof. exact check_refuted. Qed.
Print Assumptions C109_approved_refuted.
(** For those who lack the desired outcome, everything that fit and populate return is accepted, at any point of a session.  There are no warnings, unless the
    action set has been made more permissive since the builder was created, or the solver was stopped early (cost type 'max').
    Missing: individuals with the desired outcome (next theorem). *)
Theorem C109_denied_partial : forall E sv b x b0 l b1 s, ok_env E -> sound_solver sv -> assigned E sv b x b0 -> session sv b0 l b1 -> In s l -> denied (as_y (bd_A b)) (score (bd_w b) (bd_t b) x) ->
  exists ws, check_solution b1 (Some s) = Ok ws /\ ~ In WNearZeroScore ws /\ ~ In WIssue ws /\ (current_actionable b -> (bd_cost b = CMax -> finishing_solver sv) -> ws = []).
Proof. exact check_denied. Qed.
Print Assumptions C109_denied_partial.
Theorem C109_created : forall E b, builder_created E b -> current_actionable b.
Proof. exact created_actionable. Qed.
Print Assumptions C109_created.
(** For everyone: the check raises exactly if the prediction stays the same and the new score is within 1e-4 of zero. *)
Theorem C109_exact : forall E sv b x b0 l b1 s, ok_env E -> sound_solver sv -> assigned E sv b x b0 -> session sv b0 l b1 -> In s l ->
  let sc := score (bd_w b) (bd_t b) in
  (check_solution b1 (Some s) = Err AssertionError <-> qsign (sc x) = qsign (sc (vadd x (s_actions s))) /\ qabs (sc (vadd x (s_actions s))) <= qfrac 1 10000) /\
  (check_solution b1 (Some s) = Err AssertionError \/ exists ws, check_solution b1 (Some s) = Ok ws).
Proof. exact check_exact. Qed.
Print Assumptions C109_exact.
(** In particular no reported change is so small that the check takes it for none. *)
Theorem C109_changes : forall E sv b x b0 l b1 s j aj, ok_env E -> sound_solver sv -> assigned E sv b x b0 -> session sv b0 l b1 -> In s l -> nth_error (s_actions s) j = Some aj -> aj <> 0 -> qfrac 1 100000000 < qabs aj.
Proof. exact never_negligible. Qed.
Print Assumptions C109_changes.
(** The check is not vacuous: it refuses answers that keep the prediction, change nothing, or break the limits on the number of items. *)
Theorem C109_rejects : forall b s ws, check_solution b (Some s) = Ok ws -> length (s_actions s) = length (s_costs s) ->
  (Z.max (bd_min b) 1 <= Z.of_nat (length (filter (fun v => negb (isclose0 v)) (s_actions s))) <= bd_max b)%Z /\
  (ws = [] -> exists x, bd_x b = Some x /\ qsign (score (bd_w b) (bd_t b) x) <> qsign (score (bd_w b) (bd_t b) (vadd x (s_actions s))) /\
    forall j aj cj, nth_error (s_actions s) j = Some aj -> nth_error (s_costs s) j = Some cj -> (isclose0 aj = false -> In j (bd_actionable b) /\ 0 < cj) /\ (isclose0 aj = true -> isclose0 cj = true)).
Proof. exact check_meaning. Qed.
Print Assumptions C109_rejects.
(** Exactly when an answer (from the builder or not) is approved without a warning; changes of at most 1e-8 count as none. *)
Theorem C109_clean : forall b x s, bd_x b = Some x -> length x = length (s_actions s) -> length (s_costs s) = length (s_actions s) -> s_actions s <> [] ->
  (check_solution b (Some s) = Ok [] <->
   (Z.max (bd_min b) 1 <= Z.of_nat (length (filter (fun v => negb (isclose0 v)) (s_actions s))) <= bd_max b)%Z /\
   qsign (score (bd_w b) (bd_t b) x) <> qsign (score (bd_w b) (bd_t b) (vadd x (s_actions s))) /\
   (forall j aj cj, nth_error (s_actions s) j = Some aj -> nth_error (s_costs s) j = Some cj ->
      if isclose0 aj then qabs cj <= qfrac 1 100000000 else In j (bd_actionable b) /\ 0 < cj) /\
   match bd_cost b with
   | CTotal => qabs (s_cost s - qsum (s_costs s)) <= qfrac 1 100000000 + qfrac 1 100000 * qabs (qsum (s_costs s))
   | CMax => forall m, largest (s_costs s) m -> qabs (s_cost s - m) <= qfrac 1 100000000 + qfrac 1 10000 * qabs m
   | CLocal => True
   end).
Proof. exact check_clean. Qed.
Print Assumptions C109_clean.
Example C109_case : forall k ct, exists b x b0, (forall sv, assigned env0 sv b x b0) /\ builder_created env0 b /\ bd_kind b = k /\ bd_cost b = ct /\ denied (as_y (bd_A b)) (score (bd_w b) (bd_t b) x) /\ forall sv, sound_solver sv -> finishing_solver sv ->
  exists b1 s, fit sv b0 = Ok (b1, Some s).
Proof. exact check_case. Qed.
