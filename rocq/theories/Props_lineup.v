(** C34, and C30, C38, C39, C52, C53: what subset limits limit, whatever the order of the features and whichever of them can act. *)
From Verif Require Import Spec_lineup Spec_audit Proofs_concrete Proofs_scen Proofs_scen2 Proofs_lineup2 Proofs_lineup3 Proofs_lineup4.
#[local] Open Scope string_scope.
#[local] Open Scope list_scope.
#[local] Open Scope Qc_scope.

(** The limits are applied, for the whole session, to a line-up of the features that take part (column order; features that
    cannot help come last): a limit on the features number j1, j2, ... binds the j1-th, j2-th, ... of the line-up. With limits
    read that way the search is sound, complete and optimal, for every individual that can be assigned: every action returned
    is [considered], [fit] reports infeasible only when nothing is, and otherwise returns the cheapest that is. *)
Theorem C34_applied_to_lineup_partial : forall E sv b x b0,
  ok_env E -> sound_solver sv -> assigned E sv b x b0 -> flips_match (bd_A b) (bd_w b) ->
  exists slots, lineup (bd_A b) (bd_w b) x slots /\
    (forall l b1 s, session sv b0 l b1 -> In s l -> considered E b slots x (s_actions s)) /\
    (finishing_solver sv -> exists b1 r, fit sv b0 = Ok (b1, r) /\
       match r with
       | None => forall a, ~ considered E b slots x a
       | Some s => bd_cost b <> CMax -> forall a cs, considered E b slots x a -> action_costs E (bd_cost b) (bd_A b) x a cs -> s_cost s <= qsum cs
       end).
Proof. exact lineup_exact. Qed.
Print Assumptions C34_applied_to_lineup_partial.
(** For regular individuals everything sought is considered: the price of every permitted change is positive, and no change is tiny. *)
Theorem C34_all_considered : forall E sv b x b0 slots a, ok_env E -> density E -> log_ok E (bd_cost b) -> assigned E sv b x b0 -> regular E (bd_A b) x ->
  sought b slots x a -> considered E b slots x a.
Proof. exact all_considered. Qed.
Print Assumptions C34_all_considered.
(** Hypotheses met, and the line-up differs from the features: four features of which the first cannot act; the limit on the
    second and third (at most one) is applied to the third and fourth, and both b and c are changed. *)
Example C34_lineup_nonvacuous : exists b b0 cn, let x := [z 0; z 0; z 0; z 0] in
  (forall sv, assigned env0 sv b x b0) /\ flips_match (bd_A b) (bd_w b) /\ regular env0 (bd_A b) x /\
  stored (as_cons (bd_A b)) "one" cn /\ c_indices cn = [1; 2]%nat /\ c_ub cn = 1%Z /\ lineup (bd_A b) (bd_w b) x [1; 2; 3]%nat /\
  (forall sv, sound_solver sv -> finishing_solver sv -> exists b1 s, fit sv b0 = Ok (b1, Some s) /\ s_actions s = [z 0; z 1; z 1; z 0]).
Proof. exact slots_mixup. Qed.

(** * C38: each action listed costs no more than any action sought that was still possible at its turn; constraints and features
    in any order. *)
Theorem C38_applied_to_lineup_partial : forall E sv b x b0,
  ok_env E -> sound_solver sv -> finishing_solver sv -> assigned E sv b x b0 ->
  flips_match (bd_A b) (bd_w b) -> (bd_kind b = CPX -> switches_off E (bd_A b) x) ->
  exists slots, lineup (bd_A b) (bd_w b) x slots /\
    forall l b1 i et s a cs, bd_cost b <> CMax -> enumeration sv b0 l b1 -> nth_error l i = Some (et, s) -> considered E b slots x a ->
      (forall i' et' s', (i' < i)%nat -> nth_error l i' = Some (et', s') -> ~ rules_out et' (s_actions s') a) ->
      action_costs E (bd_cost b) (bd_A b) x a cs -> s_cost s <= qsum cs.
Proof.
  intros E sv b x b0 H1 H2 H3 H6 H7 H9. destruct (lineup_enumerates E sv b x b0 H1 H2 H6 H3 H7 H9) as (slots & K1 & K2 & _). exists slots. auto.
Qed.
Print Assumptions C38_applied_to_lineup_partial.
(** * C30: the same for the cost type 'max', up to the tie-breaking term; for every action listed, not only the first. *)
Theorem C30_applied_to_lineup_partial : forall E sv b x b0,
  ok_env E -> sound_solver sv -> finishing_solver sv -> assigned E sv b x b0 ->
  flips_match (bd_A b) (bd_w b) -> (bd_kind b = CPX -> switches_off E (bd_A b) x) -> density E -> regular E (bd_A b) x -> bd_cost b = CMax ->
  exists slots eps, lineup (bd_A b) (bd_w b) x slots /\ 0 < eps /\
    forall l b1 i et s a cs m, enumeration sv b0 l b1 -> nth_error l i = Some (et, s) -> considered E b slots x a ->
      (forall i' et' s', (i' < i)%nat -> nth_error l i' = Some (et', s') -> ~ rules_out et' (s_actions s') a) ->
      action_costs E (bd_cost b) (bd_A b) x a cs -> largest cs m -> s_cost s + eps * qsum (s_costs s) <= m + eps * qsum cs.
Proof.
  intros E sv b x b0 H1 H2 H3 H6 H7 H9 HD HR HC. destruct (lineup_enumerates E sv b x b0 H1 H2 H6 H3 H7 H9) as (slots & K1 & _ & K2 & _).
  destruct (K2 HD HR HC) as (eps & P & K). exists slots, eps. auto.
Qed.
Print Assumptions C30_applied_to_lineup_partial.
(** * C39: when the enumeration ends, every action sought has been listed or ruled out. *)
Theorem C39_applied_to_lineup_partial : forall E sv b x b0,
  ok_env E -> sound_solver sv -> finishing_solver sv -> assigned E sv b x b0 ->
  flips_match (bd_A b) (bd_w b) -> (bd_kind b = CPX -> switches_off E (bd_A b) x) ->
  exists slots, lineup (bd_A b) (bd_w b) x slots /\
    forall l b1 fuel total et l2 b2 a, enumeration sv b0 l b1 -> populate sv fuel total et b1 = Some (Ok (b2, l2)) -> total <> Some (length l2) ->
      considered E b slots x a -> exists et' s', In (et', s') (l ++ map (pair et) l2) /\ rules_out et' (s_actions s') a.
Proof.
  intros E sv b x b0 H1 H2 H3 H6 H7 H9. destruct (lineup_enumerates E sv b x b0 H1 H2 H6 H3 H7 H9) as (slots & K1 & _ & _ & K2). exists slots. auto.
Qed.
Print Assumptions C39_applied_to_lineup_partial.

(** * C52, C53: what a verdict says, for every y_desired argument and every order of the features: an individual without the
    outcome y_desired is marked feasible exactly if some action is in reach: permitted, changing something, each change priced and
    helping or constrained, reaching the outcome the ACTION SET wants, within the limits as they are applied; otherwise infeasible. *)
Theorem C52_applied_to_lineup_partial : forall (I : Type) E sv k A w t b (X : list (I * list Qc)) y b' out,
  ok_env E -> sound_solver sv -> finishing_solver sv ->
  aset_reachable E A -> auditor_used E sv k A w t b -> audit E sv b (table_of X) y = (b', Ok out) ->
  Forall2 (fun p q => ~ has_outcome y (score w t (snd p)) ->
    exists slots, lineup A w (snd p) slots /\
      ((exists c, snd q = Some (true, Fin c)) <-> exists a, in_reach E A w t slots (snd p) a) /\
      (snd q = Some (false, PosInf) <-> forall a, ~ in_reach E A w t slots (snd p) a)) X out.
Proof. exact @audit_reach_exact. Qed.
Print Assumptions C52_applied_to_lineup_partial.
(** Hypotheses met, with y_desired = -1 and an action set that wants 1: an individual who HAS the outcome 1 is judged, and
    marked feasible. *)
Example C52_lineup_nonvacuous : exists A w t b x, aset_reachable env0 A /\ auditor_created env0 PyMIP A w t b /\ regular env0 A x /\ as_y A = 1%Z /\
  ~ has_outcome (-1) (score w t x) /\ has_outcome 1 (score w t x) /\
  forall sv, sound_solver sv -> finishing_solver sv -> exists b' c, audit env0 sv b (table_of [(0%nat, x)]) (-1) = (b', Ok [(0%nat, Some (true, Fin c))]).
Proof. exact reach_case. Qed.
