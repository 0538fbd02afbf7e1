(** 'max' costs: what exactly fit minimises. *)
From Verif Require Import Proofs_props_element Proofs_props_actionset Spec_recourse Proofs_mip Proofs_info Proofs_vec Proofs_build Proofs_enum Proofs_session Proofs_recourse Proofs_subset Proofs_exchange Proofs_concrete Proofs_builder.
#[local] Open Scope list_scope.
#[local] Open Scope Qc_scope.

Lemma c30_pareto E sv b x b0 : ok_env E -> sound_solver sv -> finishing_solver sv -> density E -> log_ok E (bd_cost b) -> assigned E sv b x b0 ->
  good_setup E b x -> regular E (bd_A b) x -> bd_cost b = CMax ->
  exists eps, 0 < eps /\ forall b1 s a cs m, fit sv b0 = Ok (b1, Some s) -> permitted_action (bd_A b) x a -> (Z.of_nat (n_changed a) <= bd_max b)%Z ->
    on_side (as_y (bd_A b)) (score (bd_w b) (bd_t b) (vadd x a)) -> compliant (bd_A b) x a ->
    action_costs E (bd_cost b) (bd_A b) x a cs -> largest cs m ->
    s_cost s + eps * qsum (s_costs s) <= m + eps * qsum cs.
Proof.
  intros HE HS HF HD HL HA (G1 & G2 & G3 & G4 & G5) HR Hct.
  destruct (assigned_ready E sv b x b0 HE HA) as (ms & R). destruct (ms_infos ms) as [|i0 r0] eqn:Ems.
  { exists 1. split; [apply qlt_iff; reflexivity|]. intros b1 s a cs m Hfit. exfalso.
    destruct (fit_ready E sv b x b0 HS ms R) as (b1' & r & Hfit' & H). rewrite Hfit in Hfit'. injection Hfit' as <- <-.
    destruct H as (ch & (Hc & _ & Hz & _) & _). rewrite Ems in Hz. cbn in Hz. lia. }
  assert (Ne : ms_infos ms <> []) by (rewrite Ems; discriminate). clear Ems i0 r0.
  destruct (eps_bounds E (bd_A b) (bd_cost b) (bd_w b) x (ms_infos ms) (as_len (bd_A b)) HE (rd_wf _ _ _ _ _ R) (rd_info _ _ _ _ _ R) eq_refl (rd_w _ _ _ _ _ R) HR HD HL Ne) as [EP EB].
  exists (epsilon (ms_infos ms)). split; [exact EP|]. intros b1 s a cs m Hfit HP Hhi HO HCp Hcs Hlg.
  destruct (fit_ready E sv b x b0 HS ms R) as (b1' & r & Hfit' & H). rewrite Hfit in Hfit'. injection Hfit' as <- <-.
  destruct H as (ch & (Hc & _ & Hz & _) & (_ & I2 & _ & _ & I5) & HB). rewrite (I5 HF Hct), I2.
  assert (HAc : accept (bd_A b) (bd_w b) (bd_t b) (bd_min b) (bd_max b) x (ms_infos ms) (counterpart (ms_infos ms) a)).
  { eapply (counterpart_accepted E); eauto using rd_wf, rd_info, rd_w. }
  assert (Q2 : qmaxl (chosen_costs (ms_infos ms) (counterpart (ms_infos ms) a)) 0 <= m) by (eapply (counterpart_max E); eauto using rd_wf, rd_info, rd_w).
  assert (Q3 : qsum (chosen_costs (ms_infos ms) (counterpart (ms_infos ms) a)) <= qsum cs) by (eapply (counterpart_sum E); eauto using rd_wf, rd_info, rd_w).
  specialize (HB HF _ HAc). rewrite Hct in HB. cbn [choice_cost] in HB.
  assert (Q : qsum (cvec (as_len (bd_A b)) (ms_infos ms) ch) = qsum (chosen_costs (ms_infos ms) ch)) by (eapply (cvec_sum E); eauto using rd_ok, rd_el, rd_infos).
  rewrite Q. assert (Q4 : epsilon (ms_infos ms) * qsum (chosen_costs (ms_infos ms) (counterpart (ms_infos ms) a)) <= epsilon (ms_infos ms) * qsum cs) by (apply qmul_le_l; [now apply Qclt_le_weak|exact Q3]).
  qlra.
Qed.
(** So nothing is better in one respect and no worse in the other. *)
Lemma c30_undominated E sv b x b0 b1 s a cs m : ok_env E -> sound_solver sv -> finishing_solver sv -> density E -> log_ok E (bd_cost b) -> assigned E sv b x b0 ->
  good_setup E b x -> regular E (bd_A b) x -> bd_cost b = CMax ->
  fit sv b0 = Ok (b1, Some s) -> permitted_action (bd_A b) x a -> (Z.of_nat (n_changed a) <= bd_max b)%Z ->
  on_side (as_y (bd_A b)) (score (bd_w b) (bd_t b) (vadd x a)) -> compliant (bd_A b) x a ->
  action_costs E (bd_cost b) (bd_A b) x a cs -> largest cs m ->
  (m <= s_cost s -> qsum (s_costs s) <= qsum cs) /\ (qsum cs <= qsum (s_costs s) -> s_cost s <= m).
Proof.
  intros HE HS HF HD HL HA HG HR Hct Hfit HP Hhi HO HCp Hcs Hlg. destruct (c30_pareto E sv b x b0 HE HS HF HD HL HA HG HR Hct) as (eps & P & K). specialize (K b1 s a cs m Hfit HP Hhi HO HCp Hcs Hlg). split; intro H.
  - destruct (qle_spec (qsum (s_costs s)) (qsum cs)) as [L|L]; [exact L|]. exfalso. apply (qmul_lt_l _ _ eps P) in L. qlra.
  - apply (qmul_le_l _ _ eps) in H; [|now apply Qclt_le_weak]. qlra.
Qed.
