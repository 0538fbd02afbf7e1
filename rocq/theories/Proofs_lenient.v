(** Proofs for C130. *)
From Verif Require Import Spec_lenient Spec_widen Proofs_props_element Proofs_props_actionset Proofs_actionset Proofs_registry Proofs_builder Proofs_builder3 Proofs_builder6 Proofs_builder8 Proofs_concrete Proofs_scen Proofs_scen2 Proofs_binding Proofs_session Proofs_assign3 Proofs_widen Proofs_pareto Proofs_audit2 Proofs_audit3.
#[local] Open Scope string_scope.
#[local] Open Scope list_scope.
#[local] Open Scope Qc_scope.

Lemma lenient_side y w t t' v : at_least_as_lenient y t t' -> on_side y (score w t v) -> on_side y (score w t' v).
Proof. unfold at_least_as_lenient, on_side, score. destruct (0 <? y)%Z; intros; qlra. Qed.
Lemma lenient_denied y w t t' v : at_least_as_lenient y t t' -> denied y (score w t' v) -> denied y (score w t v).
Proof. unfold denied. intros H N K. apply N. eapply lenient_side; eassumption. Qed.
Lemma no_coarser_refl A x : no_coarser A A x.
Proof. intros j e e' xj H H' _ K. assert (e' = e) by congruence. now subst. Qed.
Section Two.
Context (E : env) (sv sv' : solver) (b b' : builder) (x : list Qc) (b0 b0' b1 : builder) (s : sol).
Context (HE : ok_env E) (HS : sound_solver sv) (HF : finishing_solver sv) (HS' : sound_solver sv') (HF' : finishing_solver sv') (HD : density E) (HL : log_ok E (bd_cost b)).
Context (HA : assigned E sv b x b0) (HA' : assigned E sv' b' x b0') (EA : bd_A b' = bd_A b) (EW : bd_w b' = bd_w b) (HT : at_least_as_lenient (as_y (bd_A b)) (bd_t b) (bd_t b')) (EC : bd_cost b' = bd_cost b) (EX : (bd_max b <= bd_max b')%Z).
Context (HG : good_setup E b' x).
Context (Hf : fit sv b0 = Ok (b1, Some s)).
Lemma lenient_carried : permitted_action (bd_A b') x (s_actions s) /\ (Z.of_nat (n_changed (s_actions s)) <= bd_max b')%Z /\ on_side (as_y (bd_A b')) (score (bd_w b') (bd_t b') (vadd x (s_actions s))) /\
  compliant (bd_A b') x (s_actions s) /\ action_costs E (bd_cost b') (bd_A b') x (s_actions s) (s_costs s).
Proof.
  destruct HG as (HO & HFl & _). rewrite EA, EW in HO, HFl.
  destruct (fit_some E sv b x b0 HE HS HA b1 s Hf) as (K1 & K2 & K3). pose proof (fit_compliant E sv b x b0 HE HS HA b1 s Hf HO HFl) as K4.
  assert (Hs : session sv b0 ([s] ++ []) b1) by (exact (ses_fit sv b0 b1 (Some s) [] b1 Hf (ses_done sv b1))).
  pose proof (item_costs E sv b x b0 HE HS HA _ b1 s Hs (or_introl eq_refl)) as K5. rewrite EA, EW, EC.
  split; [exact K1|]. split; [unfold size_between in K2; lia|]. split; [eapply lenient_side; eassumption|]. split; [exact K4|exact K5].
Qed.
Lemma lenient_exists : exists b1' s', fit sv' b0' = Ok (b1', Some s').
Proof.
  destruct lenient_carried as (C1 & C2 & C3 & C4 & C5). destruct (fit_total E sv' b' x b0' HE HS' HA') as (b1' & [s'|] & Hf'); [eauto|]. exfalso.
  assert (HL' : log_ok E (bd_cost b')) by now rewrite EC. pose proof (fit_movable E sv b x b0 HE HS HA b1 s Hf) as HM. rewrite <- EA in HM.
  exact (c27_thm E sv' b' x b0' b1' (s_actions s) HE HS' HF' HD HL' HA' HG Hf' C1 HM C2 C4 C3).
Qed.
Context (HR : regular E (bd_A b') x).
Lemma lenient_sum : bd_cost b <> CMax -> exists b1' s', fit sv' b0' = Ok (b1', Some s') /\ s_cost s' <= s_cost s.
Proof.
  intro NC. destruct lenient_exists as (b1' & s' & Hf'). exists b1', s'. split; [exact Hf'|]. destruct lenient_carried as (C1 & C2 & C3 & C4 & C5).
  assert (Hs : session sv b0 ([s] ++ []) b1) by (exact (ses_fit sv b0 b1 (Some s) [] b1 Hf (ses_done sv b1))).
  rewrite (proj2 (c29_costs E sv b x b0 _ b1 s HE HS HA NC Hs (or_introl eq_refl))).
  apply (c29_thm E sv' b' x b0' b1' s' (s_actions s) (s_costs s)); auto; rewrite EC; auto.
Qed.
Lemma lenient_max : bd_cost b = CMax -> exists b1' s', fit sv' b0' = Ok (b1', Some s') /\ (s_cost s <= s_cost s' -> qsum (s_costs s') <= qsum (s_costs s)) /\ (qsum (s_costs s) <= qsum (s_costs s') -> s_cost s' <= s_cost s).
Proof.
  intro NC. destruct lenient_exists as (b1' & s' & Hf'). exists b1', s'. split; [exact Hf'|]. destruct lenient_carried as (C1 & C2 & C3 & C4 & C5).
  assert (Hs : session sv b0 ([s] ++ []) b1) by (exact (ses_fit sv b0 b1 (Some s) [] b1 Hf (ses_done sv b1))).
  pose proof (proj2 (c30_costs E sv b x b0 _ b1 s HE HS HF HA NC Hs (or_introl eq_refl))) as LG.
  assert (HL' : log_ok E (bd_cost b')) by now rewrite EC. assert (NC' : bd_cost b' = CMax) by congruence.
  exact (c30_undominated E sv' b' x b0' b1' s' (s_actions s) (s_costs s) (s_cost s) HE HS' HF' HD HL' HA' HG HR NC' Hf' C1 C2 C3 C4 C5 LG).
Qed.
End Two.
Lemma lenient_audit {I} E sv sv' k k' A w t t' b b' (X : list (I * list Qc)) y c out c' out' : ok_env E -> sound_solver sv -> sound_solver sv' -> finishing_solver sv -> finishing_solver sv' -> density E -> aset_reachable E A -> current_percentiles A ->
  auditor_used E sv k A w t b -> auditor_used E sv' k' A w t' b' -> (0 <? y)%Z = (0 <? as_y A)%Z -> at_least_as_lenient y t t' ->
  audit E sv b (table_of X) y = (c, Ok out) -> audit E sv' b' (table_of X) y = (c', Ok out') ->
  forall i r l l', nth_error X i = Some r -> nth_error out i = Some l -> nth_error out' i = Some l' -> orderly E A w (snd r) -> denied y (score w t (snd r)) ->
    (exists v, snd l = Some (true, Fin v)) -> on_side y (score w t' (snd r)) \/ exists v', snd l' = Some (true, Fin v').
Proof.
  intros HE HS HS' HF HF' HD HA HC HU HU' HY HT H H' i r l l' Hr Hl Hl' HO HDn Hv.
  assert (DD : on_side y (score w t' (snd r)) \/ denied y (score w t' (snd r))).
  { unfold denied, on_side. destruct (0 <? y)%Z; [destruct (0 <=? score w t' (snd r)) eqn:Q|destruct (score w t' (snd r) <=? 0) eqn:Q]. all: try (left; apply qle_iff; exact Q). all: right; intro N; apply qle_iff in N; congruence. }
  destruct DD as [DD|DD]; [now left|right].
  pose proof (c52 E sv k A w t b X y c out HE HS HF HD HA HC HU HY H) as T. pose proof (c52 E sv' k' A w t' b' X y c' out' HE HS' HF' HD HA HC HU' HY H') as T'.
  apply Forall2_nth in T, T'. destruct T as [_ T], T' as [_ T']. destruct (T i r l Hr Hl HO HDn) as [T1 _]. destruct (T' i r l' Hr Hl' HO DD) as [T1' _].
  apply T1'. apply T1 in Hv. destruct Hv as (a & P & P' & Q & R). exists a. split; [exact P|]. split; [exact P'|]. split; [exact Q|]. eapply lenient_side; eassumption.
Qed.
