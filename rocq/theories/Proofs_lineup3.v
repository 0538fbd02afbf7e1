(** Subset limits as applied: enumeration (C38, C39). *)
From Verif Require Import Proofs_props_element Proofs_props_actionset Spec_lineup Proofs_mip Proofs_info Proofs_vec Proofs_build Proofs_enum Proofs_session Proofs_recourse Proofs_subset Proofs_exchange Proofs_builder Proofs_builder2 Proofs_builder3 Proofs_builder5 Proofs_concrete Proofs_scen Proofs_scen2 Proofs_lineup Proofs_lineup2.
#[local] Open Scope list_scope.
#[local] Open Scope Qc_scope.

Section Enum.
Context (E : env) (sv : solver) (b : builder) (x : list Qc) (b0 : builder).
Context (HE : ok_env E) (HS : sound_solver sv) (HA : assigned E sv b x b0).
Context (HF : finishing_solver sv) (HFl : flips_match (bd_A b) (bd_w b)) (HSw : bd_kind b = CPX -> switches_off E (bd_A b) x).

Lemma line_best ms l b1 i et s a cs : ready E b x b0 ms -> bd_cost b <> CMax -> enumeration sv b0 l b1 -> nth_error l i = Some (et, s) -> considered E b (map i_idx (ms_infos ms)) x a ->
  (forall i' et' s', (i' < i)%nat -> nth_error l i' = Some (et', s') -> ~ rules_out et' (s_actions s') a) ->
  action_costs E (bd_cost b) (bd_A b) x a cs -> s_cost s <= qsum cs.
Proof.
  intros R0 Hct H Hi [HAc HPr] Hex Hcs. destruct (enumeration_ready E sv b x b0 HE HS HA l b1 H) as (ms' & ecs & ms2 & R & HI & HN & _).
  assert (ms' = ms) by (pose proof (gd_mip _ _ _ (rd_good _ _ _ _ _ R)); pose proof (gd_mip _ _ _ (rd_good _ _ _ _ _ R0)); congruence). subst ms'. clear R0.
  destruct (items_nth _ _ _ _ _ _ _ _ HI Hi) as ([et1 ch1] & E1 & Q1 & I1). cbn in Q1, I1.
  destruct (sought_choice E b x b0 HE ms a HFl R HAc HPr) as (ch & Hch & EQ).
  destruct (enum_nth _ _ _ _ _ _ _ _ HN E1) as [_ B1]. cbn in B1. specialize (B1 HF ch).
  assert (K : after (bd_kind b) (ms_infos ms) (accept (bd_A b) (bd_w b) (bd_t b) (bd_min b) (bd_max b) x (ms_infos ms)) (firstn i ecs) ch).
  { apply after_iff. split; [exact Hch|]. rewrite Forall_forall. intros [et2 ch2] Hin. apply In_firstn_nth in Hin. destruct Hin as (k & Lk & Hk).
    destruct (items_nth' _ _ _ _ _ _ _ _ HI Hk) as ([et3 s3] & E3 & Q3 & I3). cbn in Q3, I3. subst et3. cbn.
    destruct (enum_nth _ _ _ _ _ _ _ _ HN Hk) as [P2 _]. cbn in P2. apply after_iff in P2. destruct P2 as [(Hc2 & _) _].
    apply (excl_iff E b x b0 ms et2 (bd_kind b) ch2 ch (fun K _ => HSw K) R Hc2 (proj1 Hch)). rewrite EQ. destruct I3 as [<- _]. exact (Hex k et2 s3 Lk E3). }
  specialize (B1 K). destruct I1 as (_ & _ & C1 & _). rewrite (C1 Hct). rewrite <- (choice_sum E b x b0 ms ch a cs R (proj1 Hch) EQ (proj1 (proj1 HAc)) Hcs).
  unfold choice_cost in B1. destruct (bd_cost b); [exact B1|exact B1|congruence].
Qed.
(** Every item against every action that was still possible: what is compared. *)
Lemma line_compare ms l b1 i et s a cs : ready E b x b0 ms -> enumeration sv b0 l b1 -> nth_error l i = Some (et, s) -> considered E b (map i_idx (ms_infos ms)) x a ->
  (forall i' et' s', (i' < i)%nat -> nth_error l i' = Some (et', s') -> ~ rules_out et' (s_actions s') a) ->
  action_costs E (bd_cost b) (bd_A b) x a cs -> exists ch ch', ch_ok (ms_infos ms) ch /\ (1 <= Z.of_nat (size_ch (ms_infos ms) ch))%Z /\ item_of (bd_cost b) (as_len (bd_A b)) (ms_infos ms) ch (finishing_solver sv) s /\
    ch_ok (ms_infos ms) ch' /\ (1 <= Z.of_nat (size_ch (ms_infos ms) ch'))%Z /\ cvec (as_len (bd_A b)) (ms_infos ms) ch' = cs /\ choice_cost (bd_cost b) (ms_infos ms) ch <= choice_cost (bd_cost b) (ms_infos ms) ch'.
Proof.
  intros R0 H Hi [HAc HPr] Hex Hcs. destruct (enumeration_ready E sv b x b0 HE HS HA l b1 H) as (ms' & ecs & ms2 & R & HI & HN & _).
  assert (ms' = ms) by (pose proof (gd_mip _ _ _ (rd_good _ _ _ _ _ R)); pose proof (gd_mip _ _ _ (rd_good _ _ _ _ _ R0)); congruence). subst ms'. clear R0.
  destruct (items_nth _ _ _ _ _ _ _ _ HI Hi) as ([et1 ch1] & E1 & Q1 & I1). cbn in Q1, I1.
  destruct (sought_choice E b x b0 HE ms a HFl R HAc HPr) as (ch & Hch & EQ).
  destruct (enum_nth _ _ _ _ _ _ _ _ HN E1) as [A1 B1]. cbn in A1, B1. specialize (B1 HF ch). apply after_iff in A1. destruct A1 as [(A1 & _ & A3 & _) _].
  assert (K : after (bd_kind b) (ms_infos ms) (accept (bd_A b) (bd_w b) (bd_t b) (bd_min b) (bd_max b) x (ms_infos ms)) (firstn i ecs) ch).
  { apply after_iff. split; [exact Hch|]. rewrite Forall_forall. intros [et2 ch2] Hin. apply In_firstn_nth in Hin. destruct Hin as (k & Lk & Hk).
    destruct (items_nth' _ _ _ _ _ _ _ _ HI Hk) as ([et3 s3] & E3 & Q3 & I3). cbn in Q3, I3. subst et3. cbn.
    destruct (enum_nth _ _ _ _ _ _ _ _ HN Hk) as [P2 _]. cbn in P2. apply after_iff in P2. destruct P2 as [(Hc2 & _) _].
    apply (excl_iff E b x b0 ms et2 (bd_kind b) ch2 ch (fun K _ => HSw K) R Hc2 (proj1 Hch)). rewrite EQ. destruct I3 as [<- _]. exact (Hex k et2 s3 Lk E3). }
  specialize (B1 K). pose proof Hch as (Z1 & _ & Z3 & _). exists ch1, ch. split; [exact A1|]. split; [lia|]. split; [exact I1|]. split; [exact Z1|]. split; [lia|].
  split; [exact (choice_cvec E b x b0 ms ch a cs R Z1 EQ (proj1 (proj1 HAc)) Hcs)|exact B1].
Qed.
(** 'max': the largest cost plus a small multiple of the sum. *)
Lemma line_max ms : ready E b x b0 ms -> density E -> regular E (bd_A b) x -> bd_cost b = CMax -> exists eps, 0 < eps /\ forall l b1 i et s a cs m, enumeration sv b0 l b1 -> nth_error l i = Some (et, s) ->
  considered E b (map i_idx (ms_infos ms)) x a -> (forall i' et' s', (i' < i)%nat -> nth_error l i' = Some (et', s') -> ~ rules_out et' (s_actions s') a) ->
  action_costs E (bd_cost b) (bd_A b) x a cs -> largest cs m -> s_cost s + eps * qsum (s_costs s) <= m + eps * qsum cs.
Proof.
  intros R HD HR Hct. assert (HL : log_ok E (bd_cost b)) by (rewrite Hct; intro Q; discriminate Q). destruct (ms_infos ms) as [|i0 r0] eqn:Ems.
  { exists 1. split; [apply qlt_iff; reflexivity|]. intros l b1 i et s a cs m H Hi Hs Hx Hcs Hl. exfalso.
    rewrite <- Ems in Hs. destruct (line_compare ms l b1 i et s a cs R H Hi Hs Hx Hcs) as (ch & _ & _ & Z0 & _). rewrite Ems in Z0. cbn in Z0. lia. }
  rewrite <- Ems. assert (Ne : ms_infos ms <> []) by (rewrite Ems; discriminate). clear Ems i0 r0.
  destruct (eps_bounds E (bd_A b) (bd_cost b) (bd_w b) x (ms_infos ms) (as_len (bd_A b)) HE (rd_wf _ _ _ _ _ R) (rd_info _ _ _ _ _ R) eq_refl (rd_w _ _ _ _ _ R) HR HD HL Ne) as [EP EB].
  exists (epsilon (ms_infos ms)). split; [exact EP|]. intros l b1 i et s a cs m H Hi Hs Hx Hcs Hl.
  destruct (line_compare ms l b1 i et s a cs R H Hi Hs Hx Hcs) as (ch & ch' & C1 & C2 & (_ & I2 & _ & _ & I5) & C4 & C5 & C6 & C7).
  rewrite (I5 HF Hct), I2, <- C6. rewrite <- C6 in Hl.
  rewrite !(cvec_sum E (bd_A b) (bd_cost b) (bd_w b) x (ms_infos ms) (as_len (bd_A b)) (rd_infos _ _ _ _ _ R) (rd_ok _ _ _ _ _ R) (rd_el _ _ _ _ _ R)).
  rewrite Hct in C7. cbn [choice_cost] in C7.
  assert (M : m = qmaxl (chosen_costs (ms_infos ms) ch') 0).
  { destruct (cvec_largest E (bd_A b) (bd_cost b) (bd_w b) x (ms_infos ms) (as_len (bd_A b)) (rd_infos _ _ _ _ _ R) (rd_ok _ _ _ _ _ R) (rd_el _ _ _ _ _ R) ch' C4 C5) as [L1 L2].
    destruct Hl as [L3 L4]. apply Qcle_antisym; auto. }
  rewrite M. exact C7.
Qed.
Lemma line_exhaustive ms l b1 fuel total et l2 b2 a : ready E b x b0 ms -> enumeration sv b0 l b1 -> populate sv fuel total et b1 = Some (Ok (b2, l2)) -> total <> Some (length l2) ->
  considered E b (map i_idx (ms_infos ms)) x a -> exists et' s', In (et', s') (l ++ map (pair et) l2) /\ rules_out et' (s_actions s') a.
Proof.
  intros R0 H Hp Ht [HAc HPr]. destruct (enumeration_ready E sv b x b0 HE HS HA l b1 H) as (ms1 & ecs & ms' & R & HI & HN & EI & SS & G).
  assert (ms1 = ms) by (pose proof (gd_mip _ _ _ (rd_good _ _ _ _ _ R)); pose proof (gd_mip _ _ _ (rd_good _ _ _ _ _ R0)); congruence). subst ms1. clear R0.
  destruct (sought_choice E b x b0 HE ms a HFl R HAc HPr) as (ch & Hch & EQ).
  destruct (populate_good' _ _ _ _ _ _ _ _ _ HS G Hp) as (chs & ms2 & F2 & EN & _ & _ & _ & _ & EX). specialize (EX HF Ht ch).
  destruct SS as (K1 & K2 & _ & _ & K5 & _). destruct (rd_n _ _ _ _ _ R) as (N1 & N2 & N3). rewrite K1, K2, K5, N1, N2, N3, EI in *.
  rewrite <- after_app in EX.
  assert (HI2 : items_of (bd_cost b) (as_len (bd_A b)) (ms_infos ms) (finishing_solver sv) (ecs ++ map (pair et) chs) (l ++ map (pair et) l2)).
  { apply Forall2_app; [exact HI|]. clear - F2. induction F2; cbn; constructor; cbn; auto. }
  assert (HN2 : enum (finishing_solver sv) (bd_kind b) (bd_cost b) (ms_infos ms) (accept (bd_A b) (bd_w b) (bd_t b) (bd_min b) (bd_max b) x (ms_infos ms)) (ecs ++ map (pair et) chs)).
  { apply enum_app. split; [exact HN|exact EN]. }
  destruct (existsb (fun ec => negb (exclb (fst ec) (bd_kind b) (ms_infos ms) (snd ec) ch)) (ecs ++ map (pair et) chs)) eqn:Ex.
  - apply existsb_exists in Ex. destruct Ex as ([et' ch'] & Hin & Hx). cbn in Hx. apply negb_true_iff in Hx. destruct (In_nth_error _ _ Hin) as (k & Hk).
    destruct (items_nth' _ _ _ _ _ _ _ _ HI2 Hk) as ([et3 s3] & E3 & Q3 & I3). cbn in Q3, I3. subst et3. exists et', s3. split; [eapply nth_error_In, E3|].
    destruct (enum_nth _ _ _ _ _ _ _ _ HN2 Hk) as [P2 _]. cbn in P2. apply after_iff in P2. destruct P2 as [(Hc2 & _) _].
    pose proof (excl_iff E b x b0 ms et' (bd_kind b) ch' ch (fun K _ => HSw K) R Hc2 (proj1 Hch)) as XI. rewrite EQ in XI. destruct I3 as [I3 _].
    rewrite <- I3 in XI. clear - Hx XI. assert (NX : ~ excl et' (bd_kind b) (ms_infos ms) ch' ch) by (intro Z; apply exclb_iff in Z; congruence).
    apply rules_out_nn. intro Z. apply NX. apply XI. exact Z.
  - exfalso. apply EX. apply after_iff. split; [exact Hch|]. apply Forall_forall. intros ec Hin. apply exclb_iff.
    destruct (exclb (fst ec) (bd_kind b) (ms_infos ms) (snd ec) ch) eqn:Q; [reflexivity|]. exfalso.
    assert (existsb (fun ec => negb (exclb (fst ec) (bd_kind b) (ms_infos ms) (snd ec) ch)) (ecs ++ map (pair et) chs) = true); [|congruence].
    apply existsb_exists. exists ec. rewrite Q. auto.
Qed.
Theorem lineup_enumerates : exists slots, lineup (bd_A b) (bd_w b) x slots /\
  (forall l b1 i et s a cs, bd_cost b <> CMax -> enumeration sv b0 l b1 -> nth_error l i = Some (et, s) -> considered E b slots x a ->
     (forall i' et' s', (i' < i)%nat -> nth_error l i' = Some (et', s') -> ~ rules_out et' (s_actions s') a) ->
     action_costs E (bd_cost b) (bd_A b) x a cs -> s_cost s <= qsum cs) /\
  (density E -> regular E (bd_A b) x -> bd_cost b = CMax -> exists eps, 0 < eps /\ forall l b1 i et s a cs m, enumeration sv b0 l b1 -> nth_error l i = Some (et, s) -> considered E b slots x a ->
     (forall i' et' s', (i' < i)%nat -> nth_error l i' = Some (et', s') -> ~ rules_out et' (s_actions s') a) ->
     action_costs E (bd_cost b) (bd_A b) x a cs -> largest cs m -> s_cost s + eps * qsum (s_costs s) <= m + eps * qsum cs) /\
  (forall l b1 fuel total et l2 b2 a, enumeration sv b0 l b1 -> populate sv fuel total et b1 = Some (Ok (b2, l2)) -> total <> Some (length l2) ->
     considered E b slots x a -> exists et' s', In (et', s') (l ++ map (pair et) l2) /\ rules_out et' (s_actions s') a).
Proof.
  destruct (assigned_ready E sv b x b0 HE HA) as (ms & R). exists (map i_idx (ms_infos ms)).
  split; [eapply (line_up E (bd_A b) (bd_cost b) (bd_w b) x (ms_infos ms)); eauto using rd_wf, rd_info|]. split.
  - intros. eapply line_best; eauto.
  - split; [now apply line_max|]. intros. eapply line_exhaustive; eauto.
Qed.
End Enum.
