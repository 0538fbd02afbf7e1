(** Audits, whatever the order of the features, the constraints and the y_desired argument (C52, C53). *)
From Verif Require Import Proofs_props_element Proofs_props_actionset Spec_lineup Spec_audit Proofs_mip Proofs_info Proofs_vec Proofs_build Proofs_enum Proofs_session Proofs_recourse Proofs_subset Proofs_exchange Proofs_builder Proofs_builder2 Proofs_builder3 Proofs_builder5 Proofs_builder6 Proofs_builder7 Proofs_builder8 Proofs_audit Proofs_audit2 Proofs_audit3 Proofs_audit4 Proofs_concrete Proofs_scen Proofs_scen2 Proofs_lineup Proofs_lineup2.
#[local] Open Scope list_scope.
#[local] Open Scope Qc_scope.

Lemma sbf_lineup A A' w x slots : same_but_flips A A' -> lineup A' w x slots -> lineup A w x slots.
Proof.
  intros SB (H1 & H2 & l & r & H3 & H4 & H5 & H6). pose proof SB as (_ & _ & S3 & _).
  assert (HH : forall j, helps A' w j <-> helps A w j).
  { intro j. split; intros (e & wj & He & Hw & Hc).
    - destruct (sbf_elem _ _ _ _ SB He) as (e0 & f & He0 & ->). exists e0, wj. rewrite <- S3. auto.
    - destruct (sbf_elem' _ _ _ _ SB He) as (f & He'). exists (with_flip e f), wj. rewrite S3. auto. }
  split; [exact H1|]. split.
  - intro j. rewrite H2. split; intros (e & wj & xj & v & He & Hw & Hx & Hr & Hp & Hv & Ho).
    + destruct (sbf_elem _ _ _ _ SB He) as (e0 & f & He0 & ->). exists e0, wj, xj, v. rewrite <- S3, <- (sbf_constrained _ _ _ SB). auto 8.
    + destruct (sbf_elem' _ _ _ _ SB He) as (f & He'). exists (with_flip e f), wj, xj, v. rewrite S3, (sbf_constrained _ _ _ SB). auto 8.
  - exists l, r. split; [exact H3|]. split; [exact H4|]. split; intros j Hj; [apply HH|rewrite <- HH]; auto.
Qed.
Lemma sbf_counts A A' x a j : same_but_flips A A' -> (counts A' x a j <-> counts A x a j).
Proof. intro SB. unfold counts. now setoid_rewrite (sbf_constrained _ _ j SB). Qed.
Lemma sbf_limited A A' slots x a : same_but_flips A A' -> (limited A' slots x a <-> limited A slots x a).
Proof. intro SB. pose proof SB as (_ & S2 & _). unfold limited. rewrite S2. now setoid_rewrite (fun j => sbf_counts _ _ x a j SB). Qed.
Lemma sbf_worth A A' w a : same_but_flips A A' -> (worthwhile A' w a <-> worthwhile A w a).
Proof. intro SB. pose proof SB as (_ & _ & S3 & _). unfold worthwhile. rewrite S3. now setoid_rewrite (fun j => sbf_constrained _ _ j SB). Qed.
Lemma sbf_priced E ct A A' x a : same_but_flips A A' -> (priced E ct A' x a <-> priced E ct A x a).
Proof.
  intro SB. split; intros H j e xj aj He Hx Ha Hn.
  - destruct (sbf_elem' _ _ _ _ SB He) as (f & He'). exact (H j _ xj aj He' Hx Ha Hn).
  - destruct (sbf_elem _ _ _ _ SB He) as (e0 & f & He0 & ->). exact (H j e0 xj aj He0 Hx Ha Hn).
Qed.
Lemma fresh_reach E k A w t b slots x a : fresh E k A w t CMax b -> length x = as_len A -> (considered E b slots x a <-> in_reach E A w t slots x a).
Proof.
  intros F HL. pose proof (fr_sbf _ _ _ _ _ _ _ F) as SB. pose proof SB as (_ & _ & S3 & _). unfold considered, sought, in_reach, size_between.
  rewrite (sbf_permitted _ _ _ _ SB), (sbf_worth _ _ _ _ SB), (sbf_limited _ _ _ _ _ SB), (fr_cost _ _ _ _ _ _ _ F), (sbf_priced _ _ _ _ _ _ SB), S3, (fr_w _ _ _ _ _ _ _ F), (fr_t _ _ _ _ _ _ _ F), (fr_min _ _ _ _ _ _ _ F).
  split.
  - intros ((H1 & H2 & H3 & H4 & H5) & H6). repeat (split; [first [assumption|lia]|]). exact H6.
  - intros (H1 & H2 & H3 & H4 & H5 & H6). split; [|exact H6]. split; [exact H1|]. split; [exact H2|]. split; [|auto]. split; [lia|]. eapply fresh_max; eauto.
Qed.
Lemma audit_reach_exact {I} E sv k A w t b (X : list (I * list Qc)) y b' out : ok_env E -> sound_solver sv -> finishing_solver sv ->
  aset_reachable E A -> auditor_used E sv k A w t b -> audit E sv b (table_of X) y = (b', Ok out) ->
  Forall2 (fun p q => ~ has_outcome y (score w t (snd p)) ->
    exists slots, lineup A w (snd p) slots /\
      ((exists c, snd q = Some (true, Fin c)) <-> exists a, in_reach E A w t slots (snd p) a) /\
      (snd q = Some (false, PosInf) <-> forall a, ~ in_reach E A w t slots (snd p) a)) X out.
Proof.
  intros HE HS HF HA HUs H. destruct (used_fresh _ _ _ _ _ _ _ HA HUs) as (HR & F & FM).
  apply audit_ok in H. destruct H as (X0 & E0 & HN & HL & Hlab & o & Ho & _ & ->). apply table_inj in E0. subst X0.
  apply Forall2_map_r. intros [i r] Hp. cbn [fst snd]. intros Hden. pose proof (HL _ Hp) as HLr. cbn [snd] in HLr.
  pose proof (fr_w _ _ _ _ _ _ _ F) as Ew. pose proof (fr_t _ _ _ _ _ _ _ F) as Et.
  destruct (result_judged E sv b y (map snd X) b' o r HR Ho) as (v & -> & bi & b0 & b1 & s & SP & HAs & Hf & ->).
  { apply in_map_iff. exists (i, r). auto. }
  { rewrite Ew, Et. destruct (to_audit w t y r) eqn:T; [reflexivity|]. apply to_audit_iff in T. contradiction. }
  assert (Fi : fresh E k A w t CMax bi) by (eapply fresh_same; eauto). pose proof (fr_sbf _ _ _ _ _ _ _ Fi) as SB.
  assert (FMi : flips_match (bd_A bi) w) by (destruct SP as (_ & _ & _ & SA & _); now rewrite SA).
  assert (HLx : length r = as_len A) by (rewrite HLr, Ew; apply F).
  destruct (lineup_exact E sv bi r b0 HE HS HAs) as (slots & L1 & L2 & L3); [now rewrite (fr_w _ _ _ _ _ _ _ Fi)|].
  rewrite (fr_w _ _ _ _ _ _ _ Fi) in L1. exists slots. split; [eapply sbf_lineup; eauto|].
  destruct L3 as (b1' & s' & Hf' & Hv); [exact HF|].
  rewrite Hf in Hf'. injection Hf' as <- <-. destruct s as [s|]; cbn [verdict_of].
  - assert (Ses : session sv b0 ([s] ++ []) b1) by (exact (ses_fit sv b0 b1 (Some s) [] b1 Hf (ses_done sv b1))).
    pose proof (proj1 (fresh_reach _ _ _ _ _ _ _ _ _ Fi HLx) (L2 _ _ _ Ses (or_introl eq_refl))) as K. split.
    + split; [intros _; eauto|]. intros _. eauto.
    + split; [intro Q; discriminate Q|]. intro Q. destruct (Q _ K).
  - split.
    + split; [intros (c & K); discriminate K|]. intros (a & Ha). destruct (Hv a). now apply (fresh_reach _ _ _ _ _ _ _ _ _ Fi HLx).
    + split; [|reflexivity]. intros _ a Ha. apply (Hv a). now apply (fresh_reach _ _ _ _ _ _ _ _ _ Fi HLx).
Qed.
(** The case of C53: y_desired = -1, the action set wants 1; the individual does not have the outcome -1. *)
Lemma reach_case : exists A w t b x, aset_reachable env0 A /\ auditor_created env0 PyMIP A w t b /\ regular env0 A x /\ as_y A = 1%Z /\
  ~ has_outcome (-1) (score w t x) /\ has_outcome 1 (score w t x) /\
  forall sv, sound_solver sv -> finishing_solver sv -> exists b' c, audit env0 sv b (table_of [(0%nat, x)]) (-1) = (b', Ok [(0%nat, Some (true, Fin c))]).
Proof.
  destruct (aud_case_ok sc53 (fun A b => strictb env0 A x01 && resolvableb A x01 && (as_y A =? 1)%Z && x_test env0 b x01 (fun r => match r with Some _ => true | None => false end))) as (A & b & HA & HC & HT); [vm_compute; reflexivity|].
  do 3 (apply andb_true_iff in HT; destruct HT as [HT ?]). change (sc_env sc53) with env0 in *. exists A, [z 1; z 1], (z 1), b, x01. split; [exact HA|]. split; [exact HC|].
  split; [split; [now apply strictb_ok|now apply resolvableb_ok]|]. split; [now apply Z.eqb_eq|].
  assert (HO : has_outcome 1 (score [z 1; z 1] (z 1) x01)) by (unfold has_outcome; change (0 <? 1)%Z with true; cbn iota; apply qle_iff; vm_compute; reflexivity).
  split; [|split; [exact HO|]].
  { unfold has_outcome in *. change (0 <? -1)%Z with false. change (0 <? 1)%Z with true in HO. cbn iota in *. now apply Qcle_not_lt. }
  intros sv HS HF. destruct (auditor_fresh _ _ _ _ _ _ HA HC) as (F & _). pose proof (fr_w _ _ _ _ _ _ _ F) as Ew. pose proof (fr_t _ _ _ _ _ _ _ F) as Et.
  assert (N1 : [(0%nat, x01)] <> []) by discriminate.
  assert (N2 : forall p, In p [(0%nat, x01)] -> length (snd p) = length (bd_w b)) by (intros p [<-|[]]; rewrite Ew; reflexivity).
  assert (N3 : label (-1)) by (right; now left).
  assert (N4 : exists i, todo_of b (-1) (map snd [(0%nat, x01)]) = [(i, x01)]) by (unfold todo_of; rewrite Ew, Et; exists 0%nat; vm_compute; reflexivity).
  destruct (audit_one env0 sv b _ _ x01 _ env0_ok HS HF (created_reach _ _ _ _ _ _ _ HA HC) N1 N2 N3 N4 H) as (b' & r & g & Hr & Ha & Hg).
  rewrite Ha. destruct r as [s|]; [|discriminate Hr]. exists b', (s_cost s). cbn [map fst snd]. rewrite Hg; [reflexivity|now left].
Qed.
