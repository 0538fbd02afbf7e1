(** Look-alike questions get the same answers (C125). *)
From Verif Require Import Proofs_props_element Proofs_props_actionset Spec_idle Spec_settable Proofs_mip Proofs_info Proofs_vec Proofs_build Proofs_enum Proofs_session Proofs_recourse Proofs_subset Proofs_exchange Proofs_concrete Proofs_builder Proofs_builder2 Proofs_builder3 Proofs_builder4 Proofs_builder5 Proofs_builder6 Proofs_builder7 Proofs_lineup Proofs_values Proofs_assign Proofs_assign4 Proofs_assign5 Proofs_audit Proofs_audit2 Proofs_audit3 Proofs_assign2 Proofs_idle.
#[local] Open Scope list_scope.
#[local] Open Scope Qc_scope.

(** ** Builders that hold the same program *)
Definition peer (b b' : builder) : Prop := bd_kind b' = bd_kind b /\ bd_cost b' = bd_cost b /\ length (bd_w b') = length (bd_w b) /\ bd_mip b' = bd_mip b.
Lemma peer_fit sv b b' : stateless sv -> peer b b' ->
  match fit sv b, fit sv b' with
  | Ok (c, r), Ok (c', r') => r = r' /\ peer c c' /\ bd_sol c = bd_sol c'
  | Err e, Err e' => e = e'
  | _, _ => False
  end.
Proof.
  intros HS (H1 & H2 & H3 & H4). unfold fit, solve_mip. rewrite H4. destruct (bd_mip b) as [ms|]; [|reflexivity]. cbn.
  rewrite (HS (bd_calls b') (bd_calls b)), H1, H2, H3. split; [reflexivity|]. split; [|reflexivity]. repeat split; cbn; auto.
Qed.
Lemma peer_remove et b b' : peer b b' -> bd_sol b = bd_sol b' ->
  match remove_solution et b, remove_solution et b' with Ok c, Ok c' => peer c c' | Err e, Err e' => e = e' | _, _ => False end.
Proof.
  intros (H1 & H2 & H3 & H8) Hs.
  destruct et; cbn [remove_solution]; unfold remove_all_features, remove_feature_combination, with_solution; rewrite H8, <- Hs, ?H1;
    destruct (bd_mip b) as [ms|]; try reflexivity; destruct (bd_sol b) as [[s g|s| |]|]; try reflexivity; repeat split; cbn; auto.
Qed.
Lemma peer_loop sv et : stateless sv -> forall fuel total b b', peer b b' ->
  match populate_loop sv fuel total et b, populate_loop sv fuel total et b' with
  | Some (Ok (c, l)), Some (Ok (c', l')) => l = l' /\ peer c c'
  | Some (Err e), Some (Err e') => e = e'
  | None, None => True
  | _, _ => False
  end.
Proof.
  intro HS. induction fuel as [|fuel IH]; intros total b b' HT; cbn [populate_loop]; destruct (match total with Some 0%nat => true | _ => false end); auto.
  pose proof (peer_fit sv b b' HS HT) as K. destruct (fit sv b) as [[c [s|]]|e], (fit sv b') as [[c' [s'|]]|e']; try (now destruct K); try exact K.
  - destruct K as (K1 & K2 & K3). pose proof (peer_remove et c c' K2 K3) as R. destruct (remove_solution et c) as [d|], (remove_solution et c') as [d'|]; try (now destruct R); try exact R.
    specialize (IH (option_map Init.Nat.pred total) d d' R). destruct (populate_loop sv fuel (option_map Init.Nat.pred total) et d) as [[[f l]|]|], (populate_loop sv fuel (option_map Init.Nat.pred total) et d') as [[[f' l']|]|]; try exact IH; try (now destruct IH).
    destruct IH as [-> ?]. split; [congruence|assumption].
Qed.
Lemma peer_populate sv et fuel total b b' : stateless sv -> peer b b' ->
  match populate sv fuel total et b, populate sv fuel total et b' with
  | Some (Ok (c, l)), Some (Ok (c', l')) => l = l' /\ peer c c'
  | Some (Err e), Some (Err e') => e = e'
  | None, None => True
  | _, _ => False
  end.
Proof.
  intros HS HT. pose proof (peer_loop sv et HS fuel total b b' HT) as K. unfold populate. destruct HT as (_ & _ & _ & H8). rewrite H8. destruct (bd_mip b); [|reflexivity].
  destruct total as [[|n]|]; [reflexivity|exact K|exact K].
Qed.
Lemma peer_session sv b l b1 : stateless sv -> session sv b l b1 -> forall b', peer b b' -> exists b1', session sv b' l b1' /\ peer b1 b1'.
Proof.
  intros HSt H. induction H as [b|b b1 r l b2 Hf Hs IH|b fuel total et b1 l1 l b2 Hp Hs IH]; intros b' T.
  - exists b'. split; [constructor|exact T].
  - pose proof (peer_fit sv b b' HSt T) as K. rewrite Hf in K. destruct (fit sv b') as [[c' r']|e] eqn:Hf'; [|destruct K]. destruct K as (<- & T' & _). destruct (IH c' T') as (b1' & S1 & S2). exists b1'. split; [|exact S2].
    eapply ses_fit; eauto.
  - pose proof (peer_populate sv et fuel total b b' HSt T) as K. rewrite Hp in K. destruct (populate sv fuel total et b') as [[[c' l']|e]|] eqn:Hp'; [|destruct K|destruct K]. destruct K as (<- & T'). destruct (IH c' T') as (b1' & S1 & S2). exists b1'. split; [|exact S2].
    eapply ses_populate; eauto.
Qed.

(** ** Look-alikes *)
Lemma part_alike A w x A' w' x' j : alike A w x A' w' x' -> takes_part A w x j -> takes_part A' w' x' j.
Proof.
  intros (L1 & L2 & L3 & L4) H. destruct (L4 j) as [(Q1 & Q2 & Q3)|[N _]]; [|contradiction]. destruct H as (e & wj & xj & v & H1 & H2 & H3 & H4 & H5 & H6 & H7).
  exists e, wj, xj, v. rewrite Q1, Q2, Q3, L3. repeat (split; [assumption|]). destruct H7 as [H7|H7]; [left|now right]. unfold constrained_at in *. now rewrite L2.
Qed.
Lemma alike_sym A w x A' w' x' : alike A w x A' w' x' -> alike A' w' x' A w x.
Proof.
  intros (L1 & L2 & L3 & L4). split; [auto|]. split; [auto|]. split; [auto|]. intro j. destruct (L4 j) as [(Q1 & Q2 & Q3)|[N1 N2]]; [left|right]; auto.
Qed.
Lemma settable_alike A w x A' w' x' : alike A w x A' w' x' -> settable A w x -> settable A' w' x'.
Proof.
  intros HL [H1 (part & H2 & H3 & H4)]. pose proof (alike_sym _ _ _ _ _ _ HL) as HL'. pose proof HL as (L1 & L2 & L3 & L4). split.
  - intros j Hj. pose proof (part_alike _ _ _ _ _ _ j HL' Hj) as Hj0. destruct (L4 j) as [(Q1 & Q2 & Q3)|[N _]]; [|contradiction].
    destruct (H1 j Hj0) as (e & wj & xj & K1 & K2 & K3 & K4 & K5). exists e, wj, xj. rewrite Q1, Q2, Q3. repeat (split; [assumption|]). intro HC. apply K5. unfold constrained_at in *. now rewrite L2 in HC.
  - exists part. split; [exact H2|]. split.
    + intro j. rewrite H3. split; apply part_alike; assumption.
    + intros j Hj. apply H4. unfold constrained_at in *. now rewrite L2 in Hj.
Qed.
Lemma c125_accepted E sv sv' b b' x x' : ok_env E -> density E -> builder_reachable E sv b -> builder_reachable E sv' b' -> log_ok E (bd_cost b) -> bd_cost b' = bd_cost b ->
  flips_match (bd_A b) (bd_w b) -> flips_match (bd_A b') (bd_w b') -> length x = length (bd_w b) -> length x' = length (bd_w b') ->
  answers E (bd_A b) -> answers E (bd_A b') -> regular E (bd_A b) x -> regular E (bd_A b') x' -> alike (bd_A b) (bd_w b) x (bd_A b') (bd_w b') x' ->
  (snd (set_x E b x) = Ok tt <-> snd (set_x E b' x') = Ok tt).
Proof.
  intros HE HD HR HR' HG HC HF HF' Lx Lx' HAn HAn' HRg HRg' HL. pose proof (alike_sym _ _ _ _ _ _ HL) as HL'.
  rewrite (assign_iff E sv b x HE HD HR HG HF Lx HAn HRg). rewrite (assign_iff E sv' b' x' HE HD HR') by (rewrite ?HC; assumption). rewrite HC.
  split; intros [H1 H2]; (split; [eapply settable_alike; eassumption|]); (destruct H2 as [H2|(j & H2)]; [now left|right; exists j; eapply part_alike; eassumption]).
Qed.
Lemma c125_program E sv sv' b b' x x' b0 b0' : ok_env E -> assigned E sv b x b0 -> assigned E sv' b' x' b0' -> flips_match (bd_A b) (bd_w b) -> flips_match (bd_A b') (bd_w b') ->
  bd_kind b' = bd_kind b -> bd_cost b' = bd_cost b -> bd_min b' = bd_min b -> bd_max b' = bd_max b ->
  alike (bd_A b) (bd_w b) x (bd_A b') (bd_w b') x' -> score (bd_w b') (bd_t b') x' = score (bd_w b) (bd_t b) x -> peer b0 b0'.
Proof.
  intros HE HA HA' HF HF' H1 H2 H3 H4 HL HS.
  destruct (assigned_ready _ _ _ _ _ HE HA) as (ms & R). destruct (assigned_ready _ _ _ _ _ HE HA') as (ms' & R').
  pose proof (rd_info _ _ _ _ _ R) as I1. pose proof (rd_info _ _ _ _ _ R') as I2. rewrite H2 in I2.
  pose proof (infos_alike E (bd_A b) (bd_A b') (bd_cost b) _ _ x x' _ _ HE (rd_wf _ _ _ _ _ R) (rd_wf _ _ _ _ _ R') I1 I2 HF HF' HL) as EI.
  pose proof HL as (L1 & L2 & L3 & _).
  assert (LW : length (bd_w b') = length (bd_w b)). { rewrite (rd_w _ _ _ _ _ R), (rd_w _ _ _ _ _ R'). unfold as_len. now rewrite L1. }
  destruct HA as [_ Hx]. destruct HA' as [_ Hx']. unfold set_x in Hx, Hx'. destruct (Nat.eqb (length x) (length (bd_w b))); [|discriminate Hx]. destruct (Nat.eqb (length x') (length (bd_w b'))); [|discriminate Hx'].
  destruct (build E (bd_kind b) _ _ _ _ _ _ _) as [m|] eqn:B; [|discriminate Hx]. destruct (build E (bd_kind b') _ _ _ _ _ _ _) as [m'|] eqn:B'; [|discriminate Hx'].
  injection Hx as <-. injection Hx' as <-. split; [exact H1|]. split; [exact H2|]. split; [exact LW|]. cbn [bd_mip with_mip].
  assert (EM : Ok m' = Ok m :> res mipstate); [|injection EM as ->; reflexivity]. rewrite <- B, <- B'. unfold build. rewrite H1, H2, H3, H4, L2, L3, I1, I2, EI. cbn [bind].
  unfold score in HS. assert (HS' : dot (bd_w b') x' + bd_t b' = dot (bd_w b) x + bd_t b) by exact HS. rewrite HS'. reflexivity.
Qed.
Lemma c125_answers E sv b b' x x' b0 b0' : ok_env E -> stateless sv -> assigned E sv b x b0 -> assigned E sv b' x' b0' -> flips_match (bd_A b) (bd_w b) -> flips_match (bd_A b') (bd_w b') ->
  bd_kind b' = bd_kind b -> bd_cost b' = bd_cost b -> bd_min b' = bd_min b -> bd_max b' = bd_max b ->
  alike (bd_A b) (bd_w b) x (bd_A b') (bd_w b') x' -> score (bd_w b') (bd_t b') x' = score (bd_w b) (bd_t b) x ->
  forall l b1, session sv b0 l b1 -> exists b1', session sv b0' l b1'.
Proof.
  intros HE HSt HA HA' HF HF' H1 H2 H3 H4 HL HS l b1 Hs. pose proof (c125_program E sv sv b b' x x' b0 b0' HE HA HA' HF HF' H1 H2 H3 H4 HL HS) as P.
  destruct (peer_session sv _ _ _ HSt Hs _ P) as (b1' & K & _). eauto.
Qed.

(** ** Features that play no role *)
Lemma fixed_idle A w x j : fixed_at A j -> ~ takes_part A w x j.
Proof.
  intros H (e & wj & xj & v & H1 & _ & _ & _ & H5 & H6 & _). destruct H5 as [H5|(H5 & _)]; [congruence|]. rewrite (H e H1) in H5. discriminate H5.
Qed.
Lemma ignored_idle A w x j : ignored_at A w j -> ~ takes_part A w x j.
Proof.
  intros [H1 H2] (e & wj & xj & v & _ & K2 & _ & _ & _ & _ & [K|K]); [contradiction|]. rewrite H1 in K2. injection K2 as <-. unfold attains in K. replace (0 * (v - xj)) with 0 in K by ring.
  destruct (0 <? as_y A)%Z; apply Qclt_not_eq in K; congruence.
Qed.
Lemma sbf_alike A A1 w x x' : same_but_flips A A1 -> alike A w x A w x' -> alike A1 w x A1 w x'.
Proof.
  intros SB (_ & _ & _ & L). repeat (split; [reflexivity|]). intro j. destruct (L j) as [(_ & _ & Q)|[N1 N2]]; [left; auto|right]. split; intro H; apply (sbf_part _ _ _ _ _ SB) in H; contradiction.
Qed.
Lemma c125_audits {I J} E sv k A w t b b2 (X : list (I * list Qc)) (X2 : list (J * list Qc)) y b' b2' out out2 p p2 v v2 : ok_env E -> stateless sv -> aset_reachable E A ->
  auditor_used E sv k A w t b -> auditor_used E sv k A w t b2 -> audit E sv b (table_of X) y = (b', Ok out) -> audit E sv b2 (table_of X2) y = (b2', Ok out2) ->
  (exists i, nth_error X i = Some p /\ nth_error out i = Some v) -> (exists i, nth_error X2 i = Some p2 /\ nth_error out2 i = Some v2) ->
  alike A w (snd p) A w (snd p2) -> score w t (snd p2) = score w t (snd p) -> snd v2 = snd v.
Proof.
  intros HE HSt HA HU HU2 Ha Ha2 (i & Hi & Hv) (i2 & Hi2 & Hv2) HL HSc.
  assert (One : forall (K : Type) bb (Y : list (K * list Qc)) bb' oo q u, auditor_used E sv k A w t bb -> audit E sv bb (table_of Y) y = (bb', Ok oo) -> (exists i, nth_error Y i = Some q /\ nth_error oo i = Some u) ->
    (to_audit w t y (snd q) = false /\ snd u = None) \/
    (to_audit w t y (snd q) = true /\ exists bi b0 b1 s, fresh E k A w t CMax bi /\ flips_match (bd_A bi) w /\ bd_A bi = bd_A bb /\ assigned E sv bi (snd q) b0 /\ fit sv b0 = Ok (b1, s) /\ snd u = Some (verdict_of s))).
  { intros K bb Y bb' oo q u HU0 H (n & Hn & Hu). destruct (used_fresh _ _ _ _ _ _ _ HA HU0) as (HR & F & FM). apply audit_ok in H. destruct H as (X0 & E0 & HN & HLn & Hlab & o & Ho & _ & ->). apply table_inj in E0. subst X0.
    pose proof (fr_w _ _ _ _ _ _ _ F) as Ew. pose proof (fr_t _ _ _ _ _ _ _ F) as Et. rewrite nth_error_map, Hn in Hu. cbn in Hu. injection Hu as <-. cbn [snd].
    assert (Hin : In (snd q) (map snd Y)) by (apply in_map; eapply nth_error_In, Hn).
    destruct (to_audit w t y (snd q)) eqn:T; [right|left].
    - split; [reflexivity|]. destruct (result_judged E sv bb y (map snd Y) bb' o (snd q) HR Ho Hin) as (z & -> & bi & b0 & b1 & s & SP & HAs & Hf & ->); [now rewrite Ew, Et|].
      exists bi, b0, b1, s. pose proof SP as (_ & _ & _ & SA & _). split; [eapply fresh_same; eauto|]. split; [now rewrite SA|]. split; [exact SA|]. auto.
    - split; [reflexivity|]. apply (result_none E sv bb y (map snd Y) bb' o (snd q) Ho Hin). now rewrite Ew, Et. }
  assert (TT : to_audit w t y (snd p2) = to_audit w t y (snd p)).
  { destruct (to_audit w t y (snd p)) eqn:T.
    - destruct (to_audit w t y (snd p2)) eqn:T2; [reflexivity|]. apply to_audit_iff in T2. rewrite HSc in T2. apply to_audit_iff in T2. congruence.
    - apply to_audit_iff in T. apply to_audit_iff. now rewrite HSc. }
  destruct (One _ _ _ _ _ _ _ HU Ha (ex_intro _ i (conj Hi Hv))) as [[T R]|[T (bi & b0 & b1 & s & F & FM & SA & HAs & Hf & R)]];
  destruct (One _ _ _ _ _ _ _ HU2 Ha2 (ex_intro _ i2 (conj Hi2 Hv2))) as [[T2 R2]|[T2 (bi2 & b02 & b12 & s2 & F2 & FM2 & SA2 & HAs2 & Hf2 & R2)]]; try congruence.
  rewrite R, R2. f_equal. pose proof (used_unique _ _ _ _ _ _ _ _ HU HU2 HA) as (_ & _ & _ & U4 & _).
  pose proof (fr_w _ _ _ _ _ _ _ F) as Ew. pose proof (fr_w _ _ _ _ _ _ _ F2) as Ew2. pose proof (fr_t _ _ _ _ _ _ _ F) as Et. pose proof (fr_t _ _ _ _ _ _ _ F2) as Et2.
  assert (P : peer b0 b02).
  { apply (c125_program E sv sv bi bi2 (snd p) (snd p2) b0 b02 HE HAs HAs2); rewrite ?Ew, ?Ew2, ?Et, ?Et2; auto.
    - now rewrite (fr_kind _ _ _ _ _ _ _ F), (fr_kind _ _ _ _ _ _ _ F2).
    - now rewrite (fr_cost _ _ _ _ _ _ _ F), (fr_cost _ _ _ _ _ _ _ F2).
    - now rewrite (fr_min _ _ _ _ _ _ _ F), (fr_min _ _ _ _ _ _ _ F2).
    - now rewrite (fr_max _ _ _ _ _ _ _ F), (fr_max _ _ _ _ _ _ _ F2).
    - replace (bd_A bi2) with (bd_A bi) by congruence. apply (sbf_alike A); [exact (fr_sbf _ _ _ _ _ _ _ F)|exact HL]. }
  pose proof (peer_fit sv b0 b02 HSt P) as K. rewrite Hf, Hf2 in K. destruct K as (-> & _). reflexivity.
Qed.
Lemma people_alike A w x x' : (forall j, nth_error x' j = nth_error x j \/ fixed_at A j \/ ignored_at A w j) -> alike A w x A w x'.
Proof.
  intro H. repeat (split; [reflexivity|]). intro j. destruct (H j) as [Q|[Q|Q]]; [left; auto|right|right]; (split; [|]); auto using fixed_idle, ignored_idle.
Qed.
