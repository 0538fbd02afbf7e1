(** Answers of fit are minimal (C117). *)
From Verif Require Import Proofs_props_element Proofs_props_actionset Spec_minimal Proofs_mip Proofs_info Proofs_vec Proofs_build Proofs_enum Proofs_session Proofs_recourse Proofs_subset Proofs_exchange Proofs_concrete Proofs_builder Proofs_builder5.
#[local] Open Scope list_scope.
#[local] Open Scope Qc_scope.

Definition partial_choice (a' : list Qc) (ch : choice) : choice := fun j =>
  match nth_error a' j with Some q => if q =? 0 then 0%nat else ch j | None => ch j end.

Lemma part_nth a' a j p q : part_of a' a -> nth_error a' j = Some p -> nth_error a j = Some q -> p = 0 \/ p = q.
Proof.
  intro H. revert j. induction H as [|p0 q0 a' a K H IH]; intros [|j] H1 H2; cbn in *; try discriminate H1; [|eauto].
  injection H1 as ->. injection H2 as ->. exact K.
Qed.
Lemma part_len a' a : part_of a' a -> length a' = length a.
Proof. apply Forall2_length. Qed.

Section Minimal.
Context (infos : list info) (HW : wf_infos infos) (n : nat) (ch : choice) (Hc : ch_ok infos ch) (a' : list Qc) (HP : part_of a' (avec n infos ch)).

Lemma pc_len : length a' = n.
Proof. rewrite (part_len _ _ HP). unfold avec. apply scatter_length. Qed.
Lemma pc_cases i : ch_ok infos ch -> In i infos -> partial_choice a' ch (i_idx i) = ch (i_idx i) \/ partial_choice a' ch (i_idx i) = 0%nat.
Proof. intros _ _. unfold partial_choice. destruct (nth_error a' (i_idx i)) as [q|]; [destruct (q =? 0)|]; auto. Qed.
Lemma pc_ok : ch_ok infos (partial_choice a' ch).
Proof. intros i Hi. pose proof (wi_len _ (wfi' _ HW i Hi)). destruct (pc_cases i Hc Hi) as [-> | ->]; [apply Hc, Hi|lia]. Qed.
Lemma pc_avec : avec n infos (partial_choice a' ch) = a'.
Proof.
  apply nth_error_ext_local. intro j. destruct (Nat.lt_ge_cases j n) as [L|L].
  2:{ rewrite (proj2 (nth_error_None _ _)), (proj2 (nth_error_None _ _)); [reflexivity|rewrite pc_len; exact L|unfold avec; rewrite scatter_length; exact L]. }
  rewrite (avec_nth infos n _ j L). destruct (nth_error a' j) as [q|] eqn:Eq; [|apply nth_error_None in Eq; rewrite pc_len in Eq; lia].
  pose proof (part_nth _ _ j q _ HP Eq (avec_nth infos n ch j L)) as K. apply (f_equal Some).
  unfold partial_choice. rewrite Eq. destruct (info_at infos j) as [i|] eqn:Ei.
  - apply info_at_Some in Ei. destruct Ei as [Hi Hj]. destruct (q =? 0) eqn:Z.
    + apply qeq_iff in Z. subst q. apply (wi_a0 _ (wfi' _ HW i Hi)).
    + destruct K as [-> | ->]; [discriminate Z|reflexivity].
  - destruct K; congruence.
Qed.
Lemma pc_costs j u v : nth_error (chosen_costs infos (partial_choice a' ch)) j = Some u -> nth_error (chosen_costs infos ch) j = Some v -> u <= v.
Proof.
  unfold chosen_costs. rewrite !nth_error_map. destruct (nth_error infos j) as [i|] eqn:Ei; cbn; [|intro H; discriminate H]. intros H1 H2. injection H1 as <-. injection H2 as <-.
  pose proof (nth_error_In _ _ Ei) as Hi. destruct (pc_cases i Hc Hi) as [-> | ->]; [apply Qcle_refl|].
  rewrite (wi_c0 _ (wfi' _ HW i Hi)). apply (cst_nonneg infos HW i _ Hi (Hc i Hi)).
Qed.
Lemma pc_max : qmaxl (chosen_costs infos (partial_choice a' ch)) 0 <= qmaxl (chosen_costs infos ch) 0.
Proof.
  apply (Proofs_mip.qmaxl_le _ _ _ (proj1 (qmaxl_ge _ _))). intros v Hv. apply In_nth_error in Hv. destruct Hv as (j & Hj).
  destruct (nth_error (chosen_costs infos ch) j) as [u|] eqn:Eu.
  - eapply Qcle_trans; [exact (pc_costs j v u Hj Eu)|]. apply (proj2 (qmaxl_ge _ _)). eapply nth_error_In, Eu.
  - apply nth_error_None in Eu. assert (Q : (j < length (chosen_costs infos (partial_choice a' ch)))%nat) by (apply nth_error_Some; congruence).
    unfold chosen_costs in *. rewrite !map_length in *. lia.
Qed.
Lemma pc_sum_le (l : list info) : (forall i, In i l -> In i infos) ->
  qsum (map (fun i => cst i (partial_choice a' ch (i_idx i))) l) <= qsum (map (fun i => cst i (ch (i_idx i))) l).
Proof.
  induction l as [|i l IH]; intro S0; cbn [map qsum]; [apply Qcle_refl|].
  pose proof (IH (fun k Hk => S0 k (or_intror Hk))) as K. pose proof (S0 i (or_introl eq_refl)) as Hi.
  assert (cst i (partial_choice a' ch (i_idx i)) <= cst i (ch (i_idx i))).
  { destruct (pc_cases i Hc Hi) as [-> | ->]; [apply Qcle_refl|]. rewrite (wi_c0 _ (wfi' _ HW i Hi)). apply (cst_nonneg infos HW i _ Hi (Hc i Hi)). }
  qlra.
Qed.
Lemma pc_sum_lt (l : list info) : (forall i, In i l -> In i infos) -> (exists i, In i l /\ partial_choice a' ch (i_idx i) = 0%nat /\ (0 < ch (i_idx i))%nat) ->
  qsum (map (fun i => cst i (partial_choice a' ch (i_idx i))) l) < qsum (map (fun i => cst i (ch (i_idx i))) l).
Proof.
  intros S0 (i & Hi & H0 & Hk). apply in_split in Hi. destruct Hi as (l1 & l2 & ->).
  assert (I0 : In i infos) by (apply S0, in_or_app; right; now left).
  pose proof (pc_sum_le l1 (fun k H => S0 k (in_or_app _ _ _ (or_introl H)))) as K1.
  pose proof (pc_sum_le l2 (fun k H => S0 k (in_or_app l1 (i :: l2) k (or_intror (or_intror H))))) as K2.
  pose proof (proj1 (wi_pos _ (wfi' _ HW i I0) (ch (i_idx i)) (conj Hk (Hc i I0)))) as P.
  rewrite !map_app, !qsum_app. cbn [map qsum]. rewrite H0, (wi_c0 _ (wfi' _ HW i I0)). qlra.
Qed.
(** A proper part drops a change of some entry. *)
Lemma pc_proper : a' <> avec n infos ch -> exists i, In i infos /\ partial_choice a' ch (i_idx i) = 0%nat /\ (0 < ch (i_idx i))%nat.
Proof.
  intro Ne. destruct (existsb (fun i => Nat.eqb (partial_choice a' ch (i_idx i)) 0 && Nat.ltb 0 (ch (i_idx i))) infos) eqn:Ex.
  - apply existsb_exists in Ex. destruct Ex as (i & Hi & H). apply andb_true_iff in H. destruct H as [H1 H2]. apply Nat.eqb_eq in H1. apply Nat.ltb_lt in H2. eauto.
  - exfalso. apply Ne. rewrite <- pc_avec at 1. apply nth_error_ext_local. intro j. destruct (Nat.lt_ge_cases j n) as [L|L].
    2:{ unfold avec. rewrite (proj2 (nth_error_None _ _)), (proj2 (nth_error_None _ _)); [reflexivity|rewrite scatter_length; exact L|rewrite scatter_length; exact L]. }
    rewrite !avec_nth by exact L. destruct (info_at infos j) as [i|] eqn:Ei; [|reflexivity]. apply info_at_Some in Ei. destruct Ei as [Hi <-].
    assert (F : Nat.eqb (partial_choice a' ch (i_idx i)) 0 && Nat.ltb 0 (ch (i_idx i)) = false).
    { destruct (Nat.eqb (partial_choice a' ch (i_idx i)) 0 && Nat.ltb 0 (ch (i_idx i))) eqn:Q; [|reflexivity]. rewrite <- Ex. symmetry. apply existsb_exists. eauto. }
    destruct (pc_cases i Hc Hi) as [-> | Q]; [reflexivity|]. rewrite Q in *. cbn [Nat.eqb andb] in F. apply Nat.ltb_ge in F. assert (ch (i_idx i) = 0%nat) as -> by lia. reflexivity.
Qed.
End Minimal.

Lemma minimal E sv b x b0 b1 s a' : ok_env E -> sound_solver sv -> finishing_solver sv -> assigned E sv b x b0 ->
  unconstrained (bd_A b) -> (bd_cost b = CMax -> density E /\ regular E (bd_A b) x) ->
  fit sv b0 = Ok (b1, Some s) -> part_of a' (s_actions s) -> a' <> s_actions s ->
  (1 <= n_changed a')%nat -> (bd_min b <= Z.of_nat (n_changed a'))%Z ->
  ~ on_side (as_y (bd_A b)) (score (bd_w b) (bd_t b) (vadd x a')).
Proof.
  intros HE HS HF HA HU HM Hfit HP Hne H1 Hmin HO. destruct (assigned_ready E sv b x b0 HE HA) as (ms & R).
  destruct (fit_ready E sv b x b0 HS ms R) as (b1' & r & Hfit' & H). rewrite Hfit in Hfit'. injection Hfit' as <- <-.
  destruct H as (ch & (Hc & _ & Hz & _) & (Ha & _) & HB). specialize (HB HF). rewrite Ha in HP, Hne.
  pose proof (rd_infos _ _ _ _ _ R) as HW. pose proof (pc_avec _ HW _ ch a' HP) as EA. pose proof (pc_ok _ HW ch Hc a') as OK'.
  assert (NC : n_changed a' = size_ch (ms_infos ms) (partial_choice a' ch)).
  { rewrite <- EA at 1. exact (avec_changed E (bd_A b) (bd_cost b) (bd_w b) x (ms_infos ms) _ HW (rd_ok _ _ _ _ _ R) eq_refl (rd_el _ _ _ _ _ R) (rd_w _ _ _ _ _ R) (rd_x _ _ _ _ _ R) _ OK'). }
  assert (LE : (size_ch (ms_infos ms) (partial_choice a' ch) <= size_ch (ms_infos ms) ch)%nat).
  { unfold size_ch. clear -Hc. induction (ms_infos ms) as [|i l IH]; [cbn; lia|]. cbn [filter].
    assert (IH' := IH (fun k Hk => Hc k (or_intror Hk))).
    assert (D : moved (partial_choice a' ch) i = moved ch i \/ moved (partial_choice a' ch) i = false).
    { unfold moved. destruct (pc_cases [i] ch a' i (fun k Hk => Hc k ltac:(destruct Hk as [<-|[]]; now left)) (or_introl eq_refl)) as [-> | ->]; auto. }
    destruct D as [-> | ->]; destruct (moved ch i); cbn [length]; lia. }
  assert (AC : accept (bd_A b) (bd_w b) (bd_t b) (bd_min b) (bd_max b) x (ms_infos ms) (partial_choice a' ch)).
  { split; [exact OK'|]. split.
    - rewrite <- (avec_score E (bd_A b) (bd_cost b) (bd_w b) x (ms_infos ms) _ HW (rd_ok _ _ _ _ _ R) (rd_el _ _ _ _ _ R) (rd_w _ _ _ _ _ R) (rd_x _ _ _ _ _ R)). rewrite EA. exact HO.
    - split; [lia|]. unfold unconstrained in HU. rewrite HU. constructor. }
  specialize (HB _ AC). pose proof (pc_proper _ HW _ ch Hc a' HP Hne) as PR.
  pose proof (pc_sum_lt _ HW ch Hc a' (ms_infos ms) (fun i Hi => Hi) PR) as LT. fold (chosen_costs (ms_infos ms) (partial_choice a' ch)) (chosen_costs (ms_infos ms) ch) in LT.
  destruct (bd_cost b) eqn:Hct; cbn [choice_cost] in HB; [qlra|qlra|].
  destruct (HM eq_refl) as (HD & HR).
  assert (Ne : ms_infos ms <> []). { destruct PR as (i & Hi & _). intro Q. rewrite Q in Hi. destruct Hi. }
  assert (HL : log_ok E (bd_cost b)) by (rewrite Hct; intro Q; discriminate Q).
  destruct (eps_bounds E (bd_A b) (bd_cost b) (bd_w b) x (ms_infos ms) (as_len (bd_A b)) HE (rd_wf _ _ _ _ _ R) (rd_info _ _ _ _ _ R) eq_refl (rd_w _ _ _ _ _ R) HR HD HL Ne) as [EP _].
  pose proof (pc_max _ HW ch Hc a') as MX. apply (qmul_lt_l _ _ _ EP) in LT. qlra.
Qed.

Lemma changes_help E sv b x b0 l b1 s j wj aj : ok_env E -> sound_solver sv -> assigned E sv b x b0 -> session sv b0 l b1 -> In s l ->
  nth_error (bd_w b) j = Some wj -> nth_error (s_actions s) j = Some aj -> aj <> 0 -> ~ constrained_at (bd_A b) j ->
  if (0 <? as_y (bd_A b))%Z then 0 < wj * aj else wj * aj < 0.
Proof. intros HE HS HA Hs Hin Hw Ha Hn HC. destruct (items_helpful E sv b x b0 HE HS HA l b1 s Hs Hin j wj aj Hw Ha Hn) as [K|K]; [contradiction|exact K]. Qed.

From Verif Require Import Proofs_scen Proofs_scen2 Proofs_builder8.
Lemma minimal_case : forall k ct, exists b b0, (forall sv, assigned env0 sv b x01 b0) /\ bd_kind b = k /\ bd_cost b = ct /\ plain_setup env0 b x01 /\ regular env0 (bd_A b) x01 /\
  forall sv, sound_solver sv -> finishing_solver sv -> exists b1 s a', fit sv b0 = Ok (b1, Some s) /\
    part_of a' (s_actions s) /\ a' <> s_actions s /\ (1 <= n_changed a')%nat /\ (bd_min b <= Z.of_nat (n_changed a'))%Z.
Proof.
  intros k ct.
  destruct (forced (sc2 k ct (- z 5)) (fun b => case_pre k ct b && (bd_min b <=? 1)%Z)
    (fun b r => match r with Some ([p; q], _, _) => negb (p =? 0) && negb (q =? 0) | _ => false end) env0_ok) as (b & b0 & HA & HP & HF); [destruct k, ct; vm_compute; reflexivity|].
  apply andb_true_iff in HP. destruct HP as [HP HM]. destruct (case_pre_ok _ _ _ HP) as (P1 & P2 & P3 & P4 & P5). exists b, b0. split; [exact HA|]. split; [exact P4|]. split; [exact P5|]. split; [exact P1|]. split; [exact P2|].
  intros sv S0 F0. destruct (HF sv S0 F0) as (b1 & [s|] & Hf & Ht); [|discriminate Ht]. cbn [view] in Ht.
  destruct (s_actions s) as [|p [|q [|? ?]]] eqn:Es; try discriminate Ht. apply andb_true_iff in Ht. destruct Ht as [T1 T2].
  exists b1, s, [p; 0]. split; [exact Hf|]. rewrite Es. split; [constructor; [now right|constructor; [now left|constructor]]|].
  assert (NC : n_changed [p; 0] = 1%nat). { unfold n_changed, changes. cbn. destruct (p =? 0); [discriminate T1|]. reflexivity. }
  split; [intro Q; assert (Q1 : q = 0) by congruence; rewrite Q1 in T2; discriminate T2|]. rewrite NC. split; [lia|]. apply Z.leb_le in HM. lia.
Qed.
