(** Proofs of the properties of fit: C25-C31. *)
From Verif Require Import Proofs_props_element Proofs_props_actionset Spec_recourse Proofs_mip Proofs_info Proofs_vec Proofs_build Proofs_enum Proofs_session Proofs_recourse Proofs_subset Proofs_exchange Proofs_far Proofs_concrete.
#[local] Open Scope list_scope.
#[local] Open Scope Qc_scope.

(** Everything known right after x has been assigned. *)
Record ready (E : env) (b : builder) (x : list Qc) (b0 : builder) (ms : mipstate) : Prop := {
  rd_good : good b0 ms (accept (bd_A b) (bd_w b) (bd_t b) (bd_min b) (bd_max b) x (ms_infos ms));
  rd_info : get_build_info E (bd_A b) (bd_cost b) (bd_w b) x = Ok (ms_infos ms);
  rd_static : same_static b b0; rd_min : bd_min b0 = bd_min b; rd_max : bd_max b0 = bd_max b;
  rd_wf : wf_aset E (bd_A b); rd_w : length (bd_w b) = as_len (bd_A b); rd_x : length x = as_len (bd_A b);
  rd_el : length (as_elems (bd_A b)) = as_len (bd_A b);
  rd_infos : wf_infos (ms_infos ms);
  rd_ok : Forall (info_ok E (bd_A b) (bd_cost b) (bd_w b) x) (ms_infos ms) }.
Lemma assigned_ready E sv b x b0 : ok_env E -> assigned E sv b x b0 -> exists ms, ready E b x b0 ms.
Proof.
  intros HE HA. destruct (assigned_good E sv b x b0 HE HA) as (ms & G & HI & SS & H1 & H2 & HW & L1 & L2 & HF). exists ms. constructor; auto.
  - eapply wf_len, HW.
  - apply (gd_wf _ _ _ G).
Qed.
(** The length of vectors, cost type, back end seen by b0 are those of b. *)
Lemma rd_n E b x b0 ms : ready E b x b0 ms -> length (bd_w b0) = as_len (bd_A b) /\ bd_cost b0 = bd_cost b /\ bd_kind b0 = bd_kind b.
Proof. intro R. destruct (rd_static _ _ _ _ _ R) as (K1 & K2 & _ & _ & K5 & _). rewrite K2. split; [apply (rd_w _ _ _ _ _ R)|auto]. Qed.

Lemma created_assigned E k A a ct x b0 : aset_reachable E A -> mk_builder E k A a ct (Some x) = Ok b0 ->
  exists b, mk_builder E k A a ct None = Ok b /\ builder_created E b /\ set_x E b x = (b0, Ok tt) /\ forall sv, assigned E sv b x b0.
Proof.
  intros HA H. unfold mk_builder in *. bnd H as wt Hp. destruct wt as [w t]. rewrite Hp. cbn [bind]. bnd H as u Hu. rewrite Hu. cbn [bind].
  bnd H as A' HA'. rewrite HA'. cbn [bind]. cbv zeta in *. set (b := {| bd_kind := k |}) in *. exists b. split; [reflexivity|].
  destruct (set_x E b x) as [b' r] eqn:Hx. bnd H as u2 Hu2. injection H as <-. subst r. destruct u2.
  assert (C : builder_created E b).
  { exists k, A, a, ct, None. split; [exact HA|]. unfold mk_builder. rewrite Hp. cbn [bind]. rewrite Hu. cbn [bind]. rewrite HA'. reflexivity. }
  split; [exact C|]. split; [reflexivity|]. intro sv. split; [exists b, []; split; [exact C|reflexivity]|exact Hx].
Qed.

Section Fit.
Context (E : env) (sv : solver) (b : builder) (x : list Qc) (b0 : builder).
Context (HE : ok_env E) (HS : sound_solver sv) (HA : assigned E sv b x b0).

Lemma session_item l b1 s : session sv b0 l b1 -> In s l ->
  exists ms ch, ready E b x b0 ms /\ accept (bd_A b) (bd_w b) (bd_t b) (bd_min b) (bd_max b) x (ms_infos ms) ch /\
    item_of (bd_cost b) (as_len (bd_A b)) (ms_infos ms) ch (finishing_solver sv) s.
Proof.
  intros Hs Hin. destruct (assigned_ready E sv b x b0 HE HA) as (ms & R). exists ms.
  destruct (session_good sv b0 l b1 Hs ms _ HS (rd_good _ _ _ _ _ R) s Hin) as (ch & HP & HI). exists ch. split; [exact R|]. split; [exact HP|].
  destruct (rd_n _ _ _ _ _ R) as (N1 & N2 & _). rewrite N1, N2 in HI. exact HI.
Qed.

Lemma c25 l b1 s : session sv b0 l b1 -> In s l -> permitted_action (bd_A b) x (s_actions s).
Proof.
  intros Hs Hin. destruct (session_item _ _ _ Hs Hin) as (ms & ch & R & (Hc & _) & (-> & _)).
  eapply (avec_permitted E); eauto using rd_ok, rd_el.
Qed.
Lemma c26 l b1 s : session sv b0 l b1 -> In s l -> on_side (as_y (bd_A b)) (score (bd_w b) (bd_t b) (vadd x (s_actions s))).
Proof.
  intros Hs Hin. destruct (session_item _ _ _ Hs Hin) as (ms & ch & R & (Hc & Ho & _) & (-> & _)).
  rewrite (avec_score E (bd_A b) (bd_cost b) (bd_w b) x (ms_infos ms) _ (rd_infos _ _ _ _ _ R) (rd_ok _ _ _ _ _ R) (rd_el _ _ _ _ _ R) (rd_w _ _ _ _ _ R) (rd_x _ _ _ _ _ R)).
  exact Ho.
Qed.
Lemma c31 l b1 s : session sv b0 l b1 -> In s l -> size_between (bd_min b) (bd_max b) (s_actions s) /\ 0 < s_cost s.
Proof.
  intros Hs Hin. destruct (session_item _ _ _ Hs Hin) as (ms & ch & R & (Hc & _ & Hz & _) & HI). split.
  - unfold size_between. destruct HI as (-> & _).
    rewrite (avec_changed E (bd_A b) (bd_cost b) (bd_w b) x (ms_infos ms) _ (rd_infos _ _ _ _ _ R) (rd_ok _ _ _ _ _ R) eq_refl (rd_el _ _ _ _ _ R) (rd_w _ _ _ _ _ R) (rd_x _ _ _ _ _ R) ch Hc).
    exact Hz.
  - eapply (cost_positive E); eauto using rd_ok, rd_el, rd_infos, rd_w, rd_x. lia.
Qed.
(** Reported costs. *)
Lemma item_costs l b1 s : session sv b0 l b1 -> In s l -> action_costs E (bd_cost b) (bd_A b) x (s_actions s) (s_costs s).
Proof.
  intros Hs Hin. destruct (session_item _ _ _ Hs Hin) as (ms & ch & R & (Hc & _) & (-> & -> & _)).
  eapply (avec_costs E); eauto using rd_ok, rd_el, rd_infos, rd_w, rd_x.
Qed.
Lemma item_total l b1 s : session sv b0 l b1 -> In s l -> (bd_cost b = CMax -> finishing_solver sv) -> overall_cost (bd_cost b) (s_costs s) (s_cost s).
Proof.
  intros Hs Hin HF. destruct (session_item _ _ _ Hs Hin) as (ms & ch & R & (Hc & _ & Hz & _) & (_ & -> & H1 & _ & H2)).
  assert (Q : qsum (cvec (as_len (bd_A b)) (ms_infos ms) ch) = qsum (chosen_costs (ms_infos ms) ch)).
  { eapply (cvec_sum E); eauto using rd_ok, rd_el, rd_infos. }
  unfold overall_cost. destruct (bd_cost b) eqn:Ec.
  - rewrite Q. apply H1. discriminate.
  - rewrite Q. apply H1. discriminate.
  - rewrite (H2 (HF eq_refl) eq_refl). rewrite <- Ec in *.
    eapply (cvec_largest E); eauto using rd_ok, rd_el, rd_infos, rd_w, rd_x. lia.
Qed.

Lemma fit_ready ms : ready E b x b0 ms -> exists b1 r, fit sv b0 = Ok (b1, r) /\
  match r with
  | None => finishing_solver sv -> forall ch, ~ accept (bd_A b) (bd_w b) (bd_t b) (bd_min b) (bd_max b) x (ms_infos ms) ch
  | Some s => exists ch, accept (bd_A b) (bd_w b) (bd_t b) (bd_min b) (bd_max b) x (ms_infos ms) ch /\
       item_of (bd_cost b) (as_len (bd_A b)) (ms_infos ms) ch (finishing_solver sv) s /\
       (finishing_solver sv -> best (bd_cost b) (ms_infos ms) (accept (bd_A b) (bd_w b) (bd_t b) (bd_min b) (bd_max b) x (ms_infos ms)) ch)
  end.
Proof.
  intro R. pose proof (rd_good _ _ _ _ _ R) as G. destruct (rd_n _ _ _ _ _ R) as (N1 & N2 & _).
  destruct (fit_good sv b0 ms _ HS G) as (b1 & r & o & H1 & -> & _ & _ & _ & _ & _ & H). exists b1, r. split; [exact H1|].
  pose proof (fun HF => finishing_good sv b0 ms _ HF G) as HC. rewrite N1, N2 in H. destruct r as [s|].
  - destruct H as (ch & a & g & HP & _ & _ & (I1 & I2 & I3 & I4 & I5) & HB). exists ch. split; [exact HP|]. split; [|auto].
    split; [exact I1|]. split; [exact I2|]. split; [exact I3|]. split; [exact I4|]. auto.
  - auto.
Qed.

Lemma item_movable l b1 s : session sv b0 l b1 -> In s l -> movable_only (bd_A b) x (s_actions s).
Proof.
  intros Hs Hin. destruct (session_item _ _ _ Hs Hin) as (ms & ch & R & (Hc & _) & (-> & _)).
  intros j e xj aj He Hx Ha Hz. assert (L : (j < as_len (bd_A b))%nat) by (rewrite <- (rd_el _ _ _ _ _ R); apply nth_error_Some; congruence).
  rewrite (avec_nth _ _ _ _ L) in Ha. destruct (info_at (ms_infos ms) j) as [i|] eqn:Ei; [|congruence].
  apply info_at_Some in Ei. destruct Ei as [Hi Hj]. destruct (info_ok_at _ _ _ _ _ _ _ (rd_ok _ _ _ _ _ R) Hi) as (e' & xj' & EN).
  pose proof (en_elem _ _ _ _ _ _ _ _ EN) as E1. pose proof (en_x _ _ _ _ _ _ _ _ EN) as E2. rewrite Hj in E1, E2.
  assert (e' = e) by congruence. assert (xj' = xj) by congruence. subst e' xj'. exact (en_rep _ _ _ _ _ _ _ _ EN).
Qed.
Lemma c27_movable b1 a : finishing_solver sv -> density E -> log_ok E (bd_cost b) -> orderly E (bd_A b) (bd_w b) x -> flips_match (bd_A b) (bd_w b) ->
  current_percentiles (bd_A b) -> (bd_min b <= 1)%Z -> denied (as_y (bd_A b)) (score (bd_w b) (bd_t b) x) ->
  fit sv b0 = Ok (b1, None) -> permitted_action (bd_A b) x a -> movable_only (bd_A b) x a -> (Z.of_nat (n_changed a) <= bd_max b)%Z -> compliant (bd_A b) x a ->
  ~ on_side (as_y (bd_A b)) (score (bd_w b) (bd_t b) (vadd x a)).
Proof.
  intros HF HD HL HU HFl HC Hm HDn Hfit HP HMv Hhi HCp HO. destruct (assigned_ready E sv b x b0 HE HA) as (ms & R).
  destruct (fit_ready ms R) as (b1' & r & Hfit' & H). rewrite Hfit in Hfit'. injection Hfit' as <- <-.
  apply (H HF (farthest E (bd_A b) (ms_infos ms) a)).
  eapply (farthest_accepted E); eauto using rd_wf, rd_info, rd_w.
Qed.
Lemma fits_movable A a : fits_grids A x -> movable_only A x a.
Proof. intros H j e xj aj He Hx _ _. exact (H j e xj He Hx). Qed.
Lemma c27 b1 a : finishing_solver sv -> density E -> log_ok E (bd_cost b) -> orderly E (bd_A b) (bd_w b) x -> flips_match (bd_A b) (bd_w b) ->
  fits_grids (bd_A b) x -> current_percentiles (bd_A b) -> (bd_min b <= 1)%Z -> denied (as_y (bd_A b)) (score (bd_w b) (bd_t b) x) ->
  fit sv b0 = Ok (b1, None) -> permitted_action (bd_A b) x a -> (Z.of_nat (n_changed a) <= bd_max b)%Z -> compliant (bd_A b) x a ->
  ~ on_side (as_y (bd_A b)) (score (bd_w b) (bd_t b) (vadd x a)).
Proof. intros. eapply c27_movable; eauto using fits_movable. Qed.
Lemma fit_total : exists b1 r, fit sv b0 = Ok (b1, r).
Proof.
  destruct (assigned_ready E sv b x b0 HE HA) as (ms & R). destruct (fit_ready ms R) as (b1' & r & Hfit' & H). eauto.
Qed.

Lemma c29 b1 s a cs : finishing_solver sv -> density E -> log_ok E (bd_cost b) -> orderly E (bd_A b) (bd_w b) x -> flips_match (bd_A b) (bd_w b) ->
  regular E (bd_A b) x -> (bd_min b <= 1)%Z -> denied (as_y (bd_A b)) (score (bd_w b) (bd_t b) x) -> bd_cost b <> CMax ->
  fit sv b0 = Ok (b1, Some s) -> permitted_action (bd_A b) x a -> (Z.of_nat (n_changed a) <= bd_max b)%Z ->
  on_side (as_y (bd_A b)) (score (bd_w b) (bd_t b) (vadd x a)) -> compliant (bd_A b) x a ->
  action_costs E (bd_cost b) (bd_A b) x a cs -> s_cost s <= qsum cs.
Proof.
  intros HF HD HL HU HFl HR Hm HDn Hct Hfit HP Hhi HO HCp Hcs. destruct (assigned_ready E sv b x b0 HE HA) as (ms & R).
  destruct (fit_ready ms R) as (b1' & r & Hfit' & H). rewrite Hfit in Hfit'. injection Hfit' as <- <-.
  destruct H as (ch & _ & (_ & _ & I3 & _) & HB). rewrite (I3 Hct).
  assert (HAc : accept (bd_A b) (bd_w b) (bd_t b) (bd_min b) (bd_max b) x (ms_infos ms) (counterpart (ms_infos ms) a)).
  { eapply (counterpart_accepted E); eauto using rd_wf, rd_info, rd_w. }
  specialize (HB HF _ HAc). assert (Q : qsum (chosen_costs (ms_infos ms) ch) <= qsum (chosen_costs (ms_infos ms) (counterpart (ms_infos ms) a))).
  { unfold choice_cost in HB. destruct (bd_cost b); [exact HB|exact HB|congruence]. }
  assert (Q2 : qsum (chosen_costs (ms_infos ms) (counterpart (ms_infos ms) a)) <= qsum cs).
  { eapply (counterpart_sum E); eauto using rd_wf, rd_info, rd_w. }
  qlra.
Qed.

(** A price step of a feature: the difference between the prices of two moves offered to it. *)
Lemma price_step ms j e xj u v c c' : density E -> log_ok E (bd_cost b) -> orderly E (bd_A b) (bd_w b) x -> flips_match (bd_A b) (bd_w b) ->
  regular E (bd_A b) x -> bd_cost b = CMax -> ready E b x b0 ms ->
  nth_error (as_elems (bd_A b)) j = Some e -> nth_error x j = Some xj -> (exists wj, nth_error (bd_w b) j = Some wj /\ wj <> 0) ->
  permitted e xj u -> improving e xj u -> permitted e xj v -> improving e xj v -> 
  move_cost E (bd_cost b) e xj u c -> move_cost E (bd_cost b) e xj v c' -> c < c' ->
  exists i k k', In i (ms_infos ms) /\ (k < k' < nopt i)%nat /\ cst i k = c /\ cst i k' = c'.
Proof.
  intros HD HL HU HFl HR Hct R Hj Hx (wj & Hwj & Hw0) Pu Iu Pv Iv Mu Mv Hlt.
  (* the two moves are offered: find their options *)
  set (infos := ms_infos ms) in *.
  assert (OF : forall v q, permitted e xj v -> improving e xj v -> move_cost E (bd_cost b) e xj v q -> v <> xj ->
     exists i k, In i infos /\ i_idx i = j /\ (0 < k < nopt i)%nat /\ act i k = v - xj /\ cst i k = q).
  { intros v' q Pv' Iv' Mv' Hne.
    destruct (x_price E (bd_A b) (bd_cost b) x (rd_wf _ _ _ _ _ R) HR HD HL j e xj v' Hj Hx Pv' Hne) as (q' & Mq & Hq).
    assert (q' = q) by (eapply move_cost_fun; eauto). subst q'.
    assert (Lj : (j < length (as_names (bd_A b)))%nat).
    { change (j < as_len (bd_A b))%nat. rewrite <- (rd_el _ _ _ _ _ R). apply nth_error_Some. congruence. }
    destruct (nth_error (as_names (bd_A b)) j) as [nm|] eqn:En; [|apply nth_error_None in En; lia].
    assert (Hcm : compatible e = Some true).
    { pose proof (x_reach E (bd_A b) (rd_wf _ _ _ _ _ R) _ _ Hj) as Hre. pose proof (c16 E e Hre) as HCm. destruct HFl as [_ HFl'].
      rewrite (HFl' j e wj Hj Hwj) in HCm. apply HCm.
      assert (HY : (as_y (bd_A b) = 1 \/ as_y (bd_A b) = -1)%Z) by apply (rd_wf _ _ _ _ _ R).
      unfold improving in Iv'. rewrite (HFl' j e wj Hj Hwj) in Iv'.
      assert (NEq : v' - xj <> 0) by (intro Z; apply Hne; replace v' with (xj + (v' - xj)) by ring; rewrite Z; ring).
      destruct Pv' as [Pv'|(PA & _ & D1 & D2)]; [congruence|]. split; [exact PA|].
      destruct (qsign_spec wj) as [[S1 S2]|[[S1 S2]|[S1 S2]]]; [|congruence|]; rewrite S2 in *; destruct HY as [HY|HY]; rewrite HY in *; cbn [Z.eqb Pos.eqb Z.opp] in *; destruct Iv' as [Q3 Q4].
      all: split; [lia|]; intro Q.
      all: try (specialize (Q3 ltac:(lia)); specialize (D2 ltac:(lia)); apply Hne; now apply Qcle_antisym).
      all: try (specialize (Q4 ltac:(lia)); specialize (D1 ltac:(lia)); apply Hne; now apply Qcle_antisym). }
    destruct (build_info_spec E (bd_A b) (bd_cost b) (bd_w b) x infos HE (rd_wf _ _ _ _ _ R) (rd_info _ _ _ _ _ R)) as (_ & _ & _ & HC & (_ & HK & _) & _).
    destruct (constrained_dec E (bd_A b) j HE (rd_wf _ _ _ _ _ R)) as [HCo|HCo].
    { apply (HK j e xj nm v' q); auto; [now apply (constrained_iff E (bd_A b) j nm HE (rd_wf _ _ _ _ _ R) En)|apply (proj2 HR j e xj Hj Hx)|eapply (x_far E); eauto]. }
    apply (HC j e xj nm v' q); auto.
    - intro Q. apply HCo. now apply (constrained_iff E (bd_A b) j nm HE (rd_wf _ _ _ _ _ R) En).
    - apply (proj2 HR j e xj Hj Hx).
    - eapply (x_far E); eauto. }
  assert (Z0 : forall q, move_cost E (bd_cost b) e xj xj q -> q = 0).
  { intros q (p1 & p2 & R1 & R2 & ->). rewrite R1 in R2. assert (p2 = p1) by congruence. subst p2. rewrite Hct. destruct (xj <=? xj); ring. }
  assert (Hv : v <> xj).
    { intros ->. specialize (Z0 _ Mv). destruct (Qc_eq_dec u xj) as [->|Hu].
      - assert (c = c') by (eapply move_cost_fun; eauto). subst c'. qlra.
      - destruct (OF u c Pu Iu Mu Hu) as (i & k & Hi & _ & Hk & _ & Ck). pose proof (proj1 (wi_pos _ (wfi' _ (rd_infos _ _ _ _ _ R) i Hi) k Hk)). subst. qlra. }
    destruct (OF v c' Pv Iv Mv Hv) as (i & k' & Hi & Hij & Hk' & _ & Ck'). destruct (Qc_eq_dec u xj) as [Hu|Hu].
    - subst u. exists i, 0%nat, k'. specialize (Z0 _ Mu). split; [exact Hi|]. split; [lia|]. split; [|exact Ck'].
      rewrite (wi_c0 _ (wfi' _ (rd_infos _ _ _ _ _ R) i Hi)). now symmetry.
    - destruct (OF u c Pu Iu Mu Hu) as (i2 & k & Hi2 & Hij2 & Hk & _ & Ck).
      assert (i2 = i) by (apply (idx_inj infos); auto using (rd_infos _ _ _ _ _ R); congruence). subst i2.
      exists i, k, k'. split; [exact Hi|]. split; [|auto]. split; [|lia].
      destruct (Nat.lt_trichotomy k k') as [L|[L|L]]; [exact L|subst; exfalso; qlra|exfalso].
      pose proof (x_cost_incr E (bd_A b) (bd_cost b) (bd_w b) x infos (as_len (bd_A b)) HE (rd_wf _ _ _ _ _ R) (rd_info _ _ _ _ _ R) eq_refl (rd_w _ _ _ _ _ R) HR HD HL i k' k Hi ltac:(lia)). subst. qlra.
Qed.
Lemma c30 b1 s a cs m j e xj u v c c' : finishing_solver sv -> density E -> log_ok E (bd_cost b) -> orderly E (bd_A b) (bd_w b) x -> flips_match (bd_A b) (bd_w b) ->
  regular E (bd_A b) x -> (bd_min b <= 1)%Z -> denied (as_y (bd_A b)) (score (bd_w b) (bd_t b) x) -> bd_cost b = CMax ->
  fit sv b0 = Ok (b1, Some s) -> permitted_action (bd_A b) x a -> (Z.of_nat (n_changed a) <= bd_max b)%Z ->
  on_side (as_y (bd_A b)) (score (bd_w b) (bd_t b) (vadd x a)) -> compliant (bd_A b) x a ->
  action_costs E (bd_cost b) (bd_A b) x a cs -> largest cs m ->
  nth_error (as_elems (bd_A b)) j = Some e -> nth_error x j = Some xj -> (exists wj, nth_error (bd_w b) j = Some wj /\ wj <> 0) ->
  permitted e xj u -> improving e xj u -> permitted e xj v -> improving e xj v -> 
  move_cost E (bd_cost b) e xj u c -> move_cost E (bd_cost b) e xj v c' -> c < c' ->
  s_cost s < m + (c' - c).
Proof.
  intros HF HD HL HU HFl HR Hm HDn Hct Hfit HP Hhi HO HCp Hcs Hlg Hj Hx (wj & Hwj & Hw0) Pu Iu Pv Iv Mu Mv Hlt.
  destruct (assigned_ready E sv b x b0 HE HA) as (ms & R).
  destruct (fit_ready ms R) as (b1' & r & Hfit' & H). rewrite Hfit in Hfit'. injection Hfit' as <- <-.
  destruct H as (ch & (Hc & _ & Hz & _) & (_ & _ & _ & _ & I5) & HB). rewrite (I5 HF Hct).
  assert (HAc : accept (bd_A b) (bd_w b) (bd_t b) (bd_min b) (bd_max b) x (ms_infos ms) (counterpart (ms_infos ms) a)).
  { eapply (counterpart_accepted E); eauto using rd_wf, rd_info, rd_w. }
  assert (Q2 : qmaxl (chosen_costs (ms_infos ms) (counterpart (ms_infos ms) a)) 0 <= m).
  { eapply (counterpart_max E); eauto using rd_wf, rd_info, rd_w. }
  set (infos := ms_infos ms) in *.
  destruct (price_step ms j e xj u v c c' HD HL HU HFl HR Hct R Hj Hx (ex_intro _ wj (conj Hwj Hw0)) Pu Iu Pv Iv Mu Mv Hlt) as (i & k & k' & Hi & Hk & <- & <-). fold infos in Hi.
  assert (Q3 : qmaxl (chosen_costs infos ch) 0 < qmaxl (chosen_costs infos (counterpart infos a)) 0 + (cst i k' - cst i k)).
  { apply (max_within_step E (bd_A b) (bd_cost b) (bd_w b) x infos (as_len (bd_A b)) HE (rd_wf _ _ _ _ _ R) (rd_info _ _ _ _ _ R) eq_refl (rd_w _ _ _ _ _ R) HR HD HL
      (accept (bd_A b) (bd_w b) (bd_t b) (bd_min b) (bd_max b) x infos) ch (counterpart infos a) i k k' Hct (HB HF) HAc Hc (proj1 HAc)); [lia|exact Hi|exact Hk]. }
  qlra.
Qed.
End Fit.
