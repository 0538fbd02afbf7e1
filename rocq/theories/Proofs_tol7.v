(** The cost type 'max' and the verdicts of fit under a tolerance. *)
From Verif Require Import Proofs_num Proofs_props_element Proofs_props_actionset Spec_tolerance Proofs_mip Proofs_info Proofs_vec Proofs_build Proofs_enum Proofs_tol Proofs_registry
  Proofs_actionset Proofs_recourse Proofs_subset Proofs_session Proofs_far Proofs_builder Proofs_builder2 Proofs_builder3 Proofs_exchange Proofs_concrete Proofs_tol2 Proofs_tol3 Proofs_tol5.
#[local] Open Scope list_scope.
#[local] Open Scope Qc_scope.

Lemma eps_le_1 E A ct w x infos n : ok_env E -> wf_aset E A -> get_build_info E A ct w x = Ok infos -> n = as_len A -> length w = n -> regular E A x -> density E -> log_ok E ct -> infos <> [] ->
  0 < epsilon infos /\ epsilon infos <= 1.
Proof.
  intros HE HA HI Hn Hw HR HD HL Ne. destruct (eps_bounds E A ct w x infos n HE HA HI Hn Hw HR HD HL Ne) as [EP EB]. split; [exact EP|].
  pose proof (x_HW E A ct w x infos HE HA HI) as HW.
  destruct infos as [|i0 r]; [congruence|]. set (infos := i0 :: r) in *. assert (Hi : In i0 infos) by now left.
  assert (L : forall i, In i infos -> (2 <= nopt i)%nat) by (intros i Hi'; pose proof (wi_len _ (wfi' _ HW i Hi')); lia).
  assert (Hc : ch_ok infos (fun _ => 1%nat)) by (intros i Hi'; specialize (L i Hi'); lia).
  specialize (EB _ i0 Hc Hi). pose proof (L i0 Hi) as L0.
  destruct (x_min_diff E A ct w x infos n HE HA HI Hn Hw HR HD HL i0 0%nat 1%nat Hi ltac:(lia)) as [_ MD]. rewrite (wi_c0 _ (wfi' _ HW i0 Hi)) in MD.
  pose proof (proj1 (wi_pos _ (wfi' _ HW i0 Hi) 1%nat ltac:(lia))) as Hp.
  assert (Hin : In (cst i0 1) (chosen_costs infos (fun _ => 1%nat))) by (apply in_map_iff; exists i0; auto).
  pose proof (qsum_pos (chosen_costs infos (fun _ => 1%nat)) _ (fun v => chosen_nonneg infos HW _ v Hc) Hin) as Hq.
  destruct (qle_spec (epsilon infos) 1) as [H|H]; [exact H|]. exfalso. set (u := qsum (chosen_costs infos (fun _ => 1%nat))) in *.
  assert (G : 1 * u < epsilon infos * u) by (apply Qcmult_lt_compat_r; [qlra|exact H]). rewrite Qcmult_1_l in G. qlra.
Qed.

Lemma neg_sum {T} (f : T -> Qc) l : - qsum (map f l) = qsum (map (fun e => - f e) l).
Proof. induction l as [|e l IH]; cbn [map qsum]; [apply Qc_is_canon; reflexivity|]. change (- (f e + qsum (map f l)) = - f e + qsum (map (fun e => - f e) l)). rewrite <- IH. ring. Qed.

Section TolMax.
Context (E : env) (sv : solver) (b : builder) (x : list Qc) (b0 : builder) (d M K : Qc) (b1 : builder) (s : sol).
Context (HE : ok_env E) (HS : solver_within d sv) (HA : assigned E sv b x b0) (HD : fine_for d (bd_A b)) (HM : changes_up_to M (bd_A b) x).
Context (Hct : bd_cost b = CMax) (HK : prices_up_to E (bd_cost b) K (bd_A b) x) (Hfit : fit sv b0 = Ok (b1, Some s)).

(** The point behind an item. *)
Lemma tol_point : exists ms a g, ready E b x b0 ms /\ (sv (bd_calls b0) (ms_mip ms) = SOptimal a g \/ sv (bd_calls b0) (ms_mip ms) = SFeasible a) /\
  meets_within d (ms_mip ms) a /\ shape (bd_kind b0) CMax (ms_infos ms) (ms_mip ms) /\ s_cost s = a VMax /\ s_costs s = scatter (as_len (bd_A b)) (ms_infos ms) (fun i => a (VC (i_idx i))) /\
  (finishing_solver sv -> exists g, sv (bd_calls b0) (ms_mip ms) = SOptimal a g) /\
  (forall ch, accept (bd_A b) (bd_w b) (bd_t b) (bd_min b) (bd_max b) x (ms_infos ms) ch -> mip_sat (ms_mip ms) (assign (ms_infos ms) ch) = true).
Proof.
  destruct (assigned_tgood E sv b x b0 HE HA) as (ms & R & T). destruct (rd_n _ _ _ _ _ R) as (N1 & N2 & N3).
  pose proof (fine_ready E b x b0 ms R d HD) as HI. pose proof (rd_infos _ _ _ _ _ R) as HW. pose proof (rd_ok _ _ _ _ _ R) as HF.
  destruct (tfit d sv b0 ms _ _ _ _ T HI (proj1 (proj2 HD)) HS) as (b1' & r & o & Hf & Ho & _ & _ & _ & _ & H).
  rewrite Hfit in Hf. injection Hf as <- <-. destruct H as (a & g & HO & _).
  pose proof (fit_sol _ _ _ _ _ (tg_mip _ _ _ _ _ _ T) Hfit) as HSol. rewrite <- Ho, N1, N2 in HSol.
  assert (Ex : exposed (bd_kind b0) o = Some a).
  { unfold solution_info in HSol. destruct (exposed (bd_kind b0) o) as [a'|] eqn:Ex; [|discriminate HSol]. f_equal.
    unfold exposed in Ex. destruct HO as [HO|HO]; rewrite HO in Ex; destruct (bd_kind b0); try destruct g; congruence. }
  unfold solution_info in HSol. rewrite Ex in HSol. pose proof (tg_shape _ _ _ _ _ _ T) as SH. rewrite N2, Hct in SH. rewrite Hct in HSol. injection HSol as ->. cbn [s_cost s_costs].
  exists ms, a, g. split; [exact R|]. rewrite <- Ho. split; [exact HO|]. split; [pose proof (HS (bd_calls b0) (ms_mip ms)) as HS'; rewrite <- Ho in HS'; destruct HO as [HO|HO]; rewrite HO in HS'; apply HS'|]. split; [exact SH|]. split; [reflexivity|].
  split; [now rewrite (np_put_scatter _ _ _ (proj2 HW))|]. split.
  - intro HF'. pose proof (finishing_good sv b0 ms _ HF' (rd_good _ _ _ _ _ R)) as C. rewrite <- Ho in C. destruct HO as [HO|HO]; [eauto|]. rewrite HO in C. destruct C.
  - intros ch Hch. apply accept_split in Hch. apply (proj2 (encode _ _ _ HW (ms_mip ms) ch SH)). apply (tg_passes _ _ _ _ _ _ ch T). exact Hch.
Qed.

Lemma d_nonneg : 0 <= d.
Proof. exact (proj1 HD). Qed.
Lemma err_nonneg e : 0 <= d * (1 + K * qz (1 + Z.of_nat (length (e_grid e)))).
Proof.
  pose proof d_nonneg as D0. pose proof (proj1 HK) as K0. rewrite <- (Qcmult_0_r d). apply mul_le_l; [exact D0|].
  assert (0 <= K * qz (1 + Z.of_nat (length (e_grid e)))). { rewrite <- (Qcmult_0_r K). apply mul_le_l; [exact K0|]. change 0 with (qz 0). apply qz_le. lia. } qlra.
Qed.
Lemma err_slack e : In e (as_elems (bd_A b)) -> d * (1 + K * qz (1 + Z.of_nat (length (e_grid e)))) <= cost_slack d K (bd_A b).
Proof.
  intro He. unfold cost_slack. apply qsum_pos; [|apply in_map_iff; eauto]. intros v Hv. apply in_map_iff in Hv. destruct Hv as (e' & <- & _). apply err_nonneg.
Qed.
Lemma slack_nonneg : 0 <= cost_slack d K (bd_A b).
Proof. unfold cost_slack. induction (as_elems (bd_A b)) as [|e l IH]; cbn [map qsum]; [apply Qcle_refl|]. pose proof (err_nonneg e). qlra. Qed.

Theorem tol_max : exists g cs m, stands_for d M b x s g /\ (flips_match (bd_A b) (bd_w b) -> orderly E (bd_A b) (bd_w b) x -> compliant (bd_A b) x g) /\
    action_costs E (bd_cost b) (bd_A b) x g cs /\ largest cs m /\ 0 < m /\ close_to d K (bd_A b) (s_costs s) cs /\ m <= s_cost s + d + cost_slack d K (bd_A b) /\
    (finishing_solver sv -> density E -> log_ok E (bd_cost b) -> good_setup E b x -> regular E (bd_A b) x ->
     forall a cs' m' j e xj u v c c', permitted_action (bd_A b) x a -> (Z.of_nat (n_changed a) <= bd_max b)%Z ->
       on_side (as_y (bd_A b)) (score (bd_w b) (bd_t b) (vadd x a)) -> compliant (bd_A b) x a ->
       action_costs E (bd_cost b) (bd_A b) x a cs' -> largest cs' m' ->
       nth_error (as_elems (bd_A b)) j = Some e -> nth_error x j = Some xj -> (exists wj, nth_error (bd_w b) j = Some wj /\ wj <> 0) ->
       permitted e xj u -> improving e xj u -> permitted e xj v -> improving e xj v ->
       move_cost E (bd_cost b) e xj u c -> move_cost E (bd_cost b) e xj v c' -> c < c' ->
       s_cost s <= m' + (c' - c) + d + cost_slack d K (bd_A b)).
Proof.
  destruct (tol_costs_full E sv b x b0 d M b1 s HE HS HA HD HM Hfit) as (g & cs & H1 & H2 & (H3 & (m & H4 & H4p) & H5) & _ & H6). specialize (H6 Hct K HK).
  destruct tol_point as (ms & a0 & gp & R & HO & HV & SH & Ec & Ecs & HFn & HSat). pose proof d_nonneg as D0. pose proof slack_nonneg as SL0.
  exists g, cs, m. split; [exact H1|]. split; [exact H5|]. split; [exact H2|]. split; [exact H4|]. split; [exact H4p|]. split; [exact H6|].
  pose proof HV as (HVv & HVr & _). rewrite Forall_forall in HVv, HVr.
  assert (VM0 : - d <= a0 VMax). { pose proof (sh_max _ _ _ _ SH eq_refl) as Hd. destruct (HVv _ Hd) as (_ & Hlb & _). cbn in Hlb. qlra. }
  assert (VC0 : forall c, In c (s_costs s) -> c <= s_cost s + d).
  { rewrite Ecs, Ec. intros c Hc. unfold scatter in Hc. apply in_map_iff in Hc. destruct Hc as (j & <- & _). destruct (info_at (ms_infos ms) j) as [i|] eqn:Ei; [|qlra].
    apply info_at_Some in Ei. destruct Ei as [Hi _].
    assert (HR0 : row_within d a0 (set_max_row i)) by (apply HVr, (sh_struct _ _ _ _ SH i); [exact Hi|right; right; auto]).
    destruct HR0 as [HR0 _]. specialize (HR0 0 eq_refl). cbn [set_max_row row_ge r_terms] in HR0. rewrite !eval_cons in HR0. change (eval a0 []) with 0 in HR0. qlra. }
  destruct H6 as [L6 H6]. assert (Lel : length (as_elems (bd_A b)) = as_len (bd_A b)) by (eapply wf_len, (rd_wf _ _ _ _ _ R)).
  assert (Lsc : length (s_costs s) = as_len (bd_A b)) by (rewrite Ecs; apply scatter_length).
  split.
  - destruct H4 as [Hin _]. apply In_nth_error in Hin. destruct Hin as (j & Hj). assert (Lj : (j < length cs)%nat) by (apply nth_error_Some; congruence).
    destruct (nth_error (as_elems (bd_A b)) j) as [e|] eqn:He; [|apply nth_error_None in He; lia]. destruct (nth_error (s_costs s) j) as [c|] eqn:Hc; [|apply nth_error_None in Hc; lia].
    specialize (H6 j e c m He Hc Hj). apply qabs_le in H6. destruct H6 as [H6 _]. pose proof (err_slack e (nth_error_In _ _ He)). pose proof (VC0 c (nth_error_In _ _ Hc)). qlra.
  - intros HF HDn HL (G1 & G2 & G3 & G4 & G5) HRg a cs' m' j e xj u v c c' HP Hhi HOn HCp Hcs Hlg Hj Hx Hw Pu Iu Pv Iv Mu Mv Hlt.
    destruct (HFn HF) as (gp' & HOpt). pose proof (HS (bd_calls b0) (ms_mip ms)) as V. rewrite HOpt in V. destruct V as [_ V].
    destruct (price_step E b x b0 HE ms j e xj u v c c' HDn HL G1 G2 HRg Hct R Hj Hx Hw Pu Iu Pv Iv Mu Mv Hlt) as (i & k & k' & Hi & Hk & <- & <-).
    assert (HAc : accept (bd_A b) (bd_w b) (bd_t b) (bd_min b) (bd_max b) x (ms_infos ms) (counterpart (ms_infos ms) a)) 
      by exact (counterpart_accepted E (bd_A b) (bd_cost b) (bd_w b) x (ms_infos ms) (as_len (bd_A b)) HE (rd_wf _ _ _ _ _ R) (rd_info _ _ _ _ _ R) eq_refl (rd_w _ _ _ _ _ R) G1 G2 HRg HDn HL a _ _ _ G4 G5 HP Hhi HOn HCp).
    assert (Q2 : qmaxl (chosen_costs (ms_infos ms) (counterpart (ms_infos ms) a)) 0 <= m') 
      by exact (counterpart_max E (bd_A b) (bd_cost b) (bd_w b) x (ms_infos ms) (as_len (bd_A b)) HE (rd_wf _ _ _ _ _ R) (rd_info _ _ _ _ _ R) eq_refl (rd_w _ _ _ _ _ R) G1 G2 HRg HDn HL a _ _ HP Hcs Hlg).
    assert (Ne : ms_infos ms <> []) by (intro E0; rewrite E0 in Hi; destruct Hi).
    destruct (eps_bounds E (bd_A b) (bd_cost b) (bd_w b) x (ms_infos ms) (as_len (bd_A b)) HE (rd_wf _ _ _ _ _ R) (rd_info _ _ _ _ _ R) eq_refl (rd_w _ _ _ _ _ R) HRg HDn HL Ne) as [EP EB].
    destruct (eps_le_1 E (bd_A b) (bd_cost b) (bd_w b) x (ms_infos ms) (as_len (bd_A b)) HE (rd_wf _ _ _ _ _ R) (rd_info _ _ _ _ _ R) eq_refl (rd_w _ _ _ _ _ R) HRg HDn HL Ne) as [_ E1].
    destruct (x_min_diff E (bd_A b) (bd_cost b) (bd_w b) x (ms_infos ms) (as_len (bd_A b)) HE (rd_wf _ _ _ _ _ R) (rd_info _ _ _ _ _ R) eq_refl (rd_w _ _ _ _ _ R) HRg HDn HL i k k' Hi Hk) as [_ MD].
    specialize (EB _ i (proj1 HAc) Hi). specialize (V _ (HSat _ HAc)). rewrite (objective_assign _ _ _ (rd_infos _ _ _ _ _ R) _ _ SH (proj1 HAc)) in V. cbn [choice_cost] in V.
    assert (OB : objective (ms_mip ms) a0 = a0 VMax + epsilon (ms_infos ms) * qsum (s_costs s)).
    { unfold objective. rewrite (sh_obj _ _ _ _ SH). cbn [obj_of]. rewrite eval_cons, map_map, (eval_map_coef a0 (fun _ => epsilon (ms_infos ms)) (fun i => VC (i_idx i))).
      rewrite Ecs, (qsum_scatter (as_len (bd_A b)) (ms_infos ms) _ (proj2 (rd_infos _ _ _ _ _ R))).
      - rewrite <- qsum_scale, map_map. ring.
      - intros i' Hi'. destruct (info_ok_at _ _ _ _ _ _ _ (rd_ok _ _ _ _ _ R) Hi') as (e' & x' & EN). pose proof (en_elem _ _ _ _ _ _ _ _ EN) as He'. rewrite <- Lel. apply nth_error_Some. congruence. }
    rewrite OB in V. assert (SC : - cost_slack d K (bd_A b) <= qsum (s_costs s)).
    { unfold cost_slack. set (f := fun e0 : element => d * (1 + K * qz (1 + Z.of_nat (length (e_grid e0))))). 
      assert (NS : - qsum (map f (as_elems (bd_A b))) = qsum (map (fun e0 => - f e0) (as_elems (bd_A b)))) by apply neg_sum.
      rewrite NS. apply Proofs_exchange.qsum_le; [now rewrite map_length, Lel, Lsc|]. intros q p r Hp Hr. rewrite nth_error_map in Hp. destruct (nth_error (as_elems (bd_A b)) q) as [ee|] eqn:Hq; [|discriminate Hp]. cbn in Hp. assert (p = - f ee) by congruence. subst p.
      destruct (nth_error cs q) as [cq|] eqn:Hcq; [|apply nth_error_None in Hcq; assert (q < length (s_costs s))%nat by (apply nth_error_Some; congruence); lia].
      specialize (H6 q ee r cq Hq Hr Hcq). apply qabs_le in H6. destruct H6 as [H6 _]. specialize (H3 cq (nth_error_In _ _ Hcq)). unfold f. qlra. }
    assert (ES : - cost_slack d K (bd_A b) <= epsilon (ms_infos ms) * qsum (s_costs s)).
    { destruct (qle_spec 0 (qsum (s_costs s))) as [P|P].
      - assert (0 <= epsilon (ms_infos ms) * qsum (s_costs s)) by (apply qmul_nonneg; [now apply Qclt_le_weak|exact P]). qlra.
      - assert (G : epsilon (ms_infos ms) * - qsum (s_costs s) <= 1 * - qsum (s_costs s)) by (apply Qcmult_le_compat_r; [exact E1|qlra]). rewrite Qcmult_1_l in G.
        replace (epsilon (ms_infos ms) * - qsum (s_costs s)) with (- (epsilon (ms_infos ms) * qsum (s_costs s))) in G by ring. qlra. }
    rewrite Ec. qlra.
Qed.
End TolMax.

(** The verdict of fit with respect to all actions, whatever the prices. *)
Lemma tol_none E sv b x b0 d b1 a : ok_env E -> solver_within d sv -> finishing_solver sv -> density E -> log_ok E (bd_cost b) -> assigned E sv b x b0 -> fine_for d (bd_A b) -> good_setup E b x ->
  fit sv b0 = Ok (b1, None) -> permitted_action (bd_A b) x a -> movable_only (bd_A b) x a -> (Z.of_nat (n_changed a) <= bd_max b)%Z -> compliant (bd_A b) x a ->
  ~ on_side (as_y (bd_A b)) (score (bd_w b) (bd_t b) (vadd x a)).
Proof.
  intros HE HS HF HDn HL HA HD (G1 & G2 & G3 & G4 & G5) Hfit HP HMv Hhi HCp HO. destruct (assigned_tgood E sv b x b0 HE HA) as (ms & R & T). destruct (rd_n _ _ _ _ _ R) as (N1 & N2 & N3).
  pose proof (fine_ready E b x b0 ms R d HD) as HI.
  destruct (tfit d sv b0 ms _ _ _ _ T HI (proj1 (proj2 HD)) HS) as (b1' & r & o & Hf & Ho & _ & _ & _ & _ & H). rewrite Hfit in Hf. injection Hf as <- <-.
  assert (HC : conclusive o) by (rewrite Ho; exact (finishing_good sv b0 ms _ HF (rd_good _ _ _ _ _ R))).
  assert (HAc : accept (bd_A b) (bd_w b) (bd_t b) (bd_min b) (bd_max b) x (ms_infos ms) (farthest E (bd_A b) (ms_infos ms) a)) 
    by exact (farthest_accepted E (bd_A b) (bd_cost b) (bd_w b) x (ms_infos ms) (as_len (bd_A b)) HE (rd_wf _ _ _ _ _ R) (rd_info _ _ _ _ _ R) eq_refl (rd_w _ _ _ _ _ R) G1 G2 G3 HDn HL a _ _ _ G4 G5 HP HMv HO Hhi HCp).
  apply accept_split in HAc. exact (H HC _ (proj1 HAc) (proj2 HAc)).
Qed.
