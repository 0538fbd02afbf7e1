(** Reported costs under a tolerance. *)
From Verif Require Import Proofs_num Proofs_props_element Proofs_props_actionset Spec_tolerance Proofs_mip Proofs_info Proofs_vec Proofs_build Proofs_enum Proofs_tol Proofs_registry
  Proofs_actionset Proofs_recourse Proofs_subset Proofs_session Proofs_builder Proofs_builder2 Proofs_builder3 Proofs_exchange Proofs_concrete Proofs_tol2 Proofs_tol3.
#[local] Open Scope list_scope.
#[local] Open Scope Qc_scope.

Lemma fit_sol sv b ms b1 r : bd_mip b = Some ms -> fit sv b = Ok (b1, r) -> r = solution_info (bd_kind b) (bd_cost b) (length (bd_w b)) ms (sv (bd_calls b) (ms_mip ms)).
Proof. intros Hm H. unfold fit, solve_mip in H. rewrite Hm in H. cbn [bind] in H. unfold get_solution in H. cbn [with_mip bd_mip bd_sol bind] in H. injection H as _ <-. reflexivity. Qed.
Lemma exact_hot d infos a ch i k : wf_infos infos -> fine_infos d infos -> near_agree d infos a ch -> In i infos -> (k < nopt i)%nat -> bit (a (VU (i_idx i) k)) -> a (VU (i_idx i) k) = hot (ch (i_idx i)) k.
Proof.
  intros HW HD [_ NA] Hi Hk Hb. destruct (NA i Hi) as [NU _]. specialize (NU k Hk). pose proof (fine_half d _ i HW HD Hi) as F. pose proof two_halves as T2. apply qabs_le in NU. destruct NU as [N1 N2].
  destruct Hb as [E0|E0], (hot_bit (ch (i_idx i)) k) as [E1|E1]; rewrite E0, E1 in *; try reflexivity; exfalso; qlra.
Qed.

Theorem tol_costs_full E sv b x b0 d M b1 s : ok_env E -> solver_within d sv -> assigned E sv b x b0 -> fine_for d (bd_A b) -> changes_up_to M (bd_A b) x -> fit sv b0 = Ok (b1, Some s) ->
  exists g cs, stands_for d M b x s g /\ action_costs E (bd_cost b) (bd_A b) x g cs /\
    ((forall c, In c cs -> 0 <= c) /\ (exists m, largest cs m /\ 0 < m) /\ (flips_match (bd_A b) (bd_w b) -> orderly E (bd_A b) (bd_w b) x -> compliant (bd_A b) x g)) /\
    (whole_indicators sv -> bd_cost b <> CMax -> s_costs s = cs /\ s_cost s = qsum cs) /\
    (bd_cost b = CMax -> forall K, prices_up_to E (bd_cost b) K (bd_A b) x -> close_to d K (bd_A b) (s_costs s) cs).
Proof.
  intros HE HS HA HD HM Hfit. destruct (assigned_tgood E sv b x b0 HE HA) as (ms & R & T). destruct (rd_n _ _ _ _ _ R) as (N1 & N2 & N3).
  pose proof (fine_ready E b x b0 ms R d HD) as HI. pose proof (rd_infos _ _ _ _ _ R) as HW. pose proof (rd_ok _ _ _ _ _ R) as HF.
  destruct (tfit d sv b0 ms _ _ _ _ T HI (proj1 (proj2 HD)) HS) as (b1' & r & o & Hf & Ho & _ & _ & _ & _ & H).
  rewrite Hfit in Hf. injection Hf as <- <-. destruct H as (a & g & HO & HT & NA & HP & HSd & _). rewrite N1 in HT. set (ch := ch_near (ms_infos ms) a) in *.
  exists (avec (as_len (bd_A b)) (ms_infos ms) ch), (cvec (as_len (bd_A b)) (ms_infos ms) ch).
  split; [exact (item_stands E b x b0 ms R d M HD s a ch HM NA HP HT HSd)|]. split; [eapply (avec_costs E); eauto using rd_ok, rd_el, rd_infos, rd_w, rd_x; apply NA|].
  split.
  { destruct HP as (HP0 & HP1 & HP2). split; [|split].
    - intros c Hc. unfold cvec, scatter in Hc. apply in_map_iff in Hc. destruct Hc as (j & <- & _). destruct (info_at (ms_infos ms) j) as [i|] eqn:Ei; [|apply Qcle_refl].
      apply info_at_Some in Ei. destruct Ei as [Hi _]. apply (chosen_nonneg (ms_infos ms) HW ch _ (proj1 NA)). apply in_map_iff. eauto.
    - exists (qmaxl (chosen_costs (ms_infos ms) ch) 0). split; [apply (cvec_largest E (bd_A b) (bd_cost b) (bd_w b) x (ms_infos ms) (as_len (bd_A b)) HW HF (rd_el _ _ _ _ _ R) ch (proj1 NA)); lia|].
      destruct (size_pos (ms_infos ms) ch) as (i & Hi & Hm); [lia|]. pose proof (moved_cost_pos (ms_infos ms) HW ch i (proj1 NA) Hi Hm) as Hp.
      assert (Hin : In (cst i (ch (i_idx i))) (chosen_costs (ms_infos ms) ch)) by (apply in_map_iff; eauto). pose proof (proj2 (qmaxl_ge (chosen_costs (ms_infos ms) ch) 0) _ Hin). qlra.
    - intros HFl HOr. exact (rounded_compliant E b x b0 ms R ch HE (conj HP0 (conj HP1 HP2)) HFl HOr). }
  pose proof (fit_sol _ _ _ _ _ (tg_mip _ _ _ _ _ _ T) Hfit) as HSol. rewrite <- Ho, N1, N2 in HSol.
  assert (Ex : exposed (bd_kind b0) o = Some a).
  { unfold solution_info in HSol. destruct (exposed (bd_kind b0) o) as [a'|] eqn:Ex; [|discriminate HSol]. f_equal.
    unfold exposed in Ex. destruct HO as [HO|HO]; rewrite HO in Ex; destruct (bd_kind b0); try destruct g; congruence. }
  unfold solution_info in HSol. rewrite Ex in HSol. pose proof (tg_shape _ _ _ _ _ _ T) as SH. rewrite N2 in SH. split.
  - intros HWh Hct. assert (HB : forall i k, In i (ms_infos ms) -> (k < nopt i)%nat -> a (VU (i_idx i) k) = assign (ms_infos ms) ch (VU (i_idx i) k)).
    { intros i k Hi Hk. cbn [assign]. apply (exact_hot d (ms_infos ms) a ch i k HW HI NA Hi Hk). destruct (sh_u _ _ _ _ SH i k Hi Hk) as (q & Hq). rewrite Ho in HO. exact (HWh _ _ _ _ _ HO Hq eq_refl). }
    assert (HC : forall c v, In (c, v) (flat_map cost_terms (ms_infos ms)) -> a v = assign (ms_infos ms) ch v).
    { intros c v Hin. apply in_flat_map in Hin. destruct Hin as (i & Hi & Hin). unfold cost_terms in Hin. apply in_combine_r in Hin. unfold uvars in Hin. apply in_map_iff in Hin. destruct Hin as (k & <- & Hk).
      apply in_seq in Hk. apply HB; [exact Hi|unfold nopt; lia]. }
    assert (CV : map fst (filter (fun p => negb (a (snd p) =? 0)) (flat_map cost_terms (ms_infos ms))) = map (fun i => cst i (ch (i_idx i))) (ms_infos ms)).
    { rewrite <- (cost_values (ms_infos ms) (assign (ms_infos ms) ch) ch HW (assign_agree _ _ HW (proj1 NA))). f_equal. apply filter_ext_in. intros [c v] Hin. cbn [snd]. now rewrite (HC c v Hin). }
    assert (OB : objective (ms_mip ms) a = qsum (chosen_costs (ms_infos ms) ch)).
    { unfold objective. rewrite (sh_obj _ _ _ _ SH). assert (EO : obj_of (bd_cost b) (ms_infos ms) = flat_map cost_terms (ms_infos ms)) by (destruct (bd_cost b); [reflexivity|reflexivity|congruence]). rewrite EO.
      rewrite (eval_ext a (assign (ms_infos ms) ch)) by exact HC. rewrite <- EO, <- (sh_obj _ _ _ _ SH). apply (objective_sum _ _ _ HW _ _ ch SH Hct (assign_agree _ _ HW (proj1 NA))). }
    rewrite (cvec_sum E (bd_A b) (bd_cost b) (bd_w b) x (ms_infos ms) (as_len (bd_A b)) HW HF (rd_el _ _ _ _ _ R)).
    unfold cvec. rewrite <- (np_put_scatter _ _ _ (proj2 HW)). rewrite <- CV, <- OB. destruct (bd_cost b); [| |congruence]; injection HSol as ->; split; reflexivity.
  - intros Hct K [HK0 HK]. rewrite Hct in HSol. injection HSol as ->. cbn [s_costs]. rewrite (np_put_scatter _ _ _ (proj2 HW)). unfold cvec. split; [now rewrite !scatter_length|].
    intros j e aj gj He Haj Hgj. rewrite scatter_nth in Haj, Hgj. destruct (Nat.ltb j (as_len (bd_A b))) eqn:L; [|discriminate Haj]. destruct (info_at (ms_infos ms) j) as [i|] eqn:Ei.
    + apply info_at_Some in Ei. destruct Ei as [Hi <-]. assert (aj = a (VC (i_idx i))) by congruence. assert (gj = cst i (ch (i_idx i))) by congruence. subst aj gj.
      destruct (info_ok_at _ _ _ _ _ _ _ HF Hi) as (e' & xj & EN). pose proof (en_elem _ _ _ _ _ _ _ _ EN) as He'. assert (e' = e) by congruence. subst e'.
      pose proof (wfi' _ HW i Hi) as Wi. pose proof NA as NA0. destruct NA as [Hc NA']. destruct (NA' i Hi) as [NU _]. specialize (Hc i Hi).
      (* the definition row *)
      assert (HV : meets_within d (ms_mip ms) a) by (specialize (HS (bd_calls b0) (ms_mip ms)); rewrite <- Ho in HS; destruct HO as [HO|HO]; rewrite HO in HS; apply HS).
      destruct HV as (_ & HRw & _). rewrite Forall_forall in HRw.
      assert (HDr : row_within d a (def_cost_row (bd_kind b0) i)) by (apply HRw, (sh_struct _ _ _ _ SH i); [exact Hi|right; right; rewrite Hct; auto]).
      assert (LC : length (i_costs i) = length (uvars i)) by (rewrite (wi_len2 _ Wi); unfold uvars, nopt; now rewrite map_length, seq_length).
      pose proof (eval_near a (assign (ms_infos ms) ch) d (cost_terms i)) as EV.
      assert (E0 : eval (assign (ms_infos ms) ch) (cost_terms i) = cst i (ch (i_idx i))).
      { exact (agree_costs (ms_infos ms) (assign (ms_infos ms) ch) ch i (assign_agree _ _ HW (proj1 NA0)) Wi Hi). }
      assert (E1 : qsum (map (fun p : Qc * mvar => qabs (fst p)) (cost_terms i)) = qsum (map qabs (i_costs i))).
      { f_equal. rewrite <- (map_map fst qabs). f_equal. unfold cost_terms. revert LC. generalize (uvars i). generalize (i_costs i). induction l as [|q l IH]; intros [|v vs] LU; try discriminate LU; [reflexivity|]. cbn [combine map fst]. f_equal. apply IH. now injection LU. }
      assert (SA : qsum (map qabs (i_costs i)) <= K * qz (1 + Z.of_nat (length (e_grid e)))).
      { assert (S1 : qsum (map qabs (i_costs i)) <= K * qz (Z.of_nat (length (i_costs i)))).
        { apply sum_abs_le. intros q Hq. apply In_nth_error in Hq. destruct Hq as (k & Hk).
          assert (Lk : (k < nopt i)%nat) by (rewrite <- (wi_len2 _ Wi); apply nth_error_Some; congruence). assert (Ek : cst i k = q) by (unfold cst; now apply nth_error_nth).
          destruct k as [|k]; [rewrite <- Ek, (wi_c0 _ Wi); exact HK0|]. rewrite <- Ek.
          exact (HK _ _ _ _ _ He (en_x _ _ _ _ _ _ _ _ EN) (en_perm _ _ _ _ _ _ _ _ EN (S k) Lk) (en_cost _ _ _ _ _ _ _ _ EN (S k) ltac:(lia))). }
        assert (S2 : K * qz (Z.of_nat (length (i_costs i))) <= K * qz (1 + Z.of_nat (length (e_grid e)))).
        { apply mul_le_l; [exact HK0|]. apply qz_le. pose proof (nopt_grid _ _ _ _ _ _ _ _ EN) as L2. rewrite (wi_len2 _ Wi). lia. }
        qlra. }
      rewrite E0, E1 in EV. specialize (EV ltac:(intros q v Hin; unfold cost_terms in Hin; apply in_combine_r in Hin; unfold uvars in Hin; apply in_map_iff in Hin; destruct Hin as (k & <- & Hk); apply in_seq in Hk; cbn [assign]; apply NU; unfold nopt; lia)).
      assert (SB : d * qsum (map qabs (i_costs i)) <= d * (K * qz (1 + Z.of_nat (length (e_grid e))))) by (apply mul_le_l; [apply HD|exact SA]).
      replace (d * (1 + K * qz (1 + Z.of_nat (length (e_grid e))))) with (d + d * (K * qz (1 + Z.of_nat (length (e_grid e))))) by ring.
      apply qabs_le in EV. destruct EV as [EV1 EV2]. apply qabs_le. destruct HDr as [S1 S2].
      destruct (bd_kind b0); specialize (S1 0 eq_refl); specialize (S2 0 eq_refl); cbn [def_cost_row row_eq r_terms] in S1, S2; rewrite eval_cons in S1, S2; rewrite ?eval_neg in S1, S2; split; qlra.
    + assert (aj = 0) by congruence. assert (gj = 0) by congruence. subst aj gj. replace (0 - 0) with 0 by ring. change (qabs 0) with 0.
      assert (0 <= K * qz (1 + Z.of_nat (length (e_grid e)))).
      { rewrite <- (Qcmult_0_r K). apply mul_le_l; [exact HK0|]. change 0 with (qz 0). apply qz_le. lia. }
      rewrite <- (Qcmult_0_r d). apply mul_le_l; [apply HD|]. qlra.
Qed.
Theorem tol_costs E sv b x b0 d M b1 s : ok_env E -> solver_within d sv -> assigned E sv b x b0 -> fine_for d (bd_A b) -> changes_up_to M (bd_A b) x -> fit sv b0 = Ok (b1, Some s) ->
  exists g cs, stands_for d M b x s g /\ action_costs E (bd_cost b) (bd_A b) x g cs /\
    (whole_indicators sv -> bd_cost b <> CMax -> s_costs s = cs /\ s_cost s = qsum cs) /\
    (bd_cost b = CMax -> forall K, prices_up_to E (bd_cost b) K (bd_A b) x -> close_to d K (bd_A b) (s_costs s) cs).
Proof.
  intros HE HS HA HD HM Hf. destruct (tol_costs_full E sv b x b0 d M b1 s HE HS HA HD HM Hf) as (g & cs & H1 & H2 & _ & H3). eauto.
Qed.
