(** Tolerances: programs as built, enumeration, and what the user sees. *)
From Verif Require Import Proofs_num Proofs_props_element Proofs_props_actionset Spec_tolerance Proofs_mip Proofs_info Proofs_vec Proofs_build Proofs_enum Proofs_tol Proofs_registry
  Proofs_actionset Proofs_recourse Proofs_subset Proofs_session Proofs_builder Proofs_builder2 Proofs_builder3 Proofs_exchange Proofs_tol2.
#[local] Open Scope list_scope.
#[local] Open Scope Qc_scope.

(** ** The program as built *)
Definition accept0 (A : action_set) (lo hi : Z) (infos : list info) (ch : choice) : Prop :=
  ch_ok infos ch /\ (Z.max lo 1 <= Z.of_nat (size_ch infos ch) <= hi)%Z /\ Forall (fun p => subset_ok infos ch (snd p)) (r_cons (as_cons A)).
Lemma accept_split A w t lo hi x infos ch : accept A w t lo hi x infos ch <-> accept0 A lo hi infos ch /\ on_side (as_y A) (dot w x + t + gain infos ch).
Proof. unfold accept, accept0. tauto. Qed.
Lemma build_t E k A ct w t t' lo hi x ms : build E k A ct w t lo hi x = Ok ms ->
  exists ms', build E k A ct w t' lo hi x = Ok ms' /\ ms_infos ms' = ms_infos ms /\ m_vars (ms_mip ms') = m_vars (ms_mip ms) /\ tl (m_rows (ms_mip ms')) = tl (m_rows (ms_mip ms)) /\
    m_rows (ms_mip ms') = score_row (as_y A) (dot w x + t') (ms_infos ms) :: tl (m_rows (ms_mip ms')) /\
    m_rows (ms_mip ms) = score_row (as_y A) (dot w x + t) (ms_infos ms) :: tl (m_rows (ms_mip ms)).
Proof.
  unfold build. intro H. bnd H as infos Hi. bnd H as subs Hs. rewrite Hi. cbn [bind]. rewrite Hs. cbn [bind]. cbv zeta in *. destruct ct.
  1,2: bnd H as u Hu; rewrite Hu; injection H as <-; cbn [bind]; eexists; repeat split.
  injection H as <-. eexists. repeat split.
Qed.
Lemma on_side_0 y : on_side y 0.
Proof. unfold on_side. destruct (0 <? y)%Z; apply Qcle_refl. Qed.
Lemma build_drop E k A ct w t lo hi x ms : wf_infos (ms_infos ms) -> build E k A ct w t lo hi x = Ok ms ->
  forall ch, passes (ms_infos ms) (drop1 (ms_mip ms)) ch <-> accept0 A lo hi (ms_infos ms) ch.
Proof.
  intros HW HB ch. set (t' := - dot w x - gain (ms_infos ms) ch).
  destruct (build_t _ _ _ _ _ _ t' _ _ _ _ HB) as (ms' & HB' & EI & EV & ER & EH & _). rewrite <- EI in HW.
  destruct (build_shape _ _ _ _ _ _ _ _ _ _ HW HB') as (_ & _ & SP). specialize (SP ch). rewrite EI in *. rewrite accept_split in SP.
  assert (E0 : dot w x + t' + gain (ms_infos ms) ch = 0) by (unfold t'; ring). rewrite E0 in SP. pose proof (on_side_0 (as_y A)) as O0.
  assert (Q : passes (ms_infos ms) (ms_mip ms') ch <-> passes (ms_infos ms) (drop1 (ms_mip ms)) ch); [|tauto].
  unfold passes. cbn [drop1 m_rows m_vars]. rewrite EV, EH, ER. split.
  - intros (Hc & HR & Hb). split; [exact Hc|]. split; [|exact Hb]. intros r Hr. apply HR. now right.
  - intros (Hc & HR & Hb). split; [exact Hc|]. split; [|exact Hb]. intros r [<-|Hr] P; [|auto]. apply (score_row_ok _ HW). now rewrite E0.
Qed.
Lemma sorted_nodup l : StronglySorted lt l -> NoDup l.
Proof. induction 1 as [|a l H IH HF]; constructor; [|exact IH]. intro Hin. rewrite Forall_forall in HF. specialize (HF a Hin). lia. Qed.
Lemma dget_In_nodup {V} k (v : V) d : NoDup (map fst d) -> In (k, v) d -> dget k d = Some v.
Proof.
  induction d as [|[k' v'] d IH]; intros HN Hin; [destruct Hin|]. cbn [map fst] in HN. inversion HN as [|? ? H1 H2]; subst. cbn [dget]. destruct Hin as [E0|Hin].
  - injection E0 as -> ->. now rewrite String.eqb_refl.
  - destruct (String.eqb_spec k k') as [->|N]; [exfalso; apply H1; apply in_map_iff; exists (k', v); auto|auto].
Qed.
Lemma indices_len E A id c : wf_aset E A -> In (id, c) (r_cons (as_cons A)) -> (length (c_indices c) <= as_len A)%nat.
Proof.
  intros (_ & _ & _ & HN & [[_ HK] HC] & _) Hin. assert (HS : stored (as_cons A) id c) by (unfold stored; now apply dget_In_nodup).
  destruct (HC id c HS) as (_ & _ & _ & _ & HF & HSo & _). unfold as_len. rewrite <- (seq_length (length (as_names A)) 0).
  apply NoDup_incl_length; [now apply sorted_nodup|]. intros j Hj. apply in_seq. rewrite HN in HF.
  apply In_nth_error in Hj. destruct Hj as (p & Hp). apply Forall2_nth in HF. destruct HF as [HL HF].
  destruct (nth_error (c_names c) p) as [nm|] eqn:En; [|apply nth_error_None in En; assert (p < length (c_indices c))%nat by (apply nth_error_Some; congruence); lia].
  specialize (HF _ _ _ En Hp). split; [lia|]. cbn. apply nth_error_Some. congruence.
Qed.
Lemma off_nopt infos i : wf_infos infos -> In i infos -> (0 < nopt i)%nat.
Proof. intros HW Hi. pose proof (wi_len _ (wfi' _ HW i Hi)). lia. Qed.

Lemma assigned_tgood E sv b x b0 : ok_env E -> assigned E sv b x b0 ->
  exists ms, ready E b x b0 ms /\
    tgood b0 ms (as_y (bd_A b)) (dot (bd_w b) x + bd_t b) (as_len (bd_A b)) (accept0 (bd_A b) (bd_min b) (bd_max b) (ms_infos ms)).
Proof.
  intros HE HA. destruct (assigned_ready E sv b x b0 HE HA) as (ms & R). exists ms. split; [exact R|]. pose proof (rd_good _ _ _ _ _ R) as G.
  destruct HA as [_ HX]. unfold set_x in HX. destruct (Nat.eqb (length x) (length (bd_w b))); [|apply pair_equal_spec in HX; destruct HX as [_ HX]; discriminate HX].
  destruct (build E (bd_kind b) (bd_A b) (bd_cost b) (bd_w b) (bd_t b) (bd_min b) (bd_max b) x) as [ms'|e] eqn:EB; [|apply pair_equal_spec in HX; destruct HX as [_ HX]; discriminate HX].
  apply pair_equal_spec in HX. destruct HX as [<- _]. assert (ms' = ms) by (pose proof (gd_mip _ _ _ G) as Q; cbn in Q; congruence). subst ms'.
  pose proof (rd_infos _ _ _ _ _ R) as HW. pose proof (gd_shape _ _ _ G) as SH. cbn [bd_kind bd_cost with_mip] in SH.
  destruct (build_inv _ _ _ _ _ _ _ _ _ _ EB) as (subs & HI & HS & HO & Hsos & HV & HR & HNe).
  destruct (build_t _ _ _ _ _ _ (bd_t b) _ _ _ _ EB) as (_ & _ & _ & _ & _ & _ & EH).
  pose proof (infos_le E b x _ ms R) as HL. constructor.
  - apply (gd_mip _ _ _ G).
  - constructor; try reflexivity.
    + exact HW.
    + cbn [dropms ms_infos ms_mip]. destruct SH as [S1 S2 S3 S4 S5 S6 S7]. cbn [bd_kind bd_cost] in *. split; cbn [drop1 m_vars m_rows m_sos m_obj]; auto.
      * intros r Hr. apply S4. rewrite EH. now right.
      * intros i r Hi Hr. specialize (S5 i r Hi Hr). rewrite EH in S5. destruct S5 as [S5|S5]; [exfalso|exact S5].
        apply (f_equal r_name) in S5. unfold score_row in S5. destruct (0 <? as_y (bd_A b))%Z; destruct Hr as [->|[->|[_ [->| ->]]]]; try discriminate S5; unfold set_row, def_cost_row in S5; match type of S5 with context [match ?k with CPX => _ | PyMIP => _ end] => destruct k end; discriminate S5.
    + exact (gd_bnd _ _ _ G).
    + exact (gd_idx _ _ _ G).
    + intro ch. apply (build_drop _ _ _ _ _ _ _ _ _ _ HW EB).
  - exact EH.
  - intros r Hr HP. rewrite HR in Hr. unfold base_rows in Hr. cbn [app tl] in Hr. rewrite <- !app_assoc in Hr. rewrite !in_app_iff in Hr. cbn [In] in Hr.
    assert (CN : forall nm rel e q, r = rel nm e q -> (rel = row_ge \/ rel = row_le) -> e = sum_of (map off_var (ms_infos ms)) -> (exists zq, q = qz zq) -> counting (ms_infos ms) (as_len (bd_A b)) r).
    { intros nm rel e q -> Hrel -> (zq & ->). unfold counting. assert (ET : r_terms (rel nm (sum_of (map off_var (ms_infos ms))) (qz zq)) = sum_of (map off_var (ms_infos ms))) by (destruct Hrel as [->| ->]; reflexivity).
      rewrite ET. split; [|split; [|split]].
      - unfold sum_of. rewrite !map_length. exact HL.
      - intros c v Hin. unfold sum_of in Hin. apply in_map_iff in Hin. destruct Hin as (v0 & E0 & Hv). apply pair_equal_spec in E0. destruct E0 as [<- ->].
        split; [now left|]. apply in_map_iff in Hv. destruct Hv as (i & <- & Hi). exists i, 0%nat. split; [exact Hi|]. split; [now apply (off_nopt (ms_infos ms))|reflexivity].
      - intros q0 Hq. destruct Hrel as [->| ->]; cbn in Hq; [injection Hq as <-; eauto|discriminate Hq].
      - intros q0 Hq. destruct Hrel as [->| ->]; cbn in Hq; [discriminate Hq|injection Hq as <-; eauto]. }
    destruct Hr as [Hr|[[Hr|[Hr|Hr]]|Hr]].
    + apply in_flat_map in Hr. destruct Hr as (i & Hi & [<-|[<-|[]]]); right; exists i; auto.
    + left. symmetry in Hr. eapply CN; [exact Hr|now left|reflexivity|eauto].
    + left. symmetry in Hr. eapply CN; [exact Hr|now right|reflexivity|eauto].
    + left. apply in_concat in Hr. destruct Hr as (rs & Hrs & Hr). apply mapM_ok in HS. apply In_nth_error in Hrs. destruct Hrs as (q & Hq). apply Forall2_nth in HS. destruct HS as [HL2 HN].
      match type of HL2 with length ?l = _ => destruct (nth_error l q) as [[p c]|] eqn:Ep end.
      2:{ apply nth_error_None in Ep. assert (q < length subs)%nat by (apply nth_error_Some; congruence). lia. }
      specialize (HN _ _ _ Ep Hq). apply nth_error_In in Ep. apply in_combine_r in Ep. apply in_map_iff in Ep. destruct Ep as ((id & c') & Ec & Hin). cbn in Ec. subst c'.
      pose proof (indices_len E (bd_A b) id c (rd_wf _ _ _ _ _ R) Hin) as LC.
      unfold subset_rows in HN. bnd HN as vs Hvs. destruct (null_vars_spec _ _ _ Hvs) as (l & Hl & ->). pose proof (Forall2_length _ _ _ Hl) as LL.
      assert (TM : r_terms r = neg_sum_of (map null_var l)) by (destruct (bd_kind b); injection HN as <-; [destruct Hr as [<-|[]]|destruct Hr as [<-|[<-|[]]]]; reflexivity).
      unfold counting. rewrite TM. split; [|split; [|split]].
      * unfold neg_sum_of. rewrite !map_length. lia.
      * intros c0 v Hv. unfold neg_sum_of in Hv. apply in_map_iff in Hv. destruct Hv as (v0 & E0 & Hv). apply pair_equal_spec in E0. destruct E0 as [<- ->].
        split; [now right|]. apply in_map_iff in Hv. destruct Hv as (i & <- & Hi). exists i, (i_knull i). pose proof (Forall2_nth_In (ms_infos ms) _ _ i Hl Hi) as Hi'.
        split; [exact Hi'|]. split; [apply (wi_null _ (wfi' _ HW i Hi'))|reflexivity].
      * intros q0 Hq0. destruct (bd_kind b); injection HN as <-; [destruct Hr as [<-|[]]|destruct Hr as [<-|[<-|[]]]]; cbn in Hq0; try discriminate Hq0; injection Hq0 as <-; [eauto|rewrite <- qz_minus; eauto].
      * intros q0 Hq0. destruct (bd_kind b); injection HN as <-; [destruct Hr as [<-|[]]|destruct Hr as [<-|[<-|[]]]]; cbn in Hq0; try discriminate Hq0; injection Hq0 as <-; [rewrite <- qz_plus; eauto|rewrite <- qz_minus; eauto].
    + exfalso. destruct (bd_cost b); [destruct Hr|destruct Hr|]. apply in_flat_map in Hr. destruct Hr as (i & Hi & [<-|[<-|[]]]); revert HP; apply (not_plain_cost (ms_infos ms) (bd_kind b) i).
  - exact HL.
  - intros i k q Hi Hd. left. rewrite HV in Hd. rewrite !in_app_iff in Hd. destruct Hd as [Hd|[Hd|Hd]].
    + apply in_map_iff in Hd. destruct Hd as (i' & E1 & _). apply (f_equal v_bin) in E1. discriminate E1.
    + apply In_uvars_decl in Hd. destruct Hd as (i' & q' & _ & _ & E1). exact (f_equal v_lb E1).
    + destruct (bd_cost b); [destruct Hd|destruct Hd|]. apply in_map_iff in Hd. destruct Hd as (v & E1 & _). apply (f_equal v_bin) in E1. discriminate E1.
Qed.

(** ** What an item stands for *)
Lemma nopt_grid E A ct w x i e xj : entry_of E A ct w x i e xj -> (nopt i <= 1 + length (e_grid e))%nat.
Proof.
  intro EN. pose proof (en_wf _ _ _ _ _ _ _ _ EN) as Wi. unfold nopt.
  replace (1 + length (e_grid e))%nat with (length (0 :: map (fun v => v - xj) (e_grid e))) by (cbn; now rewrite map_length).
  apply NoDup_incl_length; [apply (wi_nodup _ Wi)|]. intros q Hq. apply In_nth_error in Hq. destruct Hq as (k & Hk).
  assert (Lk : (k < nopt i)%nat) by (unfold nopt; apply nth_error_Some; congruence). assert (Ek : act i k = q) by (unfold act; now apply nth_error_nth).
  destruct (en_perm _ _ _ _ _ _ _ _ EN k Lk) as [P|P].
  - left. rewrite Ek in P. assert (q = (xj + q) - xj) by ring. rewrite P in H. rewrite H. ring.
  - right. apply in_map_iff. exists (xj + act i k). split; [rewrite Ek; ring|apply P].
Qed.
Lemma sum_abs_le M l : (forall q, In q l -> qabs q <= M) -> qsum (map qabs l) <= M * qz (Z.of_nat (length l)).
Proof.
  induction l as [|q l IH]; intro H.
  - cbn [map qsum length]. change (qz (Z.of_nat 0)) with 0. rewrite Qcmult_0_r. apply Qcle_refl.
  - cbn [map qsum length]. rewrite Nat2Z.inj_succ, <- Z.add_1_l, qz_plus. change (qz 1) with 1. specialize (IH (fun q Hq => H q (or_intror Hq))). pose proof (H q (or_introl eq_refl)) as Hq.
    replace (M * (1 + qz (Z.of_nat (length l)))) with (M + M * qz (Z.of_nat (length l))) by ring. qlra.
Qed.
Section User.
Context (E : env) (b : builder) (x : list Qc) (b0 : builder) (ms : mipstate) (R : ready E b x b0 ms) (d M : Qc) (HD : fine_for d (bd_A b)).
Lemma fine_ready : fine_infos d (ms_infos ms).
Proof.
  destruct HD as (H0 & _ & HG). split; [exact H0|]. intros i Hi. destruct (info_ok_at _ _ _ _ _ _ _ (rd_ok _ _ _ _ _ R) Hi) as (e & xj & EN).
  pose proof (nopt_grid _ _ _ _ _ _ _ _ EN) as L. specialize (HG e ltac:(eapply nth_error_In, (en_elem _ _ _ _ _ _ _ _ EN))).
  assert (d * qz (1 + Z.of_nat (nopt i)) <= d * qz (2 + Z.of_nat (length (e_grid e)))) by (apply mul_le_l; [exact H0|apply qz_le; lia]). qlra.
Qed.
Lemma item_stands s a ch : changes_up_to M (bd_A b) x -> near_agree d (ms_infos ms) a ch -> accept0 (bd_A b) (bd_min b) (bd_max b) (ms_infos ms) ch ->
  titem (ms_infos ms) (as_len (bd_A b)) a s -> on_side_within d (as_y (bd_A b)) (dot (bd_w b) x + bd_t b + sgain (ms_infos ms) a) ->
  stands_for d M b x s (avec (as_len (bd_A b)) (ms_infos ms) ch).
Proof.
  intros [HM0 HM] [Hc NA] (_ & Hz & _) HT HO. pose proof (rd_infos _ _ _ _ _ R) as HW. pose proof (rd_ok _ _ _ _ _ R) as HF. unfold stands_for. split; [|split; [|split]].
  - eapply avec_permitted; [exact HF|reflexivity|exact (rd_el _ _ _ _ _ R)|exact Hc].
  - unfold size_between. rewrite (avec_changed E (bd_A b) (bd_cost b) (bd_w b) x (ms_infos ms) _ (rd_infos _ _ _ _ _ R) (rd_ok _ _ _ _ _ R) eq_refl (rd_el _ _ _ _ _ R) (rd_w _ _ _ _ _ R) (rd_x _ _ _ _ _ R) ch Hc). exact Hz.
  - rewrite HT. split; [unfold avec; now rewrite !scatter_length|]. intros j e aj gj He Ha Hg. unfold avec in Hg. rewrite scatter_nth in Ha, Hg.
    destruct (Nat.ltb j (as_len (bd_A b))) eqn:L; [|discriminate Ha]. destruct (info_at (ms_infos ms) j) as [i|] eqn:Ei.
    + apply info_at_Some in Ei. destruct Ei as [Hi <-]. assert (aj = a (VA (i_idx i))) by congruence. assert (gj = act i (ch (i_idx i))) by congruence. subst aj gj.
      destruct (NA i Hi) as [_ N2]. destruct (info_ok_at _ _ _ _ _ _ _ HF Hi) as (e' & xj & EN). pose proof (en_elem _ _ _ _ _ _ _ _ EN) as He'. assert (e' = e) by congruence. subst e'.
      assert (SA : qsum (map qabs (i_actions i)) <= M * qz (1 + Z.of_nat (length (e_grid e)))).
      { assert (S1 : qsum (map qabs (i_actions i)) <= M * qz (Z.of_nat (length (i_actions i)))).
        { apply sum_abs_le. intros q Hq. apply In_nth_error in Hq. destruct Hq as (k & Hk).
          assert (Lk : (k < nopt i)%nat) by (unfold nopt; apply nth_error_Some; congruence). assert (Ek : act i k = q) by (unfold act; now apply nth_error_nth).
          pose proof (HM _ _ _ _ He (en_x _ _ _ _ _ _ _ _ EN) (en_perm _ _ _ _ _ _ _ _ EN k Lk)) as Q. rewrite Ek in Q. replace (xj + q - xj) with q in Q by ring. exact Q. }
        assert (S2 : M * qz (Z.of_nat (length (i_actions i))) <= M * qz (1 + Z.of_nat (length (e_grid e)))).
        { apply mul_le_l; [exact HM0|]. apply qz_le. pose proof (nopt_grid _ _ _ _ _ _ _ _ EN) as L2. unfold nopt in L2. lia. }
        qlra. }
      assert (d * qsum (map qabs (i_actions i)) <= d * (M * qz (1 + Z.of_nat (length (e_grid e))))) by (apply mul_le_l; [apply HD|exact SA]).
      replace (d * (1 + M * qz (1 + Z.of_nat (length (e_grid e))))) with (d + d * (M * qz (1 + Z.of_nat (length (e_grid e))))) by ring. qlra.
    + assert (aj = 0) by congruence. assert (gj = 0) by congruence. subst aj gj. replace (0 - 0) with 0 by ring. change (qabs 0) with 0.
      assert (0 <= M * qz (1 + Z.of_nat (length (e_grid e)))).
      { rewrite <- (Qcmult_0_r M). apply mul_le_l; [exact HM0|]. change 0 with (qz 0). apply qz_le. lia. }
      rewrite <- (Qcmult_0_r d). apply mul_le_l; [apply HD|]. qlra.
  - unfold score. rewrite dot_vadd; [|rewrite (rd_x _ _ _ _ _ R), (rd_w _ _ _ _ _ R); reflexivity|rewrite HT, scatter_length, (rd_w _ _ _ _ _ R); reflexivity].
    rewrite HT. rewrite <- (rd_w _ _ _ _ _ R). rewrite dot_scatter.
    + assert (Q : map (fun i => nth (i_idx i) (bd_w b) 0 * a (VA (i_idx i))) (ms_infos ms) = map (fun i => i_coef i * a (VA (i_idx i))) (ms_infos ms)).
      { apply map_ext_in. intros i Hi. destruct (info_ok_at _ _ _ _ _ _ _ HF Hi) as (e & xj & EN). f_equal. apply nth_error_nth. apply (en_w _ _ _ _ _ _ _ _ EN). }
      rewrite Q. unfold sgain in HO. set (g := qsum (map (fun i => i_coef i * a (VA (i_idx i))) (ms_infos ms))) in *.
      replace (dot (bd_w b) x + g + bd_t b) with (dot (bd_w b) x + bd_t b + g) by ring. exact HO.
    + apply HW.
    + intros i Hi. destruct (info_ok_at _ _ _ _ _ _ _ HF Hi) as (e & xj & EN). apply nth_error_Some. rewrite (en_w _ _ _ _ _ _ _ _ EN). discriminate.
Qed.
Lemma rounded_compliant ch : ok_env E -> accept0 (bd_A b) (bd_min b) (bd_max b) (ms_infos ms) ch -> flips_match (bd_A b) (bd_w b) -> orderly E (bd_A b) (bd_w b) x ->
  compliant (bd_A b) x (avec (as_len (bd_A b)) (ms_infos ms) ch).
Proof.
  intros HE (Hc & _ & HS) HFl HO. assert (HL : lined (bd_A b) x) by (exact (lined_of E _ _ _ (rd_wf _ _ _ _ _ R) HFl (proj1 HO))).
  apply (rows_compliant E (bd_A b) (bd_cost b) (bd_w b) x (ms_infos ms) (as_len (bd_A b)) HE (rd_wf _ _ _ _ _ R) (rd_info _ _ _ _ _ R) eq_refl ch HL); auto.
  intros j xj HC Hx. eapply orderly_x; eauto.
Qed.
End User.

(** ** fit *)
Theorem tol_fit E sv b x b0 d M : ok_env E -> solver_within d sv -> assigned E sv b x b0 -> fine_for d (bd_A b) -> changes_up_to M (bd_A b) x ->
  exists b1 r, fit sv b0 = Ok (b1, r) /\
    match r with
    | Some s => exists g, stands_for d M b x s g /\ (flips_match (bd_A b) (bd_w b) -> orderly E (bd_A b) (bd_w b) x -> compliant (bd_A b) x g) /\
        (finishing_solver sv -> bd_cost b <> CMax -> density E -> log_ok E (bd_cost b) -> orderly E (bd_A b) (bd_w b) x -> flips_match (bd_A b) (bd_w b) -> regular E (bd_A b) x ->
         forall a, acceptable b x a -> exists cs, action_costs E (bd_cost b) (bd_A b) x a cs /\ s_cost s <= qsum cs + d)
    | None => finishing_solver sv -> density E -> log_ok E (bd_cost b) -> orderly E (bd_A b) (bd_w b) x -> flips_match (bd_A b) (bd_w b) -> regular E (bd_A b) x ->
        forall a, ~ acceptable b x a
    end.
Proof.
  intros HE HS HA HD HM. destruct (assigned_tgood E sv b x b0 HE HA) as (ms & R & T). destruct (rd_n _ _ _ _ _ R) as (N1 & N2 & N3).
  pose proof (fine_ready E b x b0 ms R d HD) as HI. destruct HD as (H0 & HN & HG). pose proof (conj H0 (conj HN HG)) as HD.
  destruct (tfit d sv b0 ms _ _ _ _ T HI HN HS) as (b1 & r & o & Hf & Ho & _ & _ & _ & _ & H). exists b1, r. split; [exact Hf|].
  assert (HC : finishing_solver sv -> conclusive o) by (intro HF; rewrite Ho; exact (finishing_good sv b0 ms _ HF (rd_good _ _ _ _ _ R))).
  destruct r as [s|].
  - destruct H as (a & g & HO & HT & NA & HP & HSd & HB). rewrite N1 in HT. exists (avec (as_len (bd_A b)) (ms_infos ms) (ch_near (ms_infos ms) a)). split; [|split].
    + exact (item_stands E b x b0 ms R d M HD s a _ HM NA HP HT HSd).
    + intros HFl HOr. exact (rounded_compliant E b x b0 ms R _ HE HP HFl HOr).
    + intros HF Hct HDe HL HOr HFl HR a' Ha'. destruct (helpful_choice E b x b0 HE ms a' HDe HL HOr HFl HR R Ha') as (ch & Hch & Ea).
      exists (cvec (as_len (bd_A b)) (ms_infos ms) ch). rewrite <- Ea. pose proof (rd_infos _ _ _ _ _ R) as HW. pose proof (rd_ok _ _ _ _ _ R) as HFo. split.
      * eapply (avec_costs E); eauto using rd_ok, rd_el, rd_infos, rd_w, rd_x. apply Hch.
      * rewrite (cvec_sum E (bd_A b) (bd_cost b) (bd_w b) x (ms_infos ms) (as_len (bd_A b)) (rd_infos _ _ _ _ _ R) (rd_ok _ _ _ _ _ R) (rd_el _ _ _ _ _ R)). rewrite N2 in HB. apply accept_split in Hch. apply (HB (HC HF) Hct ch); apply Hch.
  - intros HF HDe HL HOr HFl HR a' Ha'. destruct (helpful_choice E b x b0 HE ms a' HDe HL HOr HFl HR R Ha') as (ch & Hch & Ea). apply accept_split in Hch.
    exact (H (HC HF) ch (proj1 Hch) (proj2 Hch)).
Qed.
