(** When assigning an individual succeeds. *)
From Verif Require Import Proofs_props_element Proofs_props_actionset Spec_recourse Proofs_mip Proofs_info Proofs_vec Proofs_build Proofs_enum Proofs_session Proofs_recourse Proofs_subset Proofs_exchange Proofs_far Proofs_concrete Proofs_builder Proofs_builder2 Proofs_builder3 Proofs_builder4 Proofs_builder5.
#[local] Open Scope list_scope.
#[local] Open Scope Qc_scope.

(** ** Sorted lists *)
Lemma ssorted_F2 (f : Qc -> res Qc) l m : StronglySorted Qclt l -> Forall2 (fun v p => f v = Ok p) l m ->
  (forall u v p q, In u l -> In v l -> u < v -> f u = Ok p -> f v = Ok q -> p < q) -> StronglySorted Qclt m.
Proof.
  intros HS HF. revert HS. induction HF as [|v p l m Hv HF IH]; intros HS H; [constructor|]. inversion HS as [|? ? HS' HA]; subst. constructor.
  - apply IH; [exact HS'|]. intros u v' p' q' Hu Hv'. apply H; now right.
  - rewrite Forall_forall in *. intros q Hq. apply In_nth_error in Hq. destruct Hq as (k & Hk). apply Forall2_nth in HF. destruct HF as [LL HF].
    destruct (nth_error l k) as [u|] eqn:Eu; [|apply nth_error_None in Eu; assert (nth_error m k <> None) as N by congruence; apply nth_error_Some in N; lia].
    pose proof (nth_error_In _ _ Eu) as Hu. exact (H v u p q (or_introl eq_refl) (or_intror Hu) (HA u Hu) Hv (HF _ _ _ Eu Hk)).
Qed.
Lemma ssorted_map (R S : Qc -> Qc -> Prop) (f : Qc -> Qc) l : StronglySorted R l -> (forall a b, In a l -> In b l -> R a b -> S (f a) (f b)) -> StronglySorted S (map f l).
Proof.
  induction 1 as [|a l H IH HF]; intro K; cbn; [constructor|]. constructor; [apply IH; intros; apply K; try (now right); assumption|].
  rewrite Forall_forall in *. intros y Hy. apply in_map_iff in Hy. destruct Hy as (b & <- & Hb). apply K; [now left|now right|auto].
Qed.
Lemma sorted_head_min v l : StronglySorted Qclt l -> In v l -> (forall u, In u l -> v <= u) -> exists l', l = v :: l'.
Proof.
  intros HS Hv HM. destruct HS as [|a l HS HF]; [destruct Hv|]. exists l. f_equal. destruct Hv as [->|Hv]; [reflexivity|]. rewrite Forall_forall in HF. specialize (HF v Hv). specialize (HM a (or_introl eq_refl)). exfalso. qlra.
Qed.
Lemma sorted_last_max v l : StronglySorted Qclt l -> In v l -> (forall u, In u l -> u <= v) -> exists l', l = l' ++ [v].
Proof.
  intros HS. induction HS as [|a l HS IH HF]; intros Hv HM; [destruct Hv|]. destruct l as [|b l].
  - exists []. destruct Hv as [->|[]]. reflexivity.
  - assert (Hv' : In v (b :: l)). { destruct Hv as [->|Hv]; [|exact Hv]. exfalso. rewrite Forall_forall in HF. specialize (HF b (or_introl eq_refl)). specialize (HM b (or_intror (or_introl eq_refl))). qlra. }
    destruct IH as (l' & ->); [exact Hv'|intros; apply HM; now right|]. exists (a :: l'). reflexivity.
Qed.
Lemma drop_clean l : (forall p, In p l -> is_bug p = false) -> drop_bugs true l = l.
Proof. induction l as [|p l IH]; intro H; cbn; [reflexivity|]. rewrite (H p (or_introl eq_refl)). f_equal. apply IH. intros; apply H; now right. Qed.
Lemma map_fst_combine' {A B} (l : list A) (m : list B) : length l = length m -> map fst (combine l m) = l.
Proof. revert m. induction l as [|a l IH]; intros [|b m] H; try discriminate H; [reflexivity|]. cbn. f_equal. apply IH. now injection H. Qed.
Lemma map_snd_combine' {A B} (l : list A) (m : list B) : length l = length m -> map snd (combine l m) = m.
Proof. revert m. induction l as [|a l IH]; intros [|b m] H; try discriminate H; [reflexivity|]. cbn. f_equal. apply IH. now injection H. Qed.
Lemma last_snoc (l : list Qc) v d : last (l ++ [v]) d = v.
Proof. apply last_last. Qed.

(** ** Costs grow with the distance *)
Lemma Qc_div_pos a b : 0 < a -> 0 < b -> 0 < a / b.
Proof. intros H1 H2. apply Qc_lt_this. rewrite this_div. apply Qc_lt_this in H1, H2. change (this 0) with 0%Q in *. apply Qlt_shift_div_l; [exact H2|]. now rewrite Qmult_0_l. Qed.
Lemma Qc_div_lt_r a b c : 0 < a -> 0 < c -> c < b -> a / b < a / c.
Proof.
  intros H1 H2 H3. apply Qc_lt_this. rewrite !this_div. apply Qc_lt_this in H1, H2, H3. change (this 0) with 0%Q in *. assert (0 < this b)%Q by (eapply Qlt_trans; eauto).
  apply Qlt_shift_div_l; [exact H2|]. unfold Qdiv. rewrite <- Qmult_assoc, (Qmult_comm (/ this b)), Qmult_assoc. apply Qlt_shift_div_r; [assumption|]. rewrite !(Qmult_comm (this a)). apply Qmult_lt_compat_r; assumption.
Qed.
Lemma Qc_div_lt_l a b c : 0 < c -> a < b -> a / c < b / c.
Proof. intros H2 H3. apply Qc_lt_this. rewrite !this_div. apply Qc_lt_this in H2, H3. change (this 0) with 0%Q in *. unfold Qdiv. apply Qmult_lt_compat_r; [now apply Qinv_lt_0_compat|exact H3]. Qed.
Lemma cost_up_mono E ct c0 p q : log_ok E ct -> c0 < 1 -> q < 1 -> p < q -> cost_up E ct c0 p < cost_up E ct c0 q.
Proof.
  intros HL H0 Hq Hpq. unfold cost_up. destruct ct; [qlra| |qlra]. destruct (HL eq_refl) as [L1 L2]. apply L2; [apply Qc_div_pos; qlra|]. apply Qc_div_lt_r; qlra.
Qed.
Lemma cost_dn_mono E ct c0 p q : log_ok E ct -> c0 < 1 -> q < 1 -> p < q -> cost_dn E ct c0 q < cost_dn E ct c0 p.
Proof.
  intros HL H0 Hq Hpq. unfold cost_dn. destruct ct; [qlra| |qlra]. destruct (HL eq_refl) as [L1 L2]. apply L2; [apply Qc_div_pos; qlra|]. apply Qc_div_lt_l; qlra.
Qed.
Lemma cost_zero E ct c0 flip : log_ok E ct -> c0 < 1 -> cost_fun E ct flip c0 c0 = 0.
Proof.
  intros HL H0. unfold cost_fun, cost_up, cost_dn. assert (K : (1 - c0) / (1 - c0) = 1) by (apply Qcmult_inv_r; intro Z; assert (Q : 0 < 1 - c0) by qlra; rewrite Z in Q; exact (Qclt_not_eq _ _ Q eq_refl)).
  destruct flip, ct; rewrite ?K; try ring; destruct (HL eq_refl) as [L1 _]; exact L1.
Qed.

(** ** One entry *)
Lemma entry_total E A ct w x n j e xj wj a c (cn : list string) (d up : bool) : elem_reachable E e -> dens E e -> log_ok E ct -> NoDup (as_names A) ->
  nth_error (as_names A) j = Some n -> nth_error x j = Some xj -> nth_error w j = Some wj ->
  feasible_values E e xj true true d = Ok (a, c) ->
  representable e xj -> (forall v, permitted e xj v -> v <> xj -> qfrac 1 100000000 < qabs (v - xj)) ->
  (forall u v, permitted e xj u -> permitted e xj v -> u < v -> exists p q, percentile E e u = Ok p /\ percentile E e v = Ok q /\ p < q) ->
  isclose0 wj = false -> (forall v, permitted e xj v -> (d = true -> improving e xj v) -> if up then xj <= v else v <= xj) ->
  (smem n cn = false -> up = (0 <? as_y A * qsign wj)%Z) -> (smem n cn = true -> 0 < xj -> permitted e xj 0 /\ d = false) ->
  make_info E ct (as_names A) cn w x n a c = Ok None \/
  exists i, make_info E ct (as_names A) cn w x n a c = Ok (Some i) /\ check_info (as_y A) cn i = true.
Proof.
  intros HE HD HL HN Hj Hx Hw HF HR Hfar Hpct Hwj Hup Hfree Hnull. apply feasible_values_spec in HF. destruct HF as (_ & Ea & HP & _). specialize (HP eq_refl). cbn [negb] in Ea.
  pose proof (reachable_inv _ _ HE) as INV. pose proof (feasible_x_sorted e xj d HR (inv_grid _ _ INV)) as HS.
  assert (HI : forall v, In v (feasible_x e xj d) <-> permitted e xj v /\ (d = true -> improving e xj v)).
  { intro v. apply (feasible_x_In e xj d v HR). }
  set (fx := feasible_x e xj d) in *. clearbody fx.
  assert (Hself : In xj fx). { apply HI. split; [now left|]. intros _. unfold improving. destruct (e_flip e); [|exact I]. split; intros _; apply Qcle_refl. }
  assert (HSc : StronglySorted Qclt c).
  { eapply (ssorted_F2 (percentile E e)); [exact HS|exact HP|]. intros u v p q Hu Hv Huv Pu Pv. apply HI in Hu, Hv. destruct (Hpct u v (proj1 Hu) (proj1 Hv) Huv) as (p' & q' & P1 & P2 & P3).
    assert (p' = p) by congruence. assert (q' = q) by congruence. subst. exact P3. }
  assert (Hlt1 : forall q, In q c -> q < 1).
  { intros q Hq. apply In_nth_error in Hq. destruct Hq as (k & Hk). apply Forall2_nth in HP. destruct HP as [LL HP].
    destruct (nth_error fx k) as [u|] eqn:Eu; [|apply nth_error_None in Eu; assert (nth_error c k <> None) as N by congruence; apply nth_error_Some in N; lia].
    specialize (HP _ _ _ Eu Hk). apply (c13_range _ _ _ _ HE HD HP). }
  assert (LL : length fx = length c) by (clear -HP; induction HP; cbn; auto).
  assert (La : length a = length fx) by (subst a; apply map_length).
  assert (Sa : StronglySorted Qclt a). { rewrite Ea. apply (ssorted_map Qclt _ _ _ HS). intros; qlra. }
  unfold make_info. destruct (Nat.ltb_spec (length a) 2) as [L2|L2]; [now left|]. right. cbv zeta.
  set (flip := isclose0 (last a 0)).
  assert (Hw0 : wj <> 0) by now apply isclose0_false.
  (* the order in which the actions are listed *)
  assert (HnL : smem n cn = true -> 0 < xj -> In (- xj) (if flip then rev a else a)).
  { intros Q1 Q2. destruct (Hnull Q1 Q2) as [V1 V2]. assert (K : In (- xj) a). { rewrite Ea. apply in_map_iff. exists 0. split; [ring|]. apply HI. split; [exact V1|]. rewrite V2. discriminate. } destruct flip; [now apply in_rev in K|exact K]. }
  assert (Ord : flip = negb up /\ exists oa oc c0, (if flip then rev a else a) = 0 :: oa /\ (if flip then rev c else c) = c0 :: oc /\ c0 < 1 /\ length oa = length oc /\ (1 <= length oa)%nat /\
     (forall p, In p oa -> isclose0 p = false /\ if up then 0 < p else p < 0) /\ NoDup (0 :: oa) /\ StronglySorted Qclt (map (cost_fun E ct flip c0) (c0 :: oc))).
  { assert (Far : forall p, In p a -> p <> 0 -> isclose0 p = false).
    { intros p Hp Hnz. rewrite Ea in Hp. apply in_map_iff in Hp. destruct Hp as (v & <- & Hv). apply HI in Hv. unfold isclose0. qbool. apply Hfar; [apply Hv|]. intros ->. apply Hnz. ring. }
    assert (Sgn : forall p, In p a -> if up then 0 <= p else p <= 0).
    { intros p Hp. rewrite Ea in Hp. apply in_map_iff in Hp. destruct Hp as (v & <- & Hv). apply HI in Hv. destruct Hv as [V1 V2]. specialize (Hup v V1 V2). destruct up; qlra. }
    assert (Z0 : In 0 a) by (rewrite Ea; apply in_map_iff; exists xj; split; [ring|exact Hself]).
    assert (ND : NoDup a) by (apply all_distinct_iff, all_distinct_sorted, Sa).
    clear Hup Hfree. destruct up.
    - destruct (sorted_head_min 0 a Sa Z0 Sgn) as (oa & Eoa). destruct c as [|c0 oc]; [rewrite La, LL in L2; cbn in L2; lia|]. destruct oa as [|p1 oa1] eqn:Eo; [rewrite Eoa in L2; cbn in L2; lia|].
      assert (Pos : forall p, In p (p1 :: oa1) -> 0 < p). { rewrite Eoa in Sa. inversion Sa as [|? ? _ Q]; subst. rewrite Forall_forall in Q. exact Q. }
      assert (Fl : flip = false).
      { unfold flip. apply Far; [|].
        - destruct (exists_last (l := a)) as (l' & u & Eu); [intro Q; rewrite Q in L2; cbn in L2; lia|]. rewrite Eu, last_snoc. apply in_or_app. right. now left.
        - rewrite Eoa. assert (In (last (0 :: p1 :: oa1) 0) (p1 :: oa1)). { change (last (0 :: p1 :: oa1) 0) with (last (p1 :: oa1) 0). destruct (exists_last (l := p1 :: oa1)) as (l' & u & Eu); [discriminate|]. rewrite Eu, last_snoc. apply in_or_app. right. now left. }
          specialize (Pos _ H). intro Q. rewrite Q in Pos. qlra. }
      split; [exact Fl|]. rewrite Fl. exists (p1 :: oa1), oc, c0. split; [exact Eoa|]. split; [reflexivity|]. split; [apply Hlt1; now left|]. split; [assert (K : length a = length (c0 :: oc)) by congruence; rewrite Eoa in K; cbn in K |- *; lia|]. split; [cbn; lia|]. split.
      { intros p Hp. split; [|now apply Pos]. apply Far; [rewrite Eoa; now right|]. specialize (Pos p Hp). intro Q. rewrite Q in Pos. qlra. }
      split; [now rewrite Eoa in ND|]. unfold cost_fun. apply (ssorted_map Qclt _ _ _ HSc). intros u v _ Hv Huv. apply cost_up_mono; [exact HL|apply Hlt1; now left|now apply Hlt1|exact Huv].
    - destruct (sorted_last_max 0 a Sa Z0 Sgn) as (la & Eoa). assert (Fl : flip = true) by (unfold flip; rewrite Eoa, last_snoc; apply isclose0_0).
      split; [exact Fl|]. rewrite Fl. destruct (exists_last (l := c)) as (lc & c0 & Ec); [intro Q; rewrite Q in LL; cbn in LL; lia|].
      assert (Neg : forall p, In p la -> p < 0). { intros p Hp. rewrite Eoa in Sa, ND. specialize (Sgn p). rewrite Eoa in Sgn. specialize (Sgn ltac:(apply in_or_app; now left)). destruct (Qcle_lt_or_eq _ _ Sgn) as [?|Q]; [assumption|]. exfalso. subst p. apply NoDup_remove_2 in ND. apply ND. rewrite app_nil_r. exact Hp. }
      exists (rev la), (rev lc), c0. rewrite Eoa, Ec, !rev_app_distr. cbn [rev app]. split; [reflexivity|]. split; [reflexivity|]. split; [apply Hlt1; rewrite Ec; apply in_or_app; right; now left|].
      assert (K : length a = length c) by congruence. rewrite Eoa, Ec, !app_length in K. rewrite Eoa, app_length in L2. cbn in K, L2. split; [rewrite !rev_length; lia|]. split; [rewrite rev_length; lia|]. split.
      { intros p Hp. apply in_rev in Hp. split; [|now apply Neg]. apply Far; [rewrite Eoa; apply in_or_app; now left|]. specialize (Neg p Hp). intro Q. rewrite Q in Neg. qlra. }
      split. { assert (Q : NoDup (rev a)) by now apply NoDup_rev. rewrite Eoa, rev_app_distr in Q. exact Q. }
      pose proof (ssorted_rev _ _ HSc) as RS. rewrite Ec, rev_app_distr in RS. cbn [rev app] in RS. unfold cost_fun. apply (ssorted_map _ _ _ _ RS). intros u v Hu _ Huv. cbn beta in Huv.
      assert (Hu' : In u c) by (rewrite Ec; apply in_rev; rewrite rev_app_distr; exact Hu). apply cost_dn_mono; [exact HL| |now apply Hlt1|exact Huv]. apply Hlt1. rewrite Ec. apply in_or_app. right. now left. }
  destruct Ord as (Efl & oa & oc & c0 & E1 & E2 & H1 & HLo & Hlo & Hoa & HNo & HSo). rewrite E1 in HnL. rewrite E1, E2. cbn [hd].
  change (if flip then cost_dn E ct c0 else cost_up E ct c0) with (if flip then cost_dn E ct c0 else cost_up E ct c0).
  assert (Ef : (if flip then cost_dn E ct c0 else cost_up E ct c0) = cost_fun E ct flip c0) by (unfold cost_fun; destruct flip; reflexivity). rewrite Ef.
  set (f := cost_fun E ct flip c0) in *. assert (F0 : f c0 = 0) by (apply cost_zero; assumption).
  cbn [map combine]. cbn [map] in HSo. rewrite F0 in *.
  assert (B0 : is_bug (0, 0) = true) by reflexivity.
  assert (Cl : forall p, In p (combine oa (map f oc)) -> is_bug p = false).
  { intros [p q] Hpq. unfold is_bug. cbn [fst snd]. apply orb_false_iff. split; [|apply Hoa; eapply in_combine_l, Hpq]. apply in_combine_r in Hpq. inversion HSo as [|? ? _ Q]; subst. rewrite Forall_forall in Q. specialize (Q q Hpq). apply qle_false. exact Q. }
  cbn [existsb drop_bugs]. rewrite B0. cbn [orb]. rewrite (drop_clean _ Cl). cbn [bind map fst snd].
  rewrite (index_of_nodup _ _ _ HN Hj). cbn [of_option bind]. rewrite Hw. cbn [of_option bind]. rewrite Hx. cbn [of_option bind].
  assert (LM : length oa = length (map f oc)) by (rewrite map_length; exact HLo). rewrite (map_fst_combine' _ _ LM), (map_snd_combine' _ _ LM).
  assert (HK : exists k, (if smem n cn && (0 <? xj) then of_option IndexError (first_eq (- xj) (0 :: oa)) else Ok 0%nat) = Ok k).
  { destruct (smem n cn) eqn:Sm; cbn [andb]; [|eauto]. destruct (qlt_spec 0 xj) as [P|P]; [|eauto]. destruct (first_eq_In _ _ (HnL eq_refl P)) as (k & Hk). rewrite Hk. cbn. eauto. }
  destruct HK as (k & ->). cbn [bind].
  destruct (Nat.ltb_spec (length (0 :: oa)) 2) as [Q|_]; [cbn in Q; lia|]. cbn [bind]. eexists. split; [reflexivity|].
  unfold check_info. cbn [i_name i_idx i_coef i_actions i_costs i_knull]. rewrite Hwj. cbn [negb andb].
  assert (Q00 : (0 =? 0) = true) by (apply qeq_iff; reflexivity). rewrite Q00. cbn [andb tl].
  assert (Dir : (if up then forallb (fun a0 => 0 <? a0) oa else forallb (fun a0 => a0 <? 0) oa) = true).
  { destruct up; apply forallb_forall; intros p Hp; destruct (Hoa p Hp) as [_ K]; now apply qlt_iff. }
  assert (Dir' : (if smem n cn then true else if (0 <? as_y A * qsign wj)%Z then forallb (fun a0 => 0 <? a0) oa else forallb (fun a0 => a0 <? 0) oa) = true).
  { destruct (smem n cn); [reflexivity|]. rewrite <- (Hfree eq_refl). exact Dir. }
  rewrite Dir'. cbn [andb]. assert (Nat.leb 2 (length (0 :: oa)) = true) as -> by (apply Nat.leb_le; cbn; lia). cbn [andb].
  assert (Nat.eqb (length (0 :: oa)) (length (0 :: map f oc)) = true) as -> by (apply Nat.eqb_eq; cbn; now rewrite LM). cbn [andb].
  rewrite (proj2 (all_distinct_iff (0 :: oa)) HNo). now apply all_distinct_sorted.
Qed.

Lemma helpful_compat E A w j e xj c aj : wf_aset E A -> flips_match A w -> elem_reachable E e -> nth_error (as_elems A) j = Some e -> nth_error w j = Some c ->
  permitted e xj (xj + aj) -> helps (as_y A) (c * aj) -> xj + aj <> xj /\ improving e xj (xj + aj) /\ compatible e = Some true.
Proof.
  intros HA HFl Hre He Hc Hp Hh.
  assert (HY : (as_y A = 1 \/ as_y A = -1)%Z) by apply HA.
  destruct HFl as [_ HF]. specialize (HF j e c He Hc).
  assert (SG : (as_y A = 1%Z /\ ((0 < c /\ 0 < aj) \/ (c < 0 /\ aj < 0))) \/ (as_y A = (-1)%Z /\ ((0 < c /\ aj < 0) \/ (c < 0 /\ 0 < aj)))).
  { unfold helps in Hh. destruct HY as [HY|HY]; rewrite HY in Hh; cbn [Z.ltb Z.compare] in Hh; [left|right]; (split; [exact HY|]).
    - now apply mul_sign_pos.
    - assert (G : 0 < c * - aj) by (replace (c * - aj) with (- (c * aj)) by ring; qlra). apply mul_sign_pos in G. destruct G as [[G1 G2]|[G1 G2]]; [left|right]; split; auto; qlra. }
  assert (Ha : aj <> 0) by (intros ->; destruct SG as [[_ [[_ G]|[_ G]]]|[_ [[_ G]|[_ G]]]]; discriminate G).
  assert (Hne : xj + aj <> xj) by (intro E0; apply Ha; replace aj with (xj + aj - xj) by ring; rewrite E0; ring).
  assert (GR : e_actionable e = true /\ In (xj + aj) (e_grid e) /\ ((0 < e_step_dir e)%Z -> xj <= xj + aj) /\ ((e_step_dir e < 0)%Z -> xj + aj <= xj)).
  { destruct Hp as [Hp|Hp]; [congruence|exact Hp]. }
  destruct GR as (Act & Gin & D1 & D2). split; [exact Hne|]. split.
  { unfold improving. rewrite HF. destruct (qsign_spec c) as [[S1 S2]|[[S1 S2]|[S1 S2]]]; rewrite S2; destruct SG as [[HY' SG]|[HY' SG]]; rewrite HY'; cbn [Z.eqb Pos.eqb Z.opp];
      destruct SG as [[G1 G2]|[G1 G2]]; try (exfalso; qlra); (split; [intro Q; try lia; qlra|intro Q; try lia; qlra]). }
  { pose proof (c16 E e Hre) as HC. rewrite HF in HC. apply HC. split; [exact Act|].
    destruct (qsign_spec c) as [[S1 S2]|[[S1 S2]|[S1 S2]]]; rewrite S2; destruct SG as [[HY' SG]|[HY' SG]]; rewrite HY'; cbn [Z.eqb Pos.eqb Z.opp];
      destruct SG as [[G1 G2]|[G1 G2]]; try (exfalso; qlra).
    all: split; [lia|]; intro Q.
    all: try (specialize (D1 ltac:(lia)); exfalso; qlra).
    all: try (specialize (D2 ltac:(lia)); exfalso; qlra). }
Qed.


(** ** All entries *)
Lemma constrained_pos E A n : ok_env E -> wf_aset E A -> In n (constrained_names E (as_cons A)) -> exists j, nth_error (as_names A) j = Some n /\ constrained_at A j.
Proof.
  intros HOE HW H. pose proof H as H0. unfold constrained_names in H. eapply Permutation_in in H; [|apply HOE]. apply sdedup_In in H. apply in_concat in H. destruct H as (l & Hl & H). apply in_map_iff in Hl. destruct Hl as ((id & c) & <- & Hc). cbn [snd] in H.
  pose proof HW as (_ & _ & _ & HN & [[_ HK] HR] & _). assert (Hst : stored (as_cons A) id c) by (apply dget_of_In; assumption). pose proof (HR _ _ Hst) as (_ & _ & _ & _ & HF & _). rewrite HN in HF.
  destruct (In_nth_error _ _ H) as (k & Hk). apply Forall2_nth in HF. destruct HF as [HLn HF]. destruct (nth_error (c_indices c) k) as [j|] eqn:En.
  - exists j. split; [exact (HF _ _ _ Hk En)|]. exists id, c. split; [exact Hst|]. eapply nth_error_In, En.
  - apply nth_error_None in En. assert (k < length (c_names c))%nat by (apply nth_error_Some; congruence). lia.
Qed.
Lemma over_total E A x names out : length x = as_len A -> length (as_elems A) = as_len A -> NoDup (as_names A) ->
  (forall n, In n names -> In n (as_names A)) -> (forall j e xj, nth_error (as_elems A) j = Some e -> nth_error x j = Some xj -> exists v, feasible_values E e xj true true false = Ok v) ->
  exists grid, fold_left (fun acc n => let! out := acc in
          let! j := of_option ValueError (index_of n (as_names A)) in
          match nth_error (as_elems A) j, nth_error x j with
          | Some e, Some xj => let! v := feasible_values E e xj true true false in Ok (dset n v out)
          | _, _ => Err KeyError
          end) names (Ok out) = Ok grid.
Proof.
  intros Hx He HN. revert out. induction names as [|n names IH]; intros out Hin HV; [exists out; reflexivity|]. cbn [fold_left bind].
  destruct (In_nth_error _ _ (Hin n (or_introl eq_refl))) as (j & Hj). rewrite (index_of_nodup _ _ _ HN Hj). cbn [of_option bind].
  assert (L : (j < as_len A)%nat) by (apply nth_error_Some; congruence).
  destruct (nth_error (as_elems A) j) as [e|] eqn:Ee; [|apply nth_error_None in Ee; lia]. destruct (nth_error x j) as [xj|] eqn:Ex; [|apply nth_error_None in Ex; lia].
  destruct (HV j e xj Ee Ex) as (v & Hv). rewrite Hv. cbn [bind]. apply IH; [intros; apply Hin; now right|exact HV].
Qed.
Lemma values_total E A j e xj d : answers E A -> nth_error (as_elems A) j = Some e -> e_flip e <> None -> exists v, feasible_values E e xj true true d = Ok v.
Proof.
  intros HAns He Hf. unfold feasible_values, e_aligned. destruct (e_flip e) as [f|]; [|congruence]. cbn [negb orb passert bind].
  destruct (mapM_total (percentile E e) (feasible_x e xj d)) as (ps & ->); [intros v _; now apply (HAns j)|]. cbn [bind]. eauto.
Qed.
Lemma grid_total E A w x : ok_env E -> wf_aset E A -> flips_match A w -> length x = as_len A -> answers E A -> exists grid, feasible_grid E A x true true true = Ok grid.
Proof.
  intros HE HW HF Hx HAns. pose proof (wf_len _ _ HW) as HLe. pose proof HW as ((_ & _ & Hnd) & _).
  assert (FL : forall j e, nth_error (as_elems A) j = Some e -> e_flip e <> None).
  { intros j e He. destruct HF as [HLw HF]. destruct (nth_error w j) as [c|] eqn:Hc; [rewrite (HF j e c He Hc); discriminate|]. apply nth_error_None in Hc. assert (j < length (as_elems A))%nat by (apply nth_error_Some; congruence). lia. }
  unfold feasible_grid. rewrite (proj2 (Nat.eqb_eq _ _) Hx). cbn [passert bind].
  destruct (mapM_total (fun q => let '(n, (e, xj)) := q in let! v := feasible_values E e xj true true true in Ok (n, v))
     (filter (fun q => grid_included true (fst (snd q))) (combine (as_names A) (combine (as_elems A) x)))) as (out & Ho).
  { intros [n [e xj]] Hin. apply filter_In in Hin. destruct Hin as [Hin _]. apply In_nth_error in Hin. destruct Hin as (j & Hj). apply combine3_nth in Hj. destruct Hj as (_ & K2 & _).
    destruct (values_total E A j e xj true HAns K2 (FL j e K2)) as (v & ->). cbn. eauto. }
  rewrite Ho. cbn [bind]. destruct (r_cons (as_cons A)) as [|q0 qs]; [eauto|]. apply over_total; auto.
  - intros n Hn. destruct (constrained_pos E A n HE HW Hn) as (j & Hj & _). eapply nth_error_In, Hj.
  - intros j e xj He _. exact (values_total E A j e xj false HAns He (FL j e He)).
Qed.
Lemma compat_coef e f : e_flip e = Some f -> compatible e = Some true -> f <> 0%Z.
Proof. intros Hf H ->. unfold compatible in H. rewrite Hf in H. destruct (e_actionable e); discriminate H. Qed.
Lemma info_total E A ct w x : ok_env E -> density E -> wf_aset E A -> log_ok E ct -> in_line A w x -> one_way A x -> flips_match A w -> length x = as_len A -> length w = as_len A ->
  answers E A -> regular E A x -> tiny_free w -> exists infos, get_build_info E A ct w x = Ok infos.
Proof.
  intros HE HD HW HL HIL HOW HF Hx Hw HAns [HPc HRs] HT. pose proof (wf_len _ _ HW) as HLe. assert (HY : (as_y A = 1 \/ as_y A = -1)%Z) by apply HW.
  destruct (grid_total E A w x HE HW HF Hx HAns) as (grid & Hg). destruct (grid_spec _ _ _ _ HE HW Hg) as (_ & [_ HG] & _ & _).
  unfold get_build_info. cbv zeta. rewrite Hg. cbn [bind]. set (cn := constrained_names E (as_cons A)) in *.
  assert (HGd : forall p, In p grid -> make_info E ct (as_names A) cn w x (fst p) (fst (snd p)) (snd (snd p)) = Ok None \/
     exists i, make_info E ct (as_names A) cn w x (fst p) (fst (snd p)) (snd (snd p)) = Ok (Some i) /\ check_info (as_y A) cn i = true).
  { intros [n [a c]] Hp. destruct (HG n (a, c) Hp) as (j & e & xj & d & K1 & K2 & K3 & K4 & K5). cbn [fst snd].
    destruct (nth_error w j) as [wj|] eqn:Kw; [|apply nth_error_None in Kw; assert (j < length (as_names A))%nat by (apply nth_error_Some; congruence); unfold as_len in *; lia].
    pose proof (proj2 HF j e wj K2 Kw) as Hfl.
    assert (Hre : elem_reachable E e). { destruct HW as (_ & _ & HE' & _). rewrite Forall_forall in HE'. apply HE'. eapply nth_error_In, K2. }
    destruct (HRs j e xj K2 K3) as [R1 R2]. pose proof (constrained_iff E A j n HE HW K1) as CI. fold cn in CI.
    assert (Hw0 : wj <> 0).
    { destruct K5 as [(K5 & K6 & K7)|[K5 K6]].
      - intros ->. apply (compat_coef e _ Hfl); [exact K6|]. destruct (as_y A =? 1)%Z; reflexivity.
      - apply CI in K6. destruct (HIL j j e wj xj K6 (le_n _) K2 Kw K3) as (_ & HCh & _). intros ->. unfold can_help, attains in HCh. destruct (0 <? as_y A)%Z; destruct HCh as [[_ Q]|[_ Q]]; qlra. }
    assert (Hwj : isclose0 wj = false). { destruct (HT j wj Kw) as [->|T]; [congruence|apply qle_false; exact T]. }
    assert (Sgn : d = true -> forall v, improving e xj v -> if (0 <? as_y A * qsign wj)%Z then xj <= v else v <= xj).
    { intros _ v Hv. unfold improving in Hv. rewrite Hfl in Hv. destruct (qsign_spec wj) as [[S1 S2]|[[S1 S2]|[S1 S2]]]; [|congruence|]; rewrite S2 in *; destruct HY as [HY|HY]; rewrite HY in *; cbn in Hv |- *; destruct Hv as [V1 V2].
      all: first [apply V1; lia | apply V2; lia]. }
    destruct K5 as [(K5 & K6 & K7)|[K5 K6]]; subst d.
    - apply (entry_total E A ct w x n j e xj wj a c cn true (0 <? as_y A * qsign wj)%Z); auto; [intros pdf u; apply HD|apply HW|intros u v P1 P2; apply (HPc j e xj K2 K3 u v P1 P2)| |].
      + intros v _ Hv. exact (Sgn eq_refl v (Hv eq_refl)).
      + intro Sm. exfalso. apply K7. now apply smem_iff.
    - pose proof (proj1 CI K6) as HC. destruct (HOW j e xj HC K2 K3) as [[W|W] W0].
      + apply (entry_total E A ct w x n j e xj wj a c cn false true); auto; [intros pdf u; apply HD|apply HW|intros u v P1 P2; apply (HPc j e xj K2 K3 u v P1 P2)|].
        intro Sm. exfalso. assert (smem n cn = true) by (now apply smem_iff). congruence.
      + apply (entry_total E A ct w x n j e xj wj a c cn false false); auto; [intros pdf u; apply HD|apply HW|intros u v P1 P2; apply (HPc j e xj K2 K3 u v P1 P2)|].
        intro Sm. exfalso. assert (smem n cn = true) by (now apply smem_iff). congruence. }
  clear HG Hg.
  assert (HM : exists l, mapM (fun p : string * gridentry => make_info E ct (as_names A) cn w x (fst p) (fst (snd p)) (snd (snd p))) grid = Ok l /\ forallb (check_info (as_y A) cn) (flat_map (fun o : option info => match o with Some i => [i] | None => [] end) l) = true).
  { induction grid as [|p grid IH]; [exists []; split; reflexivity|]. destruct IH as (l & Hl & Hc); [intros; apply HGd; now right|]. cbn [mapM].
    unfold dict, gridentry in *. destruct (HGd p (or_introl eq_refl)) as [Q|(i & Q & Hi)]; [exists (None :: l)|exists (Some i :: l)]; rewrite Q; cbn [bind]; rewrite Hl; cbn [bind]; (split; [reflexivity|]); cbn [flat_map app forallb]; [exact Hc|now rewrite Hi]. }
  destruct HM as (l & Hl & Hc). unfold dict, gridentry in *. rewrite Hl. cbn [bind]. rewrite Hc. cbn [passert bind]. eauto.
Qed.
Lemma subsets_total E k A ct w x infos : ok_env E -> wf_aset E A -> flips_match A w -> in_line A w x -> get_build_info E A ct w x = Ok infos ->
  exists subs, mapM (subset_rows k infos) (combine (seq 0 (length (r_cons (as_cons A)))) (map snd (r_cons (as_cons A)))) = Ok subs.
Proof.
  intros HE HW HF HIL HI. apply mapM_total. intros [pos c] Hin. apply in_combine_r in Hin. apply in_map_iff in Hin. destruct Hin as ((id & c') & Ec & Hin). cbn in Ec. subst c'.
  pose proof HW as (_ & _ & _ & _ & [[_ HK] _] & _). assert (Hst : stored (as_cons A) id c) by (apply dget_of_In; assumption).
  unfold subset_rows. destruct (mapM_total (fun j => of_option IndexError (nth_error (map null_var infos) j)) (c_indices c)) as (vs & ->); [|cbn [bind]; eauto].
  intros j Hj. destruct (aligned_at E A ct w x infos j HE HW (lined_of E A w x HW HF HIL) HI) as (i & Hi & _); [exists id, c; auto|]. rewrite nth_error_map, Hi. cbn. eauto.
Qed.
Lemma assign_total E sv b x : ok_env E -> density E -> builder_reachable E sv b -> log_ok E (bd_cost b) -> in_line (bd_A b) (bd_w b) x -> one_way (bd_A b) x -> flips_match (bd_A b) (bd_w b) ->
  length x = length (bd_w b) -> answers E (bd_A b) -> regular E (bd_A b) x -> tiny_free (bd_w b) ->
  (bd_cost b = CMax \/ exists a, permitted_action (bd_A b) x a /\ worthwhile (bd_A b) (bd_w b) a /\ (1 <= n_changed a)%nat) ->
  snd (set_x E b x) = Ok tt.
Proof.
  intros HE HD HB HL HIL HOW HF Hx HAns HR HT HN. destruct (reachable_sane E sv b HB) as (HW0 & Lw); pose proof (reachable_wf _ _ HW0) as HW.
  destruct (info_total E (bd_A b) (bd_cost b) (bd_w b) x HE HD HW HL HIL HOW HF ltac:(congruence) Lw HAns HR HT) as (infos & HI).
  destruct (subsets_total E (bd_kind b) (bd_A b) (bd_cost b) (bd_w b) x infos HE HW HF HIL HI) as (subs & Hsb).
  unfold set_x. rewrite Hx, Nat.eqb_refl. unfold build. rewrite HI. cbn [bind]. rewrite Hsb. cbn [bind].
  assert (NE : bd_cost b = CMax \/ infos <> []).
  { destruct HN as [HN|(a & Hp & Hh & H1)]; [now left|right]. unfold n_changed in H1.
    destruct (filter (fun v => negb (v =? 0)) a) as [|v r] eqn:Ef; [exfalso; cbn in H1; lia|]. assert (Hv : In v (filter (fun v => negb (v =? 0)) a)) by (rewrite Ef; now left).
    apply filter_In in Hv. destruct Hv as [Hv Hz]. apply In_nth_error in Hv. destruct Hv as (j & Hj).
    assert (v <> 0) by (intros ->; discriminate Hz). pose proof (wf_len _ _ HW) as HLe. destruct Hp as (P1 & P2).
    assert (Lj : (j < as_len (bd_A b))%nat) by (rewrite <- P1; apply nth_error_Some; congruence).
    destruct (nth_error (as_elems (bd_A b)) j) as [e|] eqn:Ee; [|apply nth_error_None in Ee; lia]. destruct (nth_error x j) as [xj|] eqn:Ex; [|apply nth_error_None in Ex; lia].
    destruct (nth_error (bd_w b) j) as [wj|] eqn:Ew; [|apply nth_error_None in Ew; lia]. destruct (nth_error (as_names (bd_A b)) j) as [n|] eqn:En; [|apply nth_error_None in En; unfold as_len in Lj; lia].
    assert (Hre : elem_reachable E e). { destruct HW as (_ & _ & HE' & _). rewrite Forall_forall in HE'. apply HE'. eapply nth_error_In, Ee. }
    destruct (constrained_dec E (bd_A b) j HE HW) as [HC|HC].
    { destruct (aligned_at E _ _ _ _ infos j HE HW (lined_of E _ _ _ HW HF HIL) HI HC) as (i & Hi & _). intros ->. destruct j; discriminate Hi. }
    specialize (P2 j e xj v Ee Ex Hj). specialize (Hh j wj v Ew Hj ltac:(assumption)). destruct Hh as [Hh|Hh]; [contradiction|].
    destruct (helpful_compat E (bd_A b) (bd_w b) j e xj wj v HW HF Hre Ee Ew P2 Hh) as (Q1 & Q2 & Q3).
    destruct (build_info_spec _ _ _ _ _ _ HE HW HI) as (_ & _ & _ & _ & _ & HEx).
    destruct (HEx j e xj n (xj + v) En Ee Ex Q3) as (i & Hi & _); auto; [rewrite (constrained_iff E _ j n HE HW En); exact HC|apply (proj2 HR j e xj Ee Ex)|]. intros ->. destruct Hi. }
  destruct (bd_cost b) eqn:Ec; [| |reflexivity]; (destruct NE as [NE|NE]; [discriminate NE|]); destruct infos; cbn; congruence || reflexivity.
Qed.
