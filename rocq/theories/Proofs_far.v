(** Certificates of infeasibility that need no assumption on prices: the farthest helpful move of a
    feature is offered whenever the feature is offered at all. *)
From Verif Require Import Proofs_props_element Proofs_props_actionset Spec_recourse Proofs_mip Proofs_info Proofs_vec Proofs_build Proofs_enum Proofs_session Proofs_recourse Proofs_subset Proofs_exchange.
#[local] Open Scope list_scope.
#[local] Open Scope Qc_scope.

Lemma within_In g v : In v g -> within g v.
Proof. intro H. exists v, v. repeat split; auto; apply Qcle_refl. Qed.
Lemma log_mono E p q : is_log E -> 0 < p -> p <= q -> nplog E p <= nplog E q.
Proof.
  intros [_ H] Hp Hq. destruct (Qcle_lt_or_eq _ _ Hq) as [L|E0]; [|rewrite E0; apply Qcle_refl]. apply Qclt_le_weak. now apply H.
Qed.
Lemma Qc_div_mono_den a b b' : 0 < a -> 0 < b' -> b' <= b -> 0 < a / b /\ a / b <= a / b'.
Proof.
  intros Ha Hb Hle. apply Qc_lt_this in Ha, Hb. apply Qc_le_this in Hle. change (this 0) with 0%Q in *. split.
  - apply Qc_lt_this. rewrite this_div. change (this 0) with 0%Q. apply Qlt_shift_div_l; [eapply Qlt_le_trans; eauto|]. now rewrite Qmult_0_l.
  - apply Qc_le_this. rewrite !this_div. unfold Qdiv. rewrite (Qmult_comm (this a)), (Qmult_comm (this a)). apply Qmult_le_compat_r; [|now apply Qlt_le_weak].
    apply Qle_shift_inv_l; [exact Hb|]. rewrite Qmult_comm. apply Qle_shift_div_r; [eapply Qlt_le_trans; eauto|]. rewrite Qmult_1_l. exact Hle.
Qed.
Lemma Qc_div_mono_num a a' b : 0 < a -> a <= a' -> 0 < b -> 0 < a / b /\ a / b <= a' / b.
Proof.
  intros Ha Hle Hb. apply Qc_lt_this in Ha, Hb. apply Qc_le_this in Hle. change (this 0) with 0%Q in *. split.
  - apply Qc_lt_this. rewrite this_div. change (this 0) with 0%Q. apply Qlt_shift_div_l; [exact Hb|]. now rewrite Qmult_0_l.
  - apply Qc_le_this. rewrite !this_div. unfold Qdiv. apply Qmult_le_compat_r; [exact Hle|]. apply Qlt_le_weak. now apply Qinv_lt_0_compat.
Qed.
(** Moving farther in the same direction, within the grid, never gets cheaper. *)
Lemma cost_farther E ct e x u v c c' : elem_reachable E e -> percentile_grid e (e_grid e) -> dens E e -> log_ok E ct ->
  In u (e_grid e) -> In v (e_grid e) -> (x < u /\ u <= v) \/ (u < x /\ v <= u) ->
  move_cost E ct e x u c -> move_cost E ct e x v c' -> c <= c'.
Proof.
  intros HE HG HD HL Hu Hv Hside (p & q & P1 & P2 & ->) (p' & q' & P3 & P4 & ->). rewrite P1 in P3.
  assert (p' = p) by congruence. subst p'. clear P3.
  destruct (c13_range _ _ _ _ HE HD P1) as [P5 P6]. destruct (c13_range _ _ _ _ HE HD P2) as [Q5 Q6]. destruct (c13_range _ _ _ _ HE HD P4) as [Q7 Q8].
  destruct Hside as [[H1 H2]|[H1 H2]].
  - assert (M : q <= q') by (apply (c13_mono E e _ u v q q' HE HG HD (within_In _ _ Hu) (within_In _ _ Hv) P2 P4 H2)).
    assert (G1 : (x <=? u) = true) by (apply qle_iff; qlra). assert (G2 : (x <=? v) = true) by (apply qle_iff; qlra). rewrite G1, G2.
    destruct ct; [qlra| |qlra]. destruct (Qc_div_mono_den (1 - p) (1 - q) (1 - q')) as [D1 D2]; try qlra. apply log_mono; auto.
  - assert (M : q' <= q) by (apply (c13_mono E e _ v u q' q HE HG HD (within_In _ _ Hv) (within_In _ _ Hu) P4 P2 H2)).
    assert (G1 : (x <=? u) = false) by (apply qle_false; qlra). assert (G2 : (x <=? v) = false) by (apply qle_false; qlra). rewrite G1, G2.
    destruct ct; [qlra| |qlra]. destruct (Qc_div_mono_num (1 - q) (1 - q') (1 - p)) as [D1 D2]; try qlra. apply log_mono; auto.
Qed.

Section Far.
Context (E : env) (A : action_set) (ct : cost_type) (w x : list Qc) (infos : list info) (n : nat).
Context (HOE : ok_env E) (HA : wf_aset E A) (HI : get_build_info E A ct w x = Ok infos) (Hn : n = as_len A) (Hw : length w = n).
Context (HO : orderly E A w x) (HFl : flips_match A w) (HCur : current_percentiles A) (HD : density E) (HLg : log_ok E ct).
Lemma f_len : length x = n.
Proof. rewrite Hn. apply (build_info_spec E A ct w x infos HOE HA HI). Qed.
Lemma f_HW : wf_infos infos.
Proof. apply (build_info_spec E A ct w x infos HOE HA HI). Qed.
Lemma f_HF : Forall (info_ok E A ct w x) infos.
Proof. apply (build_info_spec E A ct w x infos HOE HA HI). Qed.
Lemma f_HL : length (as_elems A) = n.
Proof. rewrite Hn. eapply wf_len, HA. Qed.
Lemma f_reach j e : nth_error (as_elems A) j = Some e -> elem_reachable E e.
Proof. intro H. destruct HA as (_ & _ & H3 & _). rewrite Forall_forall in H3. apply H3. eapply nth_error_In, H. Qed.

(** [helps c a]: the move strictly helps. *)
Definition helps (y : Z) (s : Qc) : Prop := if (0 <? y)%Z then 0 < s else s < 0.
Lemma helps_or_harmful y s : helps y s \/ harmful y s.
Proof. unfold helps, harmful. destruct (0 <? y)%Z; [destruct (qlt_spec 0 s)|destruct (qlt_spec s 0)]; auto. Qed.
Lemma mul_pos a b : 0 < a -> 0 < b -> 0 < a * b.
Proof. intros Ha Hb. rewrite <- (Qcmult_0_l b). now apply Qcmult_lt_compat_r. Qed.
Lemma mul_sign_pos c a : 0 < c * a -> (0 < c /\ 0 < a) \/ (c < 0 /\ a < 0).
Proof.
  intro H. destruct (Qc_dec c 0) as [[C|C]|C]; [| |subst c; rewrite Qcmult_0_l in H; discriminate H].
  - destruct (Qc_dec a 0) as [[G|G]|G]; [auto| |subst a; rewrite Qcmult_0_r in H; discriminate H]. exfalso.
    assert (0 < - c * a) by (apply mul_pos; qlra). replace (- c * a) with (- (c * a)) in * by ring. qlra.
  - destruct (Qc_dec a 0) as [[G|G]|G]; [|auto|subst a; rewrite Qcmult_0_r in H; discriminate H]. exfalso.
    assert (0 < c * - a) by (apply mul_pos; qlra). replace (c * - a) with (- (c * a)) in * by ring. qlra.
Qed.
(** A helpful permitted move: the feature is offered, in the same direction, at least as far. *)
Lemma helpful_offered j e xj c aj : nth_error (as_elems A) j = Some e -> nth_error x j = Some xj -> nth_error w j = Some c ->
  ~ constrained_at A j -> (aj <> 0 -> representable e xj) -> permitted e xj (xj + aj) -> helps (as_y A) (c * aj) ->
  exists i k, In i infos /\ i_idx i = j /\ (0 < k < nopt i)%nat /\ ((0 < aj /\ aj <= act i k) \/ (aj < 0 /\ act i k <= aj)).
Proof.
  intros He Hx Hc HCo HRep Hp Hh.
  assert (HY : (as_y A = 1 \/ as_y A = -1)%Z) by apply HA.
  pose proof (f_reach _ _ He) as Hre. destruct HFl as [_ HF]. specialize (HF j e c He Hc).
  assert (SG : (as_y A = 1%Z /\ ((0 < c /\ 0 < aj) \/ (c < 0 /\ aj < 0))) \/ (as_y A = (-1)%Z /\ ((0 < c /\ aj < 0) \/ (c < 0 /\ 0 < aj)))).
  { unfold helps in Hh. destruct HY as [HY|HY]; rewrite HY in Hh; cbn [Z.ltb Z.compare] in Hh; [left|right]; (split; [exact HY|]).
    - now apply mul_sign_pos.
    - assert (G : 0 < c * - aj) by (replace (c * - aj) with (- (c * aj)) by ring; qlra). apply mul_sign_pos in G. destruct G as [[G1 G2]|[G1 G2]]; [left|right]; split; auto; qlra. }
  assert (Ha : aj <> 0) by (intros ->; destruct SG as [[_ [[_ G]|[_ G]]]|[_ [[_ G]|[_ G]]]]; discriminate G).
  assert (Hne : xj + aj <> xj) by (intro E0; apply Ha; replace aj with (xj + aj - xj) by ring; rewrite E0; ring).
  assert (GR : e_actionable e = true /\ In (xj + aj) (e_grid e) /\ ((0 < e_step_dir e)%Z -> xj <= xj + aj) /\ ((e_step_dir e < 0)%Z -> xj + aj <= xj)).
  { destruct Hp as [Hp|Hp]; [congruence|exact Hp]. }
  destruct GR as (Act & Gin & D1 & D2).
  assert (Him : improving e xj (xj + aj)).
  { unfold improving. rewrite HF. destruct (qsign_spec c) as [[S1 S2]|[[S1 S2]|[S1 S2]]]; rewrite S2; destruct SG as [[HY' SG]|[HY' SG]]; rewrite HY'; cbn [Z.eqb Pos.eqb Z.opp];
      destruct SG as [[G1 G2]|[G1 G2]]; try (exfalso; qlra); (split; [intro Q; try lia; qlra|intro Q; try lia; qlra]). }
  assert (Hcm : compatible e = Some true).
  { pose proof (c16 E e Hre) as HC. rewrite HF in HC. apply HC. split; [exact Act|].
    destruct (qsign_spec c) as [[S1 S2]|[[S1 S2]|[S1 S2]]]; rewrite S2; destruct SG as [[HY' SG]|[HY' SG]]; rewrite HY'; cbn [Z.eqb Pos.eqb Z.opp];
      destruct SG as [[G1 G2]|[G1 G2]]; try (exfalso; qlra).
    all: split; [lia|]; intro Q.
    all: try (specialize (D1 ltac:(lia)); exfalso; qlra).
    all: try (specialize (D2 ltac:(lia)); exfalso; qlra). }
  assert (Lj : (j < length (as_names A))%nat).
  { change (j < as_len A)%nat. rewrite <- Hn, <- f_HL. apply nth_error_Some. congruence. }
  destruct (nth_error (as_names A) j) as [nm|] eqn:En; [|apply nth_error_None in En; lia].
  assert (HNC : ~ In nm (constrained_names E (as_cons A))) by (intro Q; apply HCo; now apply (constrained_iff E A j nm HOE HA En)).
  destruct (build_info_spec E A ct w x infos HOE HA HI) as (_ & _ & _ & HC & _ & HEx).
  destruct (HEx j e xj nm (xj + aj) En He Hx Hcm HNC (HRep Ha) Hp Him Hne) as (i & Hi & Hj).
  destruct (info_ok_at _ _ _ _ _ _ _ f_HF Hi) as (e' & xj' & EN).
  pose proof (en_elem _ _ _ _ _ _ _ _ EN) as E1. pose proof (en_x _ _ _ _ _ _ _ _ EN) as E2. pose proof (en_w _ _ _ _ _ _ _ _ EN) as E3.
  rewrite Hj in E1, E2, E3. assert (e' = e) by congruence. assert (xj' = xj) by congruence. assert (i_coef i = c) as EC by congruence. subst e' xj'.
  pose proof (wi_len _ (wfi' _ f_HW i Hi)) as L2. assert (K1 : (0 < 1 < nopt i)%nat) by lia.
  assert (Hdir : if (0 <? as_y A * qsign c)%Z then 0 < act i 1 else act i 1 < 0).
  { pose proof (en_dir _ _ _ _ _ _ _ _ EN) as Q. rewrite EC in Q. apply Q; [|exact K1]. pose proof (en_name _ _ _ _ _ _ _ _ EN) as E4. rewrite Hj in E4. assert (i_name i = nm) as -> by congruence. exact HNC. }
  assert (Same : (0 < aj /\ 0 < act i 1) \/ (aj < 0 /\ act i 1 < 0)).
  { destruct (qsign_spec c) as [[S1 S2]|[[S1 S2]|[S1 S2]]]; rewrite S2 in Hdir; destruct SG as [[HY' SG]|[HY' SG]]; rewrite HY' in Hdir;
      destruct SG as [[G1 G2]|[G1 G2]]; try (exfalso; qlra); cbn [Z.mul Z.ltb Z.compare Pos.mul Z.opp] in Hdir; auto. }
  (* either option 1 is already as far, or the move itself is offered *)
  assert (Dec : (0 < aj /\ aj <= act i 1) \/ (aj < 0 /\ act i 1 <= aj) \/ (0 < act i 1 /\ act i 1 < aj) \/ (act i 1 < 0 /\ aj < act i 1)).
  { destruct Same as [[G1 G2]|[G1 G2]].
    - destruct (qle_spec aj (act i 1)); auto.
    - destruct (qle_spec (act i 1) aj); auto 6. }
  destruct Dec as [Dec|[Dec|Dec]].
  - exists i, 1%nat. auto 8.
  - exists i, 1%nat. auto 8.
  - pose proof (en_cost _ _ _ _ _ _ _ _ EN 1%nat K1) as M1. pose proof (proj1 (wi_pos _ (wfi' _ f_HW i Hi) 1%nat K1)) as P1.
    pose proof (en_far _ _ _ _ _ _ _ _ EN 1%nat K1) as F1.
    assert (D : dens E e) by (intros pdf u; apply HD).
    assert (Hv : exists cv, move_cost E ct e xj (xj + aj) cv).
    { destruct M1 as (p & q & Q1 & Q2 & _). destruct (percentile E e (xj + aj)) as [q'|err] eqn:Eq; [eexists; exists p, q'; split; [exact Q1|]; split; [exact Eq|reflexivity]|].
      exfalso. unfold percentile in Q1, Eq. destruct (get_interp E e) as [[xs ys]|]; [discriminate Eq|discriminate Q1]. }
    destruct Hv as (cv & Mv).
    assert (G1 : In (xj + act i 1) (e_grid e)).
    { destruct (en_perm _ _ _ _ _ _ _ _ EN 1%nat ltac:(lia)) as [Q|Q]; [|apply Q]. exfalso. apply (isclose0_false _ F1). replace (act i 1) with (xj + act i 1 - xj) by ring. rewrite Q. ring. }
    assert (LE : cst i 1 <= cv).
    { apply (cost_farther E ct e xj (xj + act i 1) (xj + aj)); auto; [apply (HCur j e He)|]. destruct Dec as [[D3 D4]|[D3 D4]]; [left|right]; split; qlra. }
    assert (F2 : isclose0 (xj + aj - xj) = false).
    { replace (xj + aj - xj) with aj by ring. unfold isclose0 in *. apply qle_false. apply qle_false in F1. unfold qabs in *.
      destruct Dec as [[D3 D4]|[D3 D4]]; destruct (qle_spec 0 (act i 1)), (qle_spec 0 aj); try (exfalso; qlra); qlra. }
    destruct (HC j e xj nm (xj + aj) cv En He Hx Hcm HNC (HRep Ha) Hp Him F2 Mv ltac:(qlra)) as (i2 & k & Hi2 & Hj2 & Hk & Ha2 & _).
    exists i2, k. split; [exact Hi2|]. split; [exact Hj2|]. split; [exact Hk|].
    assert (Q : act i2 k = aj) by (rewrite Ha2; ring). rewrite Q. destruct Same as [[G2 _]|[G2 _]]; [left|right]; split; auto; apply Qcle_refl.
Qed.

(** The farthest choice in the direction of [a], for the features whose change helps. *)
Definition farthest (a : list Qc) : choice := fun j =>
  match info_at infos j with
  | Some i => if smem (i_name i) (constrained_names E (as_cons A)) then match first_eq (nth j a 0) (i_actions i) with Some k => k | None => 0%nat end
              else if 0 <? nth j a 0 * act i 1 then pred (nopt i) else 0%nat
  | None => 0%nat
  end.
Lemma farthest_ok a : ch_ok infos (farthest a).
Proof.
  intros i Hi. unfold farthest. rewrite (info_at_In _ _ (proj2 f_HW) Hi). pose proof (wi_len _ (wfi' _ f_HW i Hi)). destruct (smem _ _); [|destruct (0 <? _); lia].
  destruct (first_eq _ (i_actions i)) as [k|] eqn:Ek; [|lia]. apply first_eq_spec in Ek. unfold nopt. apply nth_error_Some. congruence.
Qed.
Lemma one_side i k : In i infos -> (0 < k < nopt i)%nat -> (0 < act i 1 /\ 0 < act i k) \/ (act i 1 < 0 /\ act i k < 0).
Proof.
  intros Hi Hk. destruct (info_ok_at _ _ _ _ _ _ _ f_HF Hi) as (e & xj & EN).
  destruct (en_side _ _ _ _ _ _ _ _ EN) as [Q|Q]; [left|right]; split; apply Q; lia.
Qed.
Lemma farthest_beats i k : In i infos -> (0 < k < nopt i)%nat -> (0 < act i 1 /\ act i k <= act i (pred (nopt i))) \/ (act i 1 < 0 /\ act i (pred (nopt i)) <= act i k).
Proof.
  intros Hi Hk. pose proof (one_side i k Hi Hk) as S1. pose proof (one_side i (pred (nopt i)) Hi ltac:(lia)) as S2.
  assert (K : k = pred (nopt i) \/ (k < pred (nopt i))%nat) by lia. destruct K as [K|K].
  - rewrite <- K. destruct S1 as [[S1 _]|[S1 _]]; [left|right]; (split; [exact S1|apply Qcle_refl]).
  - destruct (info_ok_at _ _ _ _ _ _ _ f_HF Hi) as (e & xj & EN). pose proof (en_sorted _ _ _ _ _ _ _ _ EN k (pred (nopt i)) ltac:(lia)) as G.
    unfold qabs in G. destruct S1 as [[S1 S3]|[S1 S3]], S2 as [[S4 S5]|[S4 S5]]; try (exfalso; qlra); [left|right]; (split; [exact S1|]);
      destruct (qle_spec 0 (act i k)), (qle_spec 0 (act i (pred (nopt i)))); qlra.
Qed.
Lemma farthest_at a j e xj c aj : permitted_action A x a -> movable_only A x a -> nth_error (as_elems A) j = Some e -> nth_error x j = Some xj ->
  nth_error w j = Some c -> nth_error a j = Some aj ->
  exists u, nth_error (avec n infos (farthest a)) j = Some u /\
    (if (0 <? as_y A)%Z then c * aj <= c * u else c * u <= c * aj) /\ (aj = 0 -> u = 0) /\ (constrained_at A j -> u = aj).
Proof.
  intros [_ HP] HM He Hx Hc Ha. assert (L : (j < n)%nat) by (rewrite <- f_HL; apply nth_error_Some; congruence).
  rewrite (avec_nth infos n (farthest a) j L). eexists. split; [reflexivity|].
  assert (Hnth : nth j a 0 = aj) by (now apply nth_error_nth).
  assert (HY : (as_y A = 1 \/ as_y A = -1)%Z) by apply HA.
  destruct (constrained_dec E A j HOE HA) as [HCo|HCo].
  { assert (Q : match info_at infos j with Some i => act i (farthest a j) | None => 0 end = aj).
    2:{ split; [|split; [congruence|auto]]. destruct (0 <? as_y A)%Z; rewrite Q; apply Qcle_refl. }
    assert (NM : forall i, info_at infos j = Some i -> smem (i_name i) (constrained_names E (as_cons A)) = true).
    { intros i Ei. apply info_at_Some in Ei. destruct Ei as [Hi Hj]. destruct (info_ok_at _ _ _ _ _ _ _ f_HF Hi) as (e' & xj' & EN).
      pose proof (en_name _ _ _ _ _ _ _ _ EN) as E4. rewrite Hj in E4. apply smem_iff. now apply (constrained_iff E A j _ HOE HA E4). }
    destruct (qeq_spec aj 0) as [Z0|NZ].
    - destruct (info_at infos j) as [i|] eqn:Ei; [|congruence]. unfold farthest. rewrite Ei, (NM i eq_refl), Hnth, Z0.
      apply info_at_Some in Ei. destruct Ei as [Hi _]. destruct (first_eq_In 0 (i_actions i)) as (k & Hk).
      { rewrite <- (wi_a0 _ (wfi' _ f_HW i Hi)). apply nth_In. pose proof (wi_len _ (wfi' _ f_HW i Hi)) as Q. unfold nopt in Q. lia. }
      rewrite Hk. unfold act. apply nth_error_nth. now apply first_eq_spec.
    - destruct (offered_constrained E A ct w x infos j e xj aj HOE HA HI HO HD HLg He Hx HCo (HP j e xj aj He Hx Ha) NZ) as (i & k & Hi & Hj & Hk & Hact).
      pose proof (info_at_In _ _ (proj2 f_HW) Hi) as Ei. rewrite Hj in Ei. rewrite Ei. unfold farthest. rewrite Ei, (NM i Ei), Hnth.
      destruct (first_eq_In aj (i_actions i)) as (k' & Hk').
      { rewrite <- Hact. apply nth_In. unfold nopt in Hk. lia. }
      rewrite Hk'. unfold act. apply nth_error_nth. now apply first_eq_spec. }
  assert (NM : forall i, info_at infos j = Some i -> ~ In (i_name i) (constrained_names E (as_cons A))).
  { intros i Ei. apply info_at_Some in Ei. destruct Ei as [Hi Hj]. destruct (info_ok_at _ _ _ _ _ _ _ f_HF Hi) as (e' & xj' & EN).
    pose proof (en_name _ _ _ _ _ _ _ _ EN) as E4. rewrite Hj in E4. intro Q. apply HCo. now apply (constrained_iff E A j _ HOE HA E4). }
  (* the value chosen, when the feature is offered *)
  assert (V : forall i, info_at infos j = Some i ->
     (0 < aj * act i 1 /\ act i (farthest a j) = act i (pred (nopt i))) \/ (aj * act i 1 <= 0 /\ act i (farthest a j) = 0)).
  { intros i Ei. unfold farthest. rewrite Ei, Hnth. destruct (smem (i_name i) _) eqn:SM; [apply smem_iff in SM; destruct (NM i Ei SM)|]. apply info_at_Some in Ei. destruct Ei as [Hi _].
    destruct (qlt_spec 0 (aj * act i 1)) as [G|G]; [left; auto|right; split; [exact G|apply (wi_a0 _ (wfi' _ f_HW i Hi))]]. }
  split; [|split; [|tauto]].
  - (* offered moves go in the helpful direction *)
    assert (SGN : forall i k, info_at infos j = Some i -> (0 < k < nopt i)%nat -> if (0 <? as_y A)%Z then 0 <= c * act i k else c * act i k <= 0).
    { intros i k Ei Hk. pose proof (NM i Ei) as NMi. apply info_at_Some in Ei. destruct Ei as [Hi Hj]. destruct (info_ok_at _ _ _ _ _ _ _ f_HF Hi) as (e' & xj' & EN).
      pose proof (en_w _ _ _ _ _ _ _ _ EN) as E3. rewrite Hj in E3. assert (EC : i_coef i = c) by congruence.
      pose proof (en_dir _ _ _ _ _ _ _ _ EN) as Q. rewrite EC in Q. specialize (Q NMi k Hk).
      destruct (qsign_spec c) as [[S1 S2]|[[S1 S2]|[S1 S2]]]; rewrite S2 in Q; destruct HY as [HY|HY]; rewrite HY in *; cbn [Z.mul Z.ltb Z.compare Pos.mul Z.opp] in *.
      - apply Qclt_le_weak, mul_pos; assumption.
      - assert (G : 0 < c * - act i k) by (apply mul_pos; qlra). replace (c * - act i k) with (- (c * act i k)) in G by ring. qlra.
      - rewrite S1, Qcmult_0_l. apply Qcle_refl.
      - rewrite S1, Qcmult_0_l. apply Qcle_refl.
      - assert (G : 0 < - c * - act i k) by (apply mul_pos; qlra). replace (- c * - act i k) with (c * act i k) in G by ring. qlra.
      - assert (G : 0 < - c * act i k) by (apply mul_pos; qlra). replace (- c * act i k) with (- (c * act i k)) in G by ring. qlra. }
    destruct (helps_or_harmful (as_y A) (c * aj)) as [Hh|Hh].
    + destruct (helpful_offered j e xj c aj He Hx Hc HCo (HM j e xj aj He Hx Ha) (HP j e xj aj He Hx Ha) Hh) as (i & k & Hi & Hj & Hk & Hf).
      pose proof (info_at_In _ _ (proj2 f_HW) Hi) as Ei. rewrite Hj in Ei. rewrite Ei.
      pose proof (one_side i k Hi Hk) as S1. pose proof (farthest_beats i k Hi Hk) as FB.
      assert (G : 0 < aj * act i 1).
      { destruct Hf as [[F1 F2]|[F1 F2]], S1 as [[S1 S2]|[S1 S2]]; try (exfalso; qlra).
        - now apply mul_pos.
        - replace (aj * act i 1) with (- aj * - act i 1) by ring. apply mul_pos; qlra. }
      destruct (V i Ei) as [[_ V1]|[V1 _]]; [|exfalso; qlra]. rewrite V1. set (far := act i (pred (nopt i))) in *.
      assert (B : (0 < aj /\ aj <= far) \/ (aj < 0 /\ far <= aj)).
      { destruct Hf as [[F1 F2]|[F1 F2]], FB as [[B1 B2]|[B1 B2]], S1 as [[S1 S2]|[S1 S2]]; try (exfalso; qlra); [left|right]; split; auto; qlra. }
      unfold helps in Hh. destruct (0 <? as_y A)%Z.
      * apply mul_sign_pos in Hh. destruct Hh as [[H1 H2]|[H1 H2]], B as [[B1 B2]|[B1 B2]]; try (exfalso; qlra).
        -- rewrite (Qcmult_comm c aj), (Qcmult_comm c far). apply Qcmult_le_compat_r; qlra.
        -- assert (Q : - aj * - c <= - far * - c) by (apply Qcmult_le_compat_r; qlra).
           replace (- aj * - c) with (c * aj) in Q by ring. replace (- far * - c) with (c * far) in Q by ring. exact Q.
      * assert (Hh' : 0 < c * - aj) by (replace (c * - aj) with (- (c * aj)) by ring; qlra).
        apply mul_sign_pos in Hh'. destruct Hh' as [[H1 H2]|[H1 H2]], B as [[B1 B2]|[B1 B2]]; try (exfalso; qlra).
        -- rewrite (Qcmult_comm c aj), (Qcmult_comm c far). apply Qcmult_le_compat_r; qlra.
        -- assert (Q : aj * - c <= far * - c) by (apply Qcmult_le_compat_r; qlra).
           replace (aj * - c) with (- (c * aj)) in Q by ring. replace (far * - c) with (- (c * far)) in Q by ring. qlra.
    + assert (Z : if (0 <? as_y A)%Z then 0 <= c * (match info_at infos j with Some i => act i (farthest a j) | None => 0 end)
                  else c * (match info_at infos j with Some i => act i (farthest a j) | None => 0 end) <= 0).
      { destruct (info_at infos j) as [i|] eqn:Ei.
        - destruct (V i eq_refl) as [[_ V1]|[_ V1]]; rewrite V1.
          + apply (SGN i (pred (nopt i)) eq_refl). apply info_at_Some in Ei. pose proof (wi_len _ (wfi' _ f_HW i (proj1 Ei))). lia.
          + rewrite Qcmult_0_r. destruct (0 <? as_y A)%Z; apply Qcle_refl.
        - rewrite Qcmult_0_r. destruct (0 <? as_y A)%Z; apply Qcle_refl. }
      unfold harmful in Hh. destruct (0 <? as_y A)%Z; qlra.
  - intro Z0. destruct (info_at infos j) as [i|] eqn:Ei; [|reflexivity]. destruct (V i eq_refl) as [[V1 _]|[_ V1]]; [|exact V1].
    rewrite Z0, Qcmult_0_l in V1. discriminate V1.
Qed.
Lemma far_all {B} (l : list B) j : length l = n -> (j < n)%nat -> exists b, nth_error l j = Some b.
Proof. intros H L. destruct (nth_error l j) as [b|] eqn:Eb; [eauto|]. apply nth_error_None in Eb. lia. Qed.
Lemma farthest_size a : permitted_action A x a -> movable_only A x a -> (size_ch infos (farthest a) <= n_changed a)%nat.
Proof.
  intros HP HM. rewrite <- (avec_changed E A ct w x infos n f_HW f_HF Hn f_HL Hw f_len); [|apply farthest_ok].
  unfold n_changed. apply count_le.
  - unfold avec. rewrite scatter_length. destruct HP as [-> _]. exact Hn.
  - intros j u v Hu Hv Hz. assert (L : (j < n)%nat) by (replace n with (length a); [apply nth_error_Some; congruence|destruct HP as [-> _]; now symmetry]).
    destruct (far_all _ j f_HL L) as (e & He). destruct (far_all _ j f_len L) as (xj & Hx). destruct (far_all _ j Hw L) as (c & Hc).
    destruct (farthest_at a j e xj c v HP HM He Hx Hc Hv) as (u' & Hu' & _ & D & _). rewrite Hu in Hu'. assert (u' = u) by congruence. subst u'.
    apply negb_true_iff. apply negb_true_iff in Hz. qbool. intro Z0. apply Hz. auto.
Qed.
Lemma farthest_gain a t : permitted_action A x a -> movable_only A x a -> on_side (as_y A) (score w t (vadd x a)) ->
  on_side (as_y A) (dot w x + t + gain infos (farthest a)).
Proof.
  intros HP HM HS. rewrite <- (avec_score E A ct w x infos n f_HW f_HF f_HL Hw f_len).
  assert (La : length a = length w) by (destruct HP as [-> _]; congruence).
  assert (Lv : length (avec n infos (farthest a)) = length w) by (unfold avec; rewrite scatter_length; congruence).
  assert (Lx : length x = length w) by (rewrite Hw; apply f_len).
  unfold score in *. rewrite dot_vadd in * by assumption.
  assert (P : forall j c u v, nth_error w j = Some c -> nth_error a j = Some u -> nth_error (avec n infos (farthest a)) j = Some v ->
     if (0 <? as_y A)%Z then c * u <= c * v else c * v <= c * u).
  { intros j c u v Hc Hu Hv. assert (L : (j < n)%nat) by (rewrite <- Hw; apply nth_error_Some; congruence).
    destruct (far_all _ j f_HL L) as (e & He). destruct (far_all _ j f_len L) as (xj & Hx).
    destruct (farthest_at a j e xj c u HP HM He Hx Hc Hu) as (v' & Hv' & D & _ & _). rewrite Hv in Hv'. assert (v' = v) by congruence. subst v'. exact D. }
  unfold on_side in *. destruct (0 <? as_y A)%Z.
  - assert (dot w a <= dot w (avec n infos (farthest a))) by (apply dot_le; auto). qlra.
  - assert (dot w (avec n infos (farthest a)) <= dot w a) by (apply dot_le; auto; intros; eapply P; eauto). qlra.
Qed.
Lemma farthest_accepted a t lo hi : (lo <= 1)%Z -> denied (as_y A) (score w t x) ->
  permitted_action A x a -> movable_only A x a -> on_side (as_y A) (score w t (vadd x a)) -> (Z.of_nat (n_changed a) <= hi)%Z -> compliant A x a ->
  accept A w t lo hi x infos (farthest a).
Proof.
  intros Hlo HDn HP HM HS Hhi HCp. split; [apply farthest_ok|]. pose proof (farthest_gain a t HP HM HS) as HG. split; [exact HG|]. split.
  - pose proof (farthest_size a HP HM) as H. split; [|lia]. assert (size_ch infos (farthest a) <> 0)%nat; [|lia].
    intro Z0. assert (G0 : gain infos (farthest a) = 0).
    { unfold gain. assert (F : filter (moved (farthest a)) infos = []) by (apply length_zero_iff_nil; exact Z0).
      assert (AZ : forall i, In i infos -> act i (farthest a (i_idx i)) = 0).
      { intros i Hi. assert (M : moved (farthest a) i = false).
        { destruct (moved (farthest a) i) eqn:M; [|reflexivity]. assert (Q : In i (filter (moved (farthest a)) infos)) by (apply filter_In; auto). rewrite F in Q. destruct Q. }
        unfold moved in M. apply negb_false_iff, Nat.eqb_eq in M. rewrite M. apply (wi_a0 _ (wfi' _ f_HW i Hi)). }
      rewrite (map_ext_in _ (fun _ => 0)); [apply qsum_map_zero|]. intros i Hi. rewrite (AZ i Hi). ring. }
    rewrite G0 in HG. apply HDn. unfold score. replace (dot w x + t) with (dot w x + t + 0) by ring. exact HG.
  - apply (rows_compliant E A ct w x infos n HOE HA HI Hn _ (lined_of E A w x HA HFl (proj1 HO))).
    + intros j xj HC Hx. assert (L : (j < n)%nat) by (rewrite <- f_len; apply nth_error_Some; congruence). destruct (far_all _ j f_HL L) as (e & He). apply (proj2 HO j e xj HC He Hx).
    + apply farthest_ok.
    + assert (La : length a = n) by (destruct HP as [-> _]; now symmetry). apply (compliant_ext A x a); auto.
      * rewrite La. symmetry. apply f_len.
      * unfold avec. rewrite scatter_length. symmetry. apply f_len.
      * intros j HC. destruct (constrained_lt E A j HA HC) as (nm & En). assert (L : (j < n)%nat) by (rewrite Hn; apply nth_error_Some; congruence).
        destruct (far_all _ j f_HL L) as (e & He). destruct (far_all _ j f_len L) as (xj & Hx). destruct (far_all _ j Hw L) as (c & Hc). destruct (far_all _ j La L) as (aj & Ha).
        destruct (farthest_at a j e xj c aj HP HM He Hx Hc Ha) as (u & Hu & _ & _ & D). specialize (D HC). subst u.
        now rewrite (nth_error_nth _ _ _ Ha), (nth_error_nth _ _ _ Hu).
Qed.
End Far.
