(** Any permitted action that reaches the desired side can be replaced by an offered one that is no
    larger and no more expensive: certificates of infeasibility and optimality. *)
From Verif Require Import Proofs_props_element Proofs_props_actionset Spec_recourse Proofs_mip Proofs_info Proofs_vec Proofs_build Proofs_enum Proofs_session Proofs_recourse Proofs_subset.
#[local] Open Scope list_scope.
#[local] Open Scope Qc_scope.

Lemma Qc_div_gt1 a b : 0 < b -> b < a -> 1 < a / b.
Proof.
  intros Hb Hab. apply Qc_lt_this. rewrite this_div. apply Qc_lt_this in Hb, Hab. change (this 0) with 0%Q in Hb. change (this 1) with 1%Q.
  apply Qlt_shift_div_l; [exact Hb|]. now rewrite Qmult_1_l.
Qed.
Lemma first_eq_In v l : In v l -> exists k, first_eq v l = Some k.
Proof.
  induction l as [|a l IH]; [intros []|]. intro H. cbn [first_eq]. destruct (qeq_spec a v) as [->|N]; [eauto|].
  destruct H as [->|H]; [congruence|]. destruct (IH H) as (k & ->). cbn. eauto.
Qed.
Lemma dot_le w : forall a b, length a = length w -> length b = length w ->
  (forall j c u v, nth_error w j = Some c -> nth_error a j = Some u -> nth_error b j = Some v -> c * u <= c * v) -> dot w a <= dot w b.
Proof.
  induction w as [|c w IH]; intros [|u a] [|v b]; cbn [length dot]; intros H1 H2 H; try discriminate H1; try discriminate H2; [apply Qcle_refl|].
  assert (dot w a <= dot w b) by (apply IH; try congruence; intros j; exact (H (S j))).
  pose proof (H 0%nat c u v eq_refl eq_refl eq_refl). apply Qcplus_le_compat; assumption.
Qed.
Lemma qsum_le : forall a b, length a = length b ->
  (forall j u v, nth_error a j = Some u -> nth_error b j = Some v -> u <= v) -> qsum a <= qsum b.
Proof.
  induction a as [|u a IH]; intros [|v b]; cbn [length qsum]; intros H1 H; try discriminate H1; [apply Qcle_refl|].
  assert (qsum a <= qsum b) by (apply IH; try congruence; intros j; exact (H (S j))).
  pose proof (H 0%nat u v eq_refl eq_refl). apply Qcplus_le_compat; assumption.
Qed.
Lemma count_le (p : Qc -> bool) : forall a b, length a = length b ->
  (forall j u v, nth_error a j = Some u -> nth_error b j = Some v -> p u = true -> p v = true) ->
  (length (filter p a) <= length (filter p b))%nat.
Proof.
  induction a as [|u a IH]; intros [|v b]; cbn [length filter]; intros H1 H; try discriminate H1; [lia|].
  assert (length (filter p a) <= length (filter p b))%nat by (apply IH; try congruence; intros j; exact (H (S j))).
  pose proof (H 0%nat u v eq_refl eq_refl). destruct (p u); [rewrite H2 by reflexivity; cbn; lia|]. destruct (p v); cbn [length]; lia.
Qed.
Lemma unconstrained_names E A : ok_env E -> unconstrained A -> constrained_names E (as_cons A) = [].
Proof.
  intros HE HU. unfold unconstrained in HU. unfold constrained_names. rewrite HU. cbn. apply Permutation_nil. apply Permutation_sym. apply HE.
Qed.
Lemma qsign_spec c : (0 < c /\ qsign c = 1%Z) \/ (c = 0 /\ qsign c = 0%Z) \/ (c < 0 /\ qsign c = (-1)%Z).
Proof.
  unfold qsign. destruct (qlt_spec 0 c) as [H|H]; [auto|]. destruct (qlt_spec c 0) as [H1|H1]; [auto|]. right. left. split; [now apply Qcle_antisym|reflexivity].
Qed.

(** ** Prices of changes *)
Lemma move_cost_fun E ct e x v c c' : move_cost E ct e x v c -> move_cost E ct e x v c' -> c = c'.
Proof.
  intros (p & q & H1 & H2 & ->) (p' & q' & H3 & H4 & ->). rewrite H1 in H3. rewrite H2 in H4.
  assert (p' = p) by congruence. assert (q' = q) by congruence. subst. reflexivity.
Qed.
Definition dens E e := forall pdf v, kde E (e_values e) = Some pdf -> 0 <= pdf v.
Lemma price_of E ct e x v p q : elem_reachable E e -> dens E e -> log_ok E ct ->
  percentile E e x = Ok p -> percentile E e v = Ok q -> (x < v -> p < q) -> (v < x -> q < p) -> v <> x ->
  exists c, move_cost E ct e x v c /\ 0 < c.
Proof.
  intros HR HD HL Hp Hq H1 H2 Hne. destruct (c13_range _ _ _ _ HR HD Hp) as [P0 P1]. destruct (c13_range _ _ _ _ HR HD Hq) as [Q0 Q1].
  eexists. split; [exists p, q; split; [exact Hp|]; split; [exact Hq|reflexivity]|].
  destruct (qle_spec x v) as [L|L].
  - assert (L' : x < v) by (destruct (Qcle_lt_or_eq _ _ L) as [?|?]; [assumption|congruence]). specialize (H1 L'). destruct ct.
    + qlra.
    + destruct (HL eq_refl) as [L1 L2]. rewrite <- L1 at 1. apply L2; [reflexivity|]. apply Qc_div_gt1; qlra.
    + qlra.
  - specialize (H2 L). destruct ct.
    + qlra.
    + destruct (HL eq_refl) as [L1 L2]. rewrite <- L1 at 1. apply L2; [reflexivity|]. apply Qc_div_gt1; qlra.
    + qlra.
Qed.

Lemma strict_price E ct e xj v : elem_reachable E e -> dens E e -> log_ok E ct -> strict_at E e xj -> permitted e xj v -> v <> xj ->
  exists c, move_cost E ct e xj v c /\ 0 < c.
Proof.
  intros RE D HLg HSt Hp Hne. assert (P0 : permitted e xj xj) by now left.
  destruct (Qc_dec v xj) as [[H|H]|H]; [| |congruence].
  - destruct (HSt v xj Hp P0 H) as (p & q & P1 & P2 & P3). apply (price_of E ct e xj v q p); auto; intro; qlra.
  - destruct (HSt xj v P0 Hp H) as (p & q & P1 & P2 & P3). apply (price_of E ct e xj v p q); auto; intro; qlra.
Qed.
(** Every permitted change of a constrained feature is offered. *)
Lemma constrained_dec E A j : ok_env E -> wf_aset E A -> constrained_at A j \/ ~ constrained_at A j.
Proof.
  intros HOE HA. destruct (nth_error (as_names A) j) as [nm|] eqn:En.
  - destruct (in_dec String.string_dec nm (constrained_names E (as_cons A))) as [H|H]; [left|right; intro H2; apply H]; apply (constrained_iff E A j nm HOE HA En); assumption.
  - right. intro HC. destruct (constrained_lt E A j HA HC) as (nm & K). congruence.
Qed.
Lemma offered_constrained E A ct w x infos j e xj aj : ok_env E -> wf_aset E A -> get_build_info E A ct w x = Ok infos -> orderly E A w x -> density E -> log_ok E ct ->
  nth_error (as_elems A) j = Some e -> nth_error x j = Some xj -> constrained_at A j ->
  permitted e xj (xj + aj) -> aj <> 0 -> exists i k, In i infos /\ i_idx i = j /\ (0 < k < nopt i)%nat /\ act i k = aj.
Proof.
  intros HOE HA HI [_ HO] HD HLg He Hx HC Hp Ha. assert (Hne : xj + aj <> xj) by (intro E0; apply Ha; replace aj with (xj + aj - xj) by ring; rewrite E0; ring).
  destruct (HO j e xj HC He Hx) as (_ & HSt & HRv).
  assert (RE : elem_reachable E e). { destruct HA as (_ & _ & H3 & _). rewrite Forall_forall in H3. apply H3. eapply nth_error_In, He. }
  destruct (strict_price E ct e xj _ RE (fun pdf u => HD _ pdf u) HLg HSt Hp Hne) as (p & Hmc & Hpp). destruct (constrained_lt E A j HA HC) as (nm & En).
  destruct (build_info_spec E A ct w x infos HOE HA HI) as (_ & _ & _ & _ & (_ & HK & _) & _).
  destruct (HK j e xj nm (xj + aj) p En He Hx) as (i & k & K1 & K2 & K3 & K4 & _); auto.
  - apply (constrained_iff E A j nm HOE HA En). exact HC.
  - apply HRv.
  - unfold isclose0. qbool. now apply HRv.
  - exists i, k. repeat split; auto; try lia. rewrite K4. ring.
Qed.

(** The positions of the program line up with the features. *)
Lemma sign_move y wi d : (y = 1 \/ y = -1)%Z -> attains y (wi * d) ->
  let f := (if (y =? 1)%Z then qsign wi else - qsign wi)%Z in ((0 < f)%Z -> 0 <= d) /\ ((f < 0)%Z -> d <= 0).
Proof.
  intros Hy H f. subst f. unfold attains in H.
  assert (P : forall p q, 0 < p -> 0 < q -> 0 < p * q) by (intros; now apply qmul_pos).
  assert (M : forall s t u v : Qc, s * t = - (u * v) -> 0 < u -> 0 < v -> s * t < 0) by (intros s t u v -> Hu Hv; specialize (P u v Hu Hv); qlra).
  assert (M' : forall s t u v : Qc, s * t = u * v -> 0 < u -> 0 < v -> 0 < s * t) by (intros s t u v -> Hu Hv; auto).
  destruct (qsign_spec wi) as [[W ->]|[[W ->]|[W ->]]].
  - destruct Hy as [->| ->]; cbn in *; split; intro L; try discriminate L.
    + destruct (Qclt_le_dec d 0) as [D|D]; [|exact D]. exfalso. assert (wi * d < 0) by (apply (M wi d wi (- d)); [ring|assumption|qlra]). qlra.
    + destruct (Qclt_le_dec 0 d) as [D|D]; [|exact D]. exfalso. specialize (P wi d W D). qlra.
  - destruct Hy as [->| ->]; cbn in *; split; intro L; discriminate L.
  - destruct Hy as [->| ->]; cbn in *; split; intro L; try discriminate L.
    + destruct (Qclt_le_dec 0 d) as [D|D]; [|exact D]. exfalso. assert (wi * d < 0) by (apply (M wi d (- wi) d); [ring|qlra|assumption]). qlra.
    + destruct (Qclt_le_dec d 0) as [D|D]; [|exact D]. exfalso. assert (0 < wi * d) by (apply (M' wi d (- wi) (- d)); [ring|qlra|qlra]). qlra.
Qed.
Lemma lined_of E A w x : wf_aset E A -> flips_match A w -> in_line A w x -> lined A x.
Proof.
  intros HA [HLw HFl] HL j i e xi HC Hi He Hx. destruct (nth_error w i) as [wi|] eqn:Hw.
  2:{ apply nth_error_None in Hw. assert (i < length (as_elems A))%nat by (apply nth_error_Some; congruence). lia. }
  destruct (HL j i e wi xi HC Hi He Hw Hx) as (H1 & H2 & H3 & v & V1 & V2 & V3). specialize (HFl i e wi He Hw).
  assert (Hy : (as_y A = 1 \/ as_y A = -1)%Z) by apply HA.
  assert (RE : elem_reachable E e). { destruct HA as (_ & _ & K & _). rewrite Forall_forall in K. apply K. eapply nth_error_In, He. }
  split; [|split; [exact H3|]].
  - pose proof (c16 E e RE) as K. rewrite HFl in K. apply K. split; [exact H1|].
    destruct (qsign_spec wi) as [[W ->]|[[W ->]|[W ->]]]; unfold can_help, attains in H2; destruct Hy as [Ey|Ey]; rewrite Ey in *; cbn in *; destruct H2 as [[D W2]|[D W2]];
      try (exfalso; qlra); try (split; [discriminate|exact D]).
  - exists v. split; [exact V1|]. split; [exact V2|]. destruct V3 as [V3|V3]; [now left|right]. unfold improving. rewrite HFl.
    destruct (sign_move _ _ _ Hy V3) as [S1 S2]. split; intro L; [specialize (S1 L)|specialize (S2 L)]; qlra.
Qed.

(** Facts about a weight, a direction and a move. *)
Definition harmful (y : Z) (s : Qc) : Prop := if (0 <? y)%Z then s <= 0 else 0 <= s.

Section Exchange.
Context (E : env) (A : action_set) (ct : cost_type) (w x : list Qc) (infos : list info) (n : nat).
Context (HOE : ok_env E) (HA : wf_aset E A) (HI : get_build_info E A ct w x = Ok infos) (Hn : n = as_len A) (Hw : length w = n).
Context (HO : orderly E A w x) (HFl : flips_match A w) (HR : regular E A x) (HD : density E) (HLg : log_ok E ct).
Lemma x_len : length x = n.
Proof. rewrite Hn. apply (build_info_spec E A ct w x infos HOE HA HI). Qed.
Lemma x_HW : wf_infos infos.
Proof. apply (build_info_spec E A ct w x infos HOE HA HI). Qed.
Lemma x_HF : Forall (info_ok E A ct w x) infos.
Proof. apply (build_info_spec E A ct w x infos HOE HA HI). Qed.
Lemma x_HL : length (as_elems A) = n.
Proof. rewrite Hn. eapply wf_len, HA. Qed.
Lemma x_reach j e : nth_error (as_elems A) j = Some e -> elem_reachable E e.
Proof. intro H. destruct HA as (_ & _ & H3 & _). rewrite Forall_forall in H3. apply H3. eapply nth_error_In, H. Qed.

Lemma x_price j e xj v : nth_error (as_elems A) j = Some e -> nth_error x j = Some xj -> permitted e xj v -> v <> xj ->
  exists c, move_cost E ct e xj v c /\ 0 < c.
Proof.
  intros He Hx Hp Hne. apply strict_price; auto; [eapply x_reach; eauto|intros pdf u; apply HD|exact (proj1 HR j e xj He Hx)].
Qed.
Lemma x_far j e xj v : nth_error (as_elems A) j = Some e -> nth_error x j = Some xj -> permitted e xj v -> v <> xj -> isclose0 (v - xj) = false.
Proof.
  intros He Hx Hp Hne. destruct (proj2 HR j e xj He Hx) as [_ H]. specialize (H v Hp Hne). unfold isclose0. qbool. exact H.
Qed.

Lemma constrained_or j : constrained_at A j \/ ~ constrained_at A j.
Proof.
  apply (constrained_dec E A j HOE HA).
Qed.
(** A permitted change is offered, or does not help. *)
Lemma offered_or_harmful j e xj c aj : nth_error (as_elems A) j = Some e -> nth_error x j = Some xj -> nth_error w j = Some c ->
  permitted e xj (xj + aj) -> aj <> 0 ->
  (exists i k, In i infos /\ i_idx i = j /\ (0 < k < nopt i)%nat /\ act i k = aj) \/ (~ constrained_at A j /\ harmful (as_y A) (c * aj)).
Proof.
  intros He Hx Hc Hp Ha. destruct (constrained_or j) as [HCo|HCo]; [left; exact (offered_constrained E A ct w x infos j e xj aj HOE HA HI HO HD HLg He Hx HCo Hp Ha)|].
  cut ((exists i k, In i infos /\ i_idx i = j /\ (0 < k < nopt i)%nat /\ act i k = aj) \/ harmful (as_y A) (c * aj)); [tauto|]. assert (Hne : xj + aj <> xj) by (intro E0; apply Ha; replace aj with (xj + aj - xj) by ring; rewrite E0; ring).
  pose proof (x_reach _ _ He) as Hre. destruct HFl as [_ HF]. specialize (HF j e c He Hc).
  assert (HY : (as_y A = 1 \/ as_y A = -1)%Z) by apply HA.
  assert (Act : e_actionable e = true) by (destruct Hp as [Hp|Hp]; [congruence|apply Hp]).
  assert (Dir : ((0 < e_step_dir e)%Z -> 0 < aj) /\ ((e_step_dir e < 0)%Z -> aj < 0)).
  { destruct Hp as [Hp|(_ & _ & D1 & D2)]; [congruence|].
    split; intro Hs; [specialize (D1 Hs)|specialize (D2 Hs)]; destruct (qlt_spec 0 aj) as [G|G]; destruct (qlt_spec aj 0) as [G2|G2]; auto; try qlra.
    exfalso. apply Ha. now apply Qcle_antisym. exfalso. apply Ha. now apply Qcle_antisym. }
  assert (M : improving e xj (xj + aj) -> c <> 0 -> exists i k, In i infos /\ i_idx i = j /\ (0 < k < nopt i)%nat /\ act i k = aj).
  { intros Him Hc0. destruct (x_price j e xj _ He Hx Hp Hne) as (p & Hmc & Hpp).
    assert (Lj : (j < length (as_names A))%nat).
    { change (j < as_len A)%nat. rewrite <- Hn, <- x_HL. apply nth_error_Some. congruence. }
    destruct (nth_error (as_names A) j) as [nm|] eqn:En; [|apply nth_error_None in En; lia].
    assert (Hcm : compatible e = Some true).
    { pose proof (c16 E e Hre) as HC. rewrite HF in HC. apply HC. split; [exact Act|]. unfold improving in Him. rewrite HF in Him. destruct Dir as [D1 D2].
      destruct (qsign_spec c) as [[S1 S2]|[[S1 S2]|[S1 S2]]]; [|congruence|]; rewrite S2 in *; destruct HY as [HY|HY]; rewrite HY in *; cbn [Z.eqb Pos.eqb Z.opp] in Him |- *; destruct Him as [I1 I2].
      all: split; [lia|]; intro Q.
      all: try (specialize (I1 ltac:(lia)); specialize (D2 ltac:(lia)); qlra).
      all: try (specialize (I2 ltac:(lia)); specialize (D1 ltac:(lia)); qlra). }
    destruct (build_info_spec E A ct w x infos HOE HA HI) as (_ & _ & _ & HC & _).
    destruct (HC j e xj nm (xj + aj) p En He Hx Hcm) as (i & k & K1 & K2 & K3 & K4 & _); auto.
    - intro Q. apply HCo. now apply (constrained_iff E A j nm HOE HA En).
    - apply (proj2 HR j e xj He Hx).
    - eapply x_far; eauto.
    - exists i, k. repeat split; auto; try lia. rewrite K4. ring. }
  unfold harmful. destruct (qsign_spec c) as [[S1 S2]|[[S1 S2]|[S1 S2]]].
  - destruct (qlt_spec 0 aj) as [G|G].
    + assert (Pos : 0 <= c * aj) by (rewrite <- (Qcmult_0_l aj); apply Qcmult_le_compat_r; qlra).
      destruct HY as [HY|HY]; rewrite HY; cbn [Z.ltb Z.compare]; [left|right; exact Pos].
      apply M; [|intro; subst c; qlra]. unfold improving. rewrite HF, HY, S2. cbn [Z.eqb Pos.eqb Z.opp]. split; [intros _; qlra|lia].
    + assert (Neg : c * aj <= 0) by (rewrite Qcmult_comm, <- (Qcmult_0_l c); apply Qcmult_le_compat_r; qlra).
      destruct HY as [HY|HY]; rewrite HY; cbn [Z.ltb Z.compare]; [right; exact Neg|left].
      apply M; [|intro; subst c; qlra]. unfold improving. rewrite HF, HY, S2. cbn [Z.eqb Pos.eqb Z.opp]. split; [lia|intros _; qlra].
  - right. rewrite S1, Qcmult_0_l. destruct (0 <? as_y A)%Z; apply Qcle_refl.
  - assert (Cn : 0 <= - c) by qlra. destruct (qlt_spec 0 aj) as [G|G].
    + assert (Pos : 0 <= - c * aj) by (rewrite <- (Qcmult_0_l aj); apply Qcmult_le_compat_r; qlra).
      replace (- c * aj) with (- (c * aj)) in Pos by ring.
      destruct HY as [HY|HY]; rewrite HY; cbn [Z.ltb Z.compare]; [right; qlra|left].
      apply M; [|intro; subst c; qlra]. unfold improving. rewrite HF, HY, S2. cbn [Z.eqb Pos.eqb Z.opp]. split; [intros _; qlra|lia].
    + assert (Neg : aj * - c <= 0) by (rewrite <- (Qcmult_0_l (- c)); apply Qcmult_le_compat_r; qlra).
      replace (aj * - c) with (- (c * aj)) in Neg by ring.
      destruct HY as [HY|HY]; rewrite HY; cbn [Z.ltb Z.compare]; [left|right; qlra].
      apply M; [|intro; subst c; qlra]. unfold improving. rewrite HF, HY, S2. cbn [Z.eqb Pos.eqb Z.opp]. split; [lia|intros _; qlra].
Qed.

(** The offered counterpart of a permitted action: harmful changes are dropped. *)
Definition counterpart (a : list Qc) : choice := fun j =>
  match info_at infos j with
  | Some i => match first_eq (nth j a 0) (i_actions i) with Some k => k | None => 0%nat end
  | None => 0%nat
  end.
Lemma counterpart_ok a : ch_ok infos (counterpart a).
Proof.
  intros i Hi. unfold counterpart. rewrite (info_at_In _ _ (proj2 x_HW) Hi).
  destruct (first_eq (nth (i_idx i) a 0) (i_actions i)) as [k|] eqn:Ek.
  - apply first_eq_spec in Ek. unfold nopt. apply nth_error_Some. congruence.
  - pose proof (wi_len _ (wfi' _ x_HW i Hi)). lia.
Qed.
Lemma counterpart_at a j e xj c aj : permitted_action A x a -> nth_error (as_elems A) j = Some e -> nth_error x j = Some xj ->
  nth_error w j = Some c -> nth_error a j = Some aj ->
  exists u, nth_error (avec n infos (counterpart a)) j = Some u /\ (u = aj \/ (~ constrained_at A j /\ u = 0 /\ aj <> 0 /\ harmful (as_y A) (c * aj))).
Proof.
  intros [_ HP] He Hx Hc Ha. assert (L : (j < n)%nat) by (rewrite <- x_HL; apply nth_error_Some; congruence).
  rewrite (avec_nth infos n (counterpart a) j L). eexists. split; [reflexivity|].
  assert (Hnth : nth j a 0 = aj) by (now apply nth_error_nth).
  destruct (qeq_spec aj 0) as [Z0|NZ].
  { left. rewrite Z0. rewrite Z0 in Hnth. destruct (info_at infos j) as [i|] eqn:Ei; [|reflexivity]. unfold counterpart. rewrite Ei, Hnth.
    apply info_at_Some in Ei. destruct Ei as [Hi _].
    destruct (first_eq_In 0 (i_actions i)) as (k & Hk).
    { rewrite <- (wi_a0 _ (wfi' _ x_HW i Hi)). apply nth_In. pose proof (wi_len _ (wfi' _ x_HW i Hi)) as Q. unfold nopt in Q. lia. }
    rewrite Hk. unfold act. apply nth_error_nth. now apply first_eq_spec. }
  destruct (offered_or_harmful j e xj c aj He Hx Hc (HP j e xj aj He Hx Ha) NZ) as [(i & k & Hi & Hj & Hk & Hact)|[Hnc Hh]].
  - left. subst j. rewrite (info_at_In _ _ (proj2 x_HW) Hi). unfold counterpart. rewrite (info_at_In _ _ (proj2 x_HW) Hi), Hnth.
    destruct (first_eq_In aj (i_actions i)) as (k' & Hk').
    { rewrite <- Hact. apply nth_In. unfold nopt in Hk. lia. }
    rewrite Hk'. unfold act. apply nth_error_nth. now apply first_eq_spec.
  - destruct (info_at infos j) as [i|] eqn:Ei; [|right; auto]. unfold counterpart. rewrite Ei, Hnth. destruct (first_eq aj (i_actions i)) as [k|] eqn:Ek.
    + left. unfold act. apply nth_error_nth. now apply first_eq_spec.
    + right. apply info_at_Some in Ei. destruct Ei as [Hi _]. rewrite (wi_a0 _ (wfi' _ x_HW i Hi)). auto.
Qed.
Lemma at_all {B} (l : list B) j : length l = n -> (j < n)%nat -> exists b, nth_error l j = Some b.
Proof. intros H L. destruct (nth_error l j) as [b|] eqn:Eb; [eauto|]. apply nth_error_None in Eb. lia. Qed.

Lemma counterpart_size a : permitted_action A x a -> (size_ch infos (counterpart a) <= n_changed a)%nat.
Proof.
  intro HP. rewrite <- (avec_changed E A ct w x infos n x_HW x_HF Hn x_HL Hw x_len); [|apply counterpart_ok].
  unfold n_changed. apply count_le.
  - unfold avec. rewrite scatter_length. destruct HP as [-> _]. exact Hn.
  - intros j u v Hu Hv Hz. assert (L : (j < n)%nat) by (replace n with (length a); [apply nth_error_Some; congruence|destruct HP as [-> _]; now symmetry]).
    destruct (at_all _ j x_HL L) as (e & He). destruct (at_all _ j x_len L) as (xj & Hx). destruct (at_all _ j Hw L) as (c & Hc).
    destruct (counterpart_at a j e xj c v HP He Hx Hc Hv) as (u' & Hu' & D). rewrite Hu in Hu'. assert (u' = u) by congruence. subst u'.
    destruct D as [<-|(_ & -> & _)]; [exact Hz|discriminate Hz].
Qed.
Lemma counterpart_gain a t : permitted_action A x a -> on_side (as_y A) (score w t (vadd x a)) ->
  on_side (as_y A) (dot w x + t + gain infos (counterpart a)).
Proof.
  intros HP HS. rewrite <- (avec_score E A ct w x infos n x_HW x_HF x_HL Hw x_len).
  assert (La : length a = length w) by (destruct HP as [-> _]; congruence).
  assert (Lv : length (avec n infos (counterpart a)) = length w) by (unfold avec; rewrite scatter_length; congruence).
  assert (Lx : length x = length w) by (rewrite Hw; apply x_len).
  unfold score in *. rewrite dot_vadd in * by assumption.
  assert (P : forall j c u v, nth_error w j = Some c -> nth_error a j = Some u -> nth_error (avec n infos (counterpart a)) j = Some v ->
     v = u \/ (v = 0 /\ harmful (as_y A) (c * u))).
  { intros j c u v Hc Hu Hv. assert (L : (j < n)%nat) by (rewrite <- Hw; apply nth_error_Some; congruence).
    destruct (at_all _ j x_HL L) as (e & He). destruct (at_all _ j x_len L) as (xj & Hx).
    destruct (counterpart_at a j e xj c u HP He Hx Hc Hu) as (u' & Hu' & D). rewrite Hv in Hu'. assert (u' = v) by congruence. subst u'. tauto. }
  unfold on_side, harmful in *. destruct (0 <? as_y A)%Z.
  - assert (dot w a <= dot w (avec n infos (counterpart a))); [|qlra]. apply dot_le; auto. intros j c u v Hc Hu Hv.
    destruct (P j c u v Hc Hu Hv) as [->|[-> H]]; [apply Qcle_refl|]. rewrite Qcmult_0_r. exact H.
  - assert (dot w (avec n infos (counterpart a)) <= dot w a); [|qlra]. apply dot_le; auto. intros j c u v Hc Hu Hv.
    destruct (P j c v u Hc Hv Hu) as [->|[-> H]]; [apply Qcle_refl|]. rewrite Qcmult_0_r. exact H.
Qed.
Lemma counterpart_costs a cs j u v : permitted_action A x a -> action_costs E ct A x a cs ->
  nth_error (cvec n infos (counterpart a)) j = Some u -> nth_error cs j = Some v -> u <= v.
Proof.
  intros HP [HLc HC] Hu Hv. assert (L : (j < n)%nat).
  { replace n with (length cs); [apply nth_error_Some; congruence|]. rewrite HLc. destruct HP as [-> _]. now symmetry. }
  assert (La : length a = n) by (destruct HP as [-> _]; now symmetry).
  destruct (at_all _ j x_HL L) as (e & He). destruct (at_all _ j x_len L) as (xj & Hx). destruct (at_all _ j Hw L) as (c & Hc). destruct (at_all _ j La L) as (aj & Ha).
  specialize (HC j e xj aj v He Hx Ha Hv). destruct (counterpart_at a j e xj c aj HP He Hx Hc Ha) as (u' & Hu' & D).
  rewrite (avec_nth infos n _ j L) in Hu'. rewrite (cvec_nth infos n _ j L) in Hu.
  assert (Hu0 : u = match info_at infos j with Some i => cst i (counterpart a j) | None => 0 end) by congruence.
  assert (Hu1 : u' = match info_at infos j with Some i => act i (counterpart a j) | None => 0 end) by congruence. clear Hu Hu'.
  assert (Hnn : 0 <= v).
  { destruct HC as [[_ ->]|[Hne Hmc]]; [apply Qcle_refl|]. pose proof (proj2 HP j e xj aj He Hx Ha) as Hp.
    assert (Hne' : xj + aj <> xj) by (intro E0; apply Hne; replace aj with (xj + aj - xj) by ring; rewrite E0; ring).
    destruct (x_price j e xj _ He Hx Hp Hne') as (p & H1 & H2). rewrite (move_cost_fun _ _ _ _ _ _ _ Hmc H1). qlra. }
  destruct (info_at infos j) as [i|] eqn:Ei; [|subst u; exact Hnn]. apply info_at_Some in Ei. destruct Ei as [Hi Hj]. subst j.
  pose proof (counterpart_ok a i Hi) as Hk. set (k := counterpart a (i_idx i)) in *.
  destruct k as [|k]; [rewrite Hu0, (wi_c0 _ (wfi' _ x_HW i Hi)); exact Hnn|].
  destruct (wi_pos _ (wfi' _ x_HW i Hi) (S k) ltac:(lia)) as [_ Hne].
  destruct D as [D|(_ & D & _)]; [|congruence].
  destruct (info_ok_at _ _ _ _ _ _ _ x_HF Hi) as (e' & xj' & HE'). pose proof (en_elem _ _ _ _ _ _ _ _ HE') as E1. pose proof (en_x _ _ _ _ _ _ _ _ HE') as E2.
  rewrite He in E1. assert (e' = e) by congruence. rewrite Hx in E2. assert (xj' = xj) by congruence. subst e' xj'.
  pose proof (en_cost _ _ _ _ _ _ _ _ HE' (S k) ltac:(lia)) as Hmc. rewrite <- Hu1, D in Hmc.
  destruct HC as [[Hz _]|[_ Hmc']]; [congruence|]. rewrite Hu0, (move_cost_fun _ _ _ _ _ _ _ Hmc Hmc'). apply Qcle_refl.
Qed.
Lemma counterpart_sum a cs : permitted_action A x a -> action_costs E ct A x a cs -> qsum (chosen_costs infos (counterpart a)) <= qsum cs.
Proof.
  intros HP HC. rewrite <- (cvec_sum E A ct w x infos n x_HW x_HF x_HL). apply qsum_le.
  - unfold cvec. rewrite scatter_length. destruct HC as [-> _]. destruct HP as [-> _]. exact Hn.
  - intros j u v. now apply (counterpart_costs a cs).
Qed.
Lemma counterpart_max a cs m : permitted_action A x a -> action_costs E ct A x a cs -> largest cs m -> qmaxl (chosen_costs infos (counterpart a)) 0 <= m.
Proof.
  intros HP HC [_ Hm]. assert (Lc : length cs = n) by (destruct HC as [-> _]; destruct HP as [-> _]; now symmetry).
  assert (B : forall j u, nth_error (cvec n infos (counterpart a)) j = Some u -> u <= m).
  { intros j u Hu. assert (L : (j < n)%nat).
    { replace n with (length (cvec n infos (counterpart a))); [apply nth_error_Some; congruence|]. unfold cvec. apply scatter_length. }
    destruct (at_all _ j Lc L) as (v & Hv). pose proof (counterpart_costs a cs j u v HP HC Hu Hv) as H1. pose proof (Hm v (nth_error_In _ _ Hv)). qlra. }
  assert (Hpos : 0 <= m).
  { destruct (Nat.eq_dec n 0) as [Z0|NZ].
    - exfalso. assert (L := Lc). rewrite Z0 in L. destruct HA as ((Hne & _) & _). rewrite Z0 in Hn. unfold as_len in Hn. symmetry in Hn. apply length_zero_iff_nil in Hn. congruence.
    - destruct (cvec n infos (counterpart a)) as [|u l] eqn:Ec; [apply (f_equal (@length _)) in Ec; unfold cvec in Ec; rewrite scatter_length in Ec; cbn in Ec; lia|].
      assert (L : (0 < n)%nat) by lia. pose proof (cvec_nth infos n (counterpart a) 0%nat L) as C0. rewrite Ec in C0.
      pose proof (B 0%nat u eq_refl) as B0. assert (0 <= u); [|qlra].
      assert (U : u = match info_at infos 0 with Some i => cst i (counterpart a 0%nat) | None => 0 end) by (cbn in C0; congruence). rewrite U.
      destruct (info_at infos 0) as [i|] eqn:Ei; [|apply Qcle_refl]. apply info_at_Some in Ei. destruct Ei as [Hi Ej].
      apply (cst_nonneg infos x_HW i _ Hi). rewrite <- Ej. apply (counterpart_ok a i Hi). }
  apply qmaxl_le; [exact Hpos|]. intros v Hv. apply in_map_iff in Hv. destruct Hv as (i & <- & Hi).
  apply (B (i_idx i)). assert (L : (i_idx i < n)%nat) by (apply (idx_lt E A ct w x infos n x_HF x_HL i Hi)).
  rewrite cvec_nth by exact L. now rewrite (info_at_In _ _ (proj2 x_HW) Hi).
Qed.

(** Constrained features keep their change, so the constraint rows hold. *)
Lemma orderly_nonneg j xj : constrained_at A j -> nth_error x j = Some xj -> 0 <= xj.
Proof.
  intros HC Hx. assert (L : (j < n)%nat) by (rewrite <- x_len; apply nth_error_Some; congruence). destruct (at_all _ j x_HL L) as (e & He).
  apply (proj2 HO j e xj HC He Hx).
Qed.
Lemma counterpart_rows a : permitted_action A x a -> compliant A x a -> Forall (fun p => subset_ok infos (counterpart a) (snd p)) (r_cons (as_cons A)).
Proof.
  intros HP HCp. apply (rows_compliant E A ct w x infos n HOE HA HI Hn _ (lined_of E A w x HA HFl (proj1 HO)) orderly_nonneg (counterpart_ok a)).
  assert (La : length a = n) by (destruct HP as [-> _]; now symmetry).
  apply (compliant_ext A x a); auto.
  - rewrite La. symmetry. apply x_len.
  - unfold avec. rewrite scatter_length. symmetry. apply x_len.
  - intros j HC. destruct (constrained_lt E A j HA HC) as (nm & En). assert (L : (j < n)%nat) by (rewrite Hn; apply nth_error_Some; congruence).
    destruct (at_all _ j x_HL L) as (e & He). destruct (at_all _ j x_len L) as (xj & Hx). destruct (at_all _ j Hw L) as (c & Hc). destruct (at_all _ j La L) as (aj & Ha).
    destruct (counterpart_at a j e xj c aj HP He Hx Hc Ha) as (u & Hu & [D|[D _]]); [|contradiction]. subst u.
    now rewrite (nth_error_nth _ _ _ Ha), (nth_error_nth _ _ _ Hu).
Qed.
Lemma gain_size0 ch : ch_ok infos ch -> size_ch infos ch = 0%nat -> gain infos ch = 0.
Proof.
  intros Hc Hs. unfold gain. rewrite <- (qsum_map_zero infos). f_equal. apply map_ext_in. intros i Hi.
  assert (Hm : moved ch i = false).
  { destruct (moved ch i) eqn:M; [|reflexivity]. exfalso. unfold size_ch in Hs. assert (Q : In i (filter (moved ch) infos)) by (apply filter_In; auto).
    destruct (filter (moved ch) infos); [destruct Q|discriminate Hs]. }
  unfold moved in Hm. apply negb_false_iff, Nat.eqb_eq in Hm. rewrite Hm, (wi_a0 _ (wfi' _ x_HW i Hi)). ring.
Qed.
(** The counterpart is accepted. *)
Lemma counterpart_accepted a t lo hi : (lo <= 1)%Z -> denied (as_y A) (score w t x) ->
  permitted_action A x a -> (Z.of_nat (n_changed a) <= hi)%Z -> on_side (as_y A) (score w t (vadd x a)) -> compliant A x a ->
  accept A w t lo hi x infos (counterpart a).
Proof.
  intros Hlo Hden HP Hhi HS HCp. pose proof (counterpart_ok a) as Hc. pose proof (counterpart_gain a t HP HS) as HG. pose proof (counterpart_size a HP) as HZ.
  split; [exact Hc|]. split; [exact HG|]. split.
  - assert (size_ch infos (counterpart a) <> 0%nat); [|lia]. intro Z0. apply Hden. rewrite (gain_size0 _ Hc Z0) in HG. unfold score.
    replace (dot w x + t) with (dot w x + t + 0) by ring. exact HG.
  - now apply counterpart_rows.
Qed.

(** ** Prices increase with the distance moved *)
Lemma x_cost_incr i k k' : In i infos -> (k < k' < nopt i)%nat -> cst i k < cst i k'.
Proof.
  intros Hi Hk. pose proof (wfi' _ x_HW i Hi) as Wi. destruct k as [|k]; [rewrite (wi_c0 _ Wi); apply (wi_pos _ Wi); lia|].
  destruct (info_ok_at _ _ _ _ _ _ _ x_HF Hi) as (e & xj & EN). pose proof (en_elem _ _ _ _ _ _ _ _ EN) as He. pose proof (en_x _ _ _ _ _ _ _ _ EN) as Hx.
  pose proof (en_sorted _ _ _ _ _ _ _ _ EN (S k) k' Hk) as Hs.
  pose proof (en_perm _ _ _ _ _ _ _ _ EN (S k) ltac:(lia)) as P1. pose proof (en_perm _ _ _ _ _ _ _ _ EN k' ltac:(lia)) as P2.
  destruct (en_cost _ _ _ _ _ _ _ _ EN (S k) ltac:(lia)) as (p & q & A1 & A2 & A3). destruct (en_cost _ _ _ _ _ _ _ _ EN k' ltac:(lia)) as (p' & q' & B1 & B2 & B3).
  rewrite A1 in B1. assert (p' = p) by congruence. subst p'. rewrite A3, B3. clear A3 B3 B1.
  assert (D : dens E e) by (intros pdf u; apply HD). pose proof (x_reach _ _ He) as RE.
  destruct (c13_range _ _ _ _ RE D A1) as [r1 r2]. destruct (c13_range _ _ _ _ RE D A2) as [r3 r4]. destruct (c13_range _ _ _ _ RE D B2) as [r5 r6].
  set (u := act i (S k)) in *. set (v := act i k') in *.
  assert (DV : forall a b c, 0 < a -> 0 < b -> 0 < c -> b < c -> a / c < a / b).
  { clear. intros a b c Ha Hb Hc H. apply Qc_lt_this. rewrite !this_div. apply Qc_lt_this in Ha, Hb, Hc, H. change (this 0) with 0%Q in Ha, Hb, Hc.
    apply Qlt_shift_div_r; [exact Hc|]. unfold Qdiv. rewrite <- Qmult_assoc, (Qmult_comm (/ b)%Q), Qmult_assoc. change (this a < this a * this c / this b)%Q.
    apply Qlt_shift_div_l; [exact Hb|]. now apply Qmult_lt_l. }
  assert (NP : forall a b, 0 < a -> 0 < b -> 0 < a / b).
  { clear. intros a b Ha Hb. apply Qc_lt_this. rewrite this_div. apply Qc_lt_this in Ha, Hb. change (this 0) with 0%Q in *. apply Qlt_shift_div_l; [exact Hb|]. now rewrite Qmult_0_l. }
  destruct (en_side _ _ _ _ _ _ _ _ EN) as [S1|S1]; pose proof (S1 (S k) ltac:(lia)) as U; pose proof (S1 k' ltac:(lia)) as V; fold u in U; fold v in V.
  - assert (UV : xj + u < xj + v) by (unfold qabs in Hs; destruct (qle_spec 0 u), (qle_spec 0 v); qlra).
    destruct (proj1 HR _ e xj He Hx _ _ P1 P2 UV) as (p1 & p2 & Q1 & Q2 & Q3). rewrite A2 in Q1. rewrite B2 in Q2.
    assert (p1 = q) by congruence. assert (p2 = q') by congruence. subst p1 p2.
    replace (xj <=? xj + u) with true by (symmetry; apply qle_iff; qlra). replace (xj <=? xj + v) with true by (symmetry; apply qle_iff; qlra).
    destruct ct; [qlra| |qlra]. destruct (HLg eq_refl) as [_ L2]. apply L2; [apply NP; qlra|]. apply DV; qlra.
  - assert (UV : xj + v < xj + u) by (unfold qabs in Hs; destruct (qle_spec 0 u), (qle_spec 0 v); qlra).
    destruct (proj1 HR _ e xj He Hx _ _ P2 P1 UV) as (p1 & p2 & Q1 & Q2 & Q3). rewrite A2 in Q2. rewrite B2 in Q1.
    assert (p1 = q') by congruence. assert (p2 = q) by congruence. subst p1 p2.
    replace (xj <=? xj + u) with false by (symmetry; apply qle_false; qlra). replace (xj <=? xj + v) with false by (symmetry; apply qle_false; qlra).
    destruct ct; [qlra| |qlra]. destruct (HLg eq_refl) as [_ L2]. apply L2; [apply NP; qlra|].
    unfold Qcdiv. apply Qcmult_lt_compat_r; [|qlra]. replace (/ (1 - p)) with (1 / (1 - p)) by (unfold Qcdiv; ring). apply NP; [reflexivity|qlra].
Qed.

(** np.diff of an increasing list *)
Lemma diff_In l v : In v (np_diff l) -> exists k, (S k < length l)%nat /\ v = nth (S k) l 0 - nth k l 0.
Proof.
  induction l as [|a l IH]; [intros []|]. destruct l as [|b l]; [intros []|]. cbn [np_diff]. intros [<-|H].
  - exists 0%nat. cbn [length nth]. split; [lia|reflexivity].
  - destruct (IH H) as (k & Hk & ->). exists (S k). split; [cbn [length] in *; lia|reflexivity].
Qed.
Lemma diff_nth l k : (S k < length l)%nat -> In (nth (S k) l 0 - nth k l 0) (np_diff l).
Proof.
  revert k. induction l as [|a l IH]; intros k Hk; [cbn in Hk; lia|]. destruct l as [|b l]; [cbn in Hk; lia|]. cbn [np_diff]. destruct k as [|k]; [now left|].
  right. apply (IH k). cbn [length] in *. lia.
Qed.
Lemma x_min_diff i k k' : In i infos -> (k < k' < nopt i)%nat -> 0 < min_diff i /\ min_diff i <= cst i k' - cst i k.
Proof.
  intros Hi Hk. pose proof (wi_len2 _ (wfi' _ x_HW i Hi)) as L. assert (Ne : np_diff (i_costs i) <> []).
  { intro E0. assert (H : (S 0 < length (i_costs i))%nat) by lia. apply diff_nth in H. rewrite E0 in H. destruct H. }
  split.
  - unfold min_diff. pose proof (lmin_In _ Ne) as H. apply diff_In in H. destruct H as (q & Hq & ->).
    pose proof (x_cost_incr i q (S q) Hi ltac:(lia)) as G. unfold cst in G. qlra.
  - assert (G : min_diff i <= cst i (S k) - cst i k) by (apply lmin_le, diff_nth; lia).
    assert (K : k' = S k \/ (S k < k')%nat) by lia. destruct K as [->|K]; [exact G|].
    pose proof (x_cost_incr i (S k) k' Hi ltac:(lia)). qlra.
Qed.
Lemma ub_ge i k : In i infos -> (k < nopt i)%nat -> cst i k <= cost_ub i.
Proof. intros Hi Hk. apply lmax_ge. apply nth_In. rewrite (wi_len2 _ (wfi' _ x_HW i Hi)). exact Hk. Qed.
Lemma chosen_le_ub ch : ch_ok infos ch -> qsum (chosen_costs infos ch) <= qsum (map cost_ub infos).
Proof.
  intro Hc. unfold chosen_costs. apply qsum_le; [now rewrite !map_length|]. intros j u v Hu Hv. rewrite nth_error_map in Hu, Hv.
  destruct (nth_error infos j) as [i|] eqn:Ei; [|discriminate Hu]. cbn in Hu, Hv. pose proof (nth_error_In _ _ Ei) as Hi.
  assert (u = cst i (ch (i_idx i))) by congruence. assert (v = cost_ub i) by congruence. subst. apply ub_ge; auto.
Qed.
Lemma eps_bounds : infos <> [] -> 0 < epsilon infos /\ forall ch i, ch_ok infos ch -> In i infos -> epsilon infos * qsum (chosen_costs infos ch) <= min_diff i.
Proof.
  intro Ne. assert (Em : epsilon infos = lmin (map min_diff infos) / qsum (map cost_ub infos)) by (unfold epsilon; destruct infos; [congruence|reflexivity]).
  assert (MD : 0 < lmin (map min_diff infos)).
  { assert (H : In (lmin (map min_diff infos)) (map min_diff infos)) by (apply lmin_In; destruct infos; [congruence|discriminate]).
    apply in_map_iff in H. destruct H as (i & <- & Hi). pose proof (wi_len _ (wfi' _ x_HW i Hi)). apply (x_min_diff i 0 1 Hi). lia. }
  assert (UP : 0 < qsum (map cost_ub infos)).
  { destruct (nth_error infos 0) as [i|] eqn:Ei; [|apply nth_error_None in Ei; destruct infos; [congruence|cbn in Ei; lia]].
    pose proof (nth_error_In _ _ Ei) as Hi. pose proof (wi_len _ (wfi' _ x_HW i Hi)) as L.
    assert (P : forall i, In i infos -> 0 < cost_ub i).
    { intros i' Hi'. pose proof (wi_len _ (wfi' _ x_HW i' Hi')) as L'. pose proof (ub_ge i' 1 Hi' ltac:(lia)). pose proof (proj1 (wi_pos _ (wfi' _ x_HW i' Hi') 1%nat ltac:(lia))). qlra. }
    assert (cost_ub i <= qsum (map cost_ub infos)).
    { apply qsum_pos; [|now apply in_map]. intros v Hv. apply in_map_iff in Hv. destruct Hv as (i' & <- & Hi'). apply Qclt_le_weak. auto. }
    pose proof (P i Hi). qlra. }
  set (m := lmin (map min_diff infos)) in *. set (u := qsum (map cost_ub infos)) in *.
  assert (EU : epsilon infos * u = m). { rewrite Em. unfold Qcdiv. rewrite <- Qcmult_assoc, (Qcmult_comm (/ u)), Qcmult_inv_r; [ring|]. intro Z. rewrite Z in UP. discriminate UP. }
  assert (EP : 0 < epsilon infos).
  { destruct (qlt_spec 0 (epsilon infos)) as [H|H]; [exact H|]. exfalso. assert (G : epsilon infos * u <= 0 * u) by (apply Qcmult_le_compat_r; qlra). rewrite EU, Qcmult_0_l in G. qlra. }
  split; [exact EP|]. intros ch i Hc Hi. pose proof (chosen_le_ub ch Hc) as H. fold u in H.
  assert (G : qsum (chosen_costs infos ch) * epsilon infos <= u * epsilon infos) by (apply Qcmult_le_compat_r; [exact H|qlra]).
  rewrite (Qcmult_comm u), EU, Qcmult_comm in G. assert (m <= min_diff i) by (apply lmin_le; now apply in_map). qlra.
Qed.
(** The largest price of an optimal choice is within one price step of that of any other choice. *)
Lemma max_within_step P ch ch' i k k' : ct = CMax -> best ct infos P ch -> P ch' -> ch_ok infos ch -> ch_ok infos ch' -> (1 <= Z.of_nat (size_ch infos ch))%Z ->
  In i infos -> (k < k' < nopt i)%nat -> qmaxl (chosen_costs infos ch) 0 < qmaxl (chosen_costs infos ch') 0 + (cst i k' - cst i k).
Proof.
  intros Hct HB HP Hc Hc' Hs Hi Hk. specialize (HB ch' HP). rewrite Hct in HB. cbn [choice_cost] in HB.
  assert (Ne : infos <> []) by (intro E0; rewrite E0 in Hi; destruct Hi). destruct (eps_bounds Ne) as [EP EB]. specialize (EB ch' i Hc' Hi).
  destruct (x_min_diff i k k' Hi Hk) as [_ MD].
  destruct (size_pos infos ch Hs) as (i0 & Hi0 & Hm0). pose proof (moved_cost_pos infos x_HW ch i0 Hc Hi0 Hm0) as Hp.
  assert (Hin : In (cst i0 (ch (i_idx i0))) (chosen_costs infos ch)) by (apply in_map_iff; eauto).
  pose proof (qsum_pos (chosen_costs infos ch) _ (fun v => chosen_nonneg infos x_HW ch v Hc) Hin) as Hq.
  assert (SP : 0 < epsilon infos * qsum (chosen_costs infos ch)).
  { rewrite <- (Qcmult_0_l (qsum (chosen_costs infos ch))). apply Qcmult_lt_compat_r; [qlra|exact EP]. }
  qlra.
Qed.
End Exchange.
