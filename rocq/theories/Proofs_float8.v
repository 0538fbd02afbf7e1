(** How accurate floating-point percentiles are. *)
From Verif Require Import Model_rounding Model_float Spec_rounding Spec_element Proofs_num Proofs_round Proofs_float Proofs_float2 Proofs_float3 Proofs_float4 Proofs_float5.
#[local] Open Scope list_scope.
#[local] Open Scope Qc_scope.

Section Accuracy.
Context (rnd : Qc -> Qc) (HR : rounding rnd).
Notation u := unit64.
Notation up k := (Qcpower (1 + unit64) k).
Notation dn k := (Qcpower (1 - unit64) k).
Lemma up_pos k : 0 < up k.
Proof. pose proof unit_pos. induction k as [|k IH]; cbn [Qcpower]; [apply qlt_iff; reflexivity|]. apply qmul_pos; [qlra|exact IH]. Qed.
Lemma dn_pos k : 0 < dn k.
Proof. pose proof unit_small as U. pose proof unit_pos. assert (qfrac 1 4 < 1) by (apply qlt_iff; reflexivity). induction k as [|k IH]; cbn [Qcpower]; [apply qlt_iff; reflexivity|]. apply qmul_pos; [qlra|exact IH]. Qed.
(** [b] is [a] after at most [k] roundings. *)
Definition rel (k : nat) (a b : Qc) : Prop := 0 <= a /\ dn k * a <= b /\ b <= up k * a.
Lemma rel_nn k a b : rel k a b -> 0 <= b.
Proof. intros (H0 & H1 & _). pose proof (dn_pos k). assert (0 <= dn k * a) by (apply qmul_nonneg; [qlra|exact H0]). qlra. Qed.
Lemma rel_0 a : 0 <= a -> rel 0 a a.
Proof. intro H. split; [exact H|]. cbn [Qcpower]. rewrite Qcmult_1_l. split; apply Qcle_refl. Qed.
Lemma rel_S k a b : rel k a b -> rel (S k) a b.
Proof.
  intro H. pose proof H as (H0 & H1 & H2). pose proof unit_pos. pose proof unit_small. assert (qfrac 1 4 < 1) by (apply qlt_iff; reflexivity). split; [exact H0|]. cbn [Qcpower]. pose proof (dn_pos k). pose proof (up_pos k).
  assert (0 <= u * (dn k * a)) by (apply qmul_nonneg; [qlra|apply qmul_nonneg; [qlra|exact H0]]). assert (0 <= u * (up k * a)) by (apply qmul_nonneg; [qlra|apply qmul_nonneg; [qlra|exact H0]]).
  split; [replace ((1 - u) * dn k * a) with (dn k * a - u * (dn k * a)) by ring|replace ((1 + u) * up k * a) with (up k * a + u * (up k * a)) by ring]; qlra.
Qed.
Lemma rel_le k m a b : (k <= m)%nat -> rel k a b -> rel m a b.
Proof. induction 1; intro Hr; [exact Hr|]. apply rel_S; auto. Qed.
Lemma rel_add k a b a' b' : rel k a b -> rel k a' b' -> rel k (a + a') (b + b').
Proof. intros (H0 & H1 & H2) (G0 & G1 & G2). split; [qlra|]. rewrite !Qcmult_plus_distr_r. split; qlra. Qed.
Lemma rel_rnd k a b : rel k a b -> rel (S k) a (rnd b).
Proof.
  intro H. pose proof (rel_nn _ _ _ H) as Hb. pose proof H as (H0 & H1 & H2). destruct (r_err_pos rnd HR b Hb) as [R1 R2]. pose proof unit_pos. pose proof unit_small. assert (qfrac 1 4 < 1) by (apply qlt_iff; reflexivity). split; [exact H0|]. cbn [Qcpower]. split.
  - assert (G : (1 - u) * (dn k * a) <= (1 - u) * b) by (apply qmul_le_l; [qlra|exact H1]). replace ((1 - u) * b) with (b - u * b) in G by ring. replace ((1 - u) * dn k * a) with ((1 - u) * (dn k * a)) by ring. qlra.
  - assert (G : (1 + u) * b <= (1 + u) * (up k * a)) by (apply qmul_le_l; [qlra|exact H2]). replace ((1 + u) * b) with (b + u * b) in G by ring. replace ((1 + u) * up k * a) with ((1 + u) * (up k * a)) by ring. qlra.
Qed.
Lemma qsum_nn l : Forall (fun p => 0 <= p) l -> 0 <= qsum l.
Proof. induction 1 as [|p l Hp Hl IH]; [apply Qcle_refl|]. cbn [qsum fold_right]. change (0 <= p + qsum l). qlra. Qed.
Lemma qsum_cons p l : qsum (p :: l) = p + qsum l. Proof. reflexivity. Qed.
Lemma cumsum_rel l : forall k acc a, rel k a acc -> Forall (fun p => 0 <= p) l -> forall i r, nth_error (f_cumsum_from rnd acc l) i = Some r -> rel (k + S i) (a + qsum (firstn (S i) l)) r.
Proof.
  induction l as [|p l IH]; intros k acc a Ha Hl i r Hi; [destruct i; discriminate Hi|]. inversion Hl as [|? ? Hp Hl']; subst. cbn [f_cumsum_from] in Hi. cbv zeta in Hi.
  assert (K : rel (S k) (a + p) (rnd (acc + p))). { apply rel_rnd, rel_add; [exact Ha|]. apply (rel_le 0); [lia|now apply rel_0]. }
  destruct i as [|i].
  - injection Hi as <-. cbn [firstn]. rewrite qsum_cons. replace (a + (p + qsum [])) with (a + p) by (cbn; ring). replace (k + 1)%nat with (S k) by lia. exact K.
  - cbn [nth_error] in Hi. replace (k + S (S i))%nat with (S k + S i)%nat by lia. rewrite firstn_cons, qsum_cons. replace (a + (p + qsum (firstn (S i) l))) with (a + p + qsum (firstn (S i) l)) by ring. exact (IH (S k) _ _ K Hl' i r Hi).
Qed.
Lemma raw_rel pdf i r : Forall (fun p => 0 <= p) pdf -> nth_error (f_cumsum rnd pdf) i = Some r -> rel (length pdf) (qsum (firstn (S i) pdf)) r.
Proof.
  intros Hp Hi. destruct pdf as [|p l]; [destruct i; discriminate Hi|]. inversion Hp as [|? ? P0 P1]; subst. cbn [f_cumsum] in Hi. destruct i as [|i]; rewrite firstn_cons, qsum_cons; [cbn [firstn]|].
  - injection Hi as <-. replace (p + qsum []) with p by (cbn; ring). apply (rel_le 0); [lia|now apply rel_0].
  - cbn [nth_error] in Hi. apply (rel_le (0 + S i)); [|exact (cumsum_rel l 0 p p (rel_0 p P0) P1 i r Hi)]. assert (i < length (f_cumsum_from rnd p l))%nat by (apply nth_error_Some; congruence). rewrite (f_cumsum_from_length rnd) in H. cbn [length]. lia.
Qed.
Lemma dn_bernoulli k : 1 - qz (Z.of_nat k) * u <= dn k.
Proof.
  pose proof unit_pos as U. pose proof unit_small. assert (qfrac 1 4 < 1) by (apply qlt_iff; reflexivity). induction k as [|k IH]; cbn [Qcpower].
  - change (Z.of_nat 0) with 0%Z. rewrite qz_0. replace (1 - 0 * u) with 1 by ring. apply Qcle_refl.
  - replace (qz (Z.of_nat (S k))) with (qz (Z.of_nat k) + 1) by (rewrite <- qz_1, <- qz_plus; f_equal; lia). set (c := qz (Z.of_nat k)) in *. assert (C : 0 <= c) by (unfold c; rewrite <- qz_0; apply qz_le; lia).
    assert (G : (1 - u) * (1 - c * u) <= (1 - u) * dn k) by (apply qmul_le_l; [qlra|exact IH]). replace ((1 - u) * (1 - c * u)) with (1 - (c + 1) * u + c * u * u) in G by ring. assert (0 <= c * u * u) by (apply qmul_nonneg; [apply qmul_nonneg; [exact C|qlra]|qlra]). qlra.
Qed.
Theorem f_percentile_accurate g pdf i x : increasing g -> length pdf = length g -> Forall (machine rnd) pdf -> Forall (fun p => 0 <= p) pdf -> (Z.of_nat (length g) <= 2 ^ 50)%Z -> nth_error g i = Some x ->
  qabs (f_percentile rnd g pdf x - (buffer + qsum (firstn (S i) pdf)) / (qsum pdf + buffer + buffer)) <= qz 3 * qz (Z.of_nat (length g + 2)) * u.
Proof.
  intros Hg Hl M P Hn Hx. destruct (f_cdf_facts rnd HR pdf M P) as (LC & FC & MC). unfold f_percentile.
  assert (MF : Forall (machine rnd) (f_cdf rnd pdf)). { apply Forall_forall. intros c Hc. apply In_nth_error in Hc. destruct Hc as (k & Hk). apply (FC k c Hk). }
  assert (Li : (i < length g)%nat) by (apply nth_error_Some; congruence).
  destruct (nth_error (f_cdf rnd pdf) i) as [y|] eqn:Ey; [|apply nth_error_None in Ey; lia].
  rewrite (interp_grid rnd HR g (f_cdf rnd pdf) i x y Hg ltac:(congruence) MF Hx Ey). destruct (FC i y Ey) as (Y0 & Y1 & _). clear MC MF FC LC.
  rewrite <- Hl in *. set (n := length pdf) in *.
  unfold f_cdf in Ey. cbv zeta in Ey. rewrite nth_error_map in Ey. destruct (nth_error (f_cumsum rnd pdf) i) as [r|] eqn:Er; [|discriminate Ey]. cbn [option_map] in Ey.
  pose proof (raw_rel pdf i r P Er) as R1. fold n in R1.
  assert (NE : f_cumsum rnd pdf <> []) by (intro Q; rewrite Q in Er; destruct i; discriminate Er).
  pose proof (last_nth (f_cumsum rnd pdf) 0 NE) as Lr. rewrite (f_cumsum_length rnd) in Lr. pose proof (raw_rel pdf _ _ P Lr) as R2. fold n in R2, Lr.
  replace (S (n - 1)) with n in R2 by (unfold n in *; lia). unfold n in R2 at 2. rewrite firstn_all in R2.
  set (rl := last (f_cumsum rnd pdf) 0) in *. clearbody rl.
  set (S1 := qsum (firstn (S i) pdf)) in *. set (S2 := qsum pdf) in *.
  assert (HS12 : S1 <= S2). { unfold S1, S2. rewrite <- (firstn_skipn (S i) pdf) at 2. rewrite qsum_app. assert (0 <= qsum (skipn (S i) pdf)); [|qlra]. apply qsum_nn. apply Forall_forall. intros q Hq. rewrite Forall_forall in P. apply P. rewrite <- (firstn_skipn (S i) pdf). apply in_or_app. now right. }
  clearbody S1 S2.
  assert (B0 : 0 < buffer) by (apply qlt_iff; reflexivity).
  assert (Rb : forall k, (1 <= k)%nat -> rel k buffer (rnd buffer)) by (intros k Hk; apply (rel_le 1); [exact Hk|]; apply rel_rnd, rel_0; qlra).
  assert (N1 : (1 <= n)%nat) by lia.
  assert (RN : rel (S n) (buffer + S1) (rnd (rnd buffer + r))) by (apply rel_rnd, rel_add; [apply Rb; exact N1|exact R1]).
  assert (RT : rel (S (S n)) (S2 + buffer + buffer) (rnd (rnd (rl + rnd buffer) + rnd buffer))).
  { apply rel_rnd, rel_add; [|apply Rb; lia]. apply rel_rnd, rel_add; [exact R2|apply Rb; exact N1]. }
  set (Nm := rnd (rnd buffer + r)) in *. set (T := rnd (rnd (rl + rnd buffer) + rnd buffer)) in *. set (N0 := buffer + S1) in *. set (T0 := S2 + buffer + buffer) in *.
  assert (H0 : 0 <= N0) by apply RN. assert (HT0 : N0 < T0) by (unfold N0, T0; qlra). assert (PT0 : 0 < T0) by qlra. clearbody N0 T0. clear R1 R2 Lr Er NE Rb.
  assert (PT : 0 < T). { destruct RT as (_ & K & _). pose proof (dn_pos (S (S n))). assert (0 < dn (S (S n)) * T0) by (apply qmul_pos; assumption). qlra. }
  pose proof (rel_nn _ _ _ RN) as N0'. clearbody Nm T.
  assert (D1 : T * (Nm / T) = Nm) by (apply Qcmult_div_r; intro Z; rewrite Z in PT; exact (Qclt_not_eq _ _ PT eq_refl)).
  assert (D0 : T0 * (N0 / T0) = N0) by (apply Qcmult_div_r; intro Z; rewrite Z in PT0; exact (Qclt_not_eq _ _ PT0 eq_refl)).
  set (q := Nm / T) in *. set (c := N0 / T0) in *. clearbody q c. injection Ey as Ey.
  assert (Q0 : 0 <= q). { destruct (Qclt_le_dec q 0) as [Q|Q]; [|exact Q]. exfalso. assert (0 < T * - q) by (apply qmul_pos; qlra). replace (T * - q) with (- (T * q)) in H by ring. rewrite D1 in H. qlra. }
  assert (C0 : 0 <= c). { destruct (Qclt_le_dec c 0) as [Q|Q]; [|exact Q]. exfalso. assert (0 < T0 * - c) by (apply qmul_pos; qlra). replace (T0 * - c) with (- (T0 * c)) in H by ring. rewrite D0 in H. qlra. }
  assert (C1 : c <= 1). { destruct (Qclt_le_dec 1 c) as [Q|Q]; [|exact Q]. exfalso. assert (0 < T0 * (c - 1)) by (apply qmul_pos; qlra). replace (T0 * (c - 1)) with (T0 * c - T0) in H by ring. rewrite D0 in H. qlra. }
  destruct (r_err_pos rnd HR q Q0) as [E1 E2]. rewrite Ey in E1, E2.
  destruct RN as (_ & RN1 & RN2). destruct RT as (_ & RT1 & RT2). pose proof unit_pos as U. pose proof unit_small as U4. assert (U1 : qfrac 1 4 < 1) by (apply qlt_iff; reflexivity).
  set (m := S (S n)) in *.
  assert (CAN : forall a b, T0 * a <= T0 * b -> a <= b). { intros a b Hab. destruct (Qclt_le_dec b a) as [Q|Q]; [|exact Q]. exfalso. assert (0 < T0 * (a - b)) by (apply qmul_pos; qlra). replace (T0 * (a - b)) with (T0 * a - T0 * b) in H by ring. qlra. }
  (* dn m * y <= up m * c and dn m * c <= up m * y *)
  assert (A1 : dn m * y <= up m * c).
  { assert (W : dn m * q <= up (S n) * c).
    { apply CAN. replace (T0 * (dn m * q)) with (dn m * T0 * q) by ring. eapply Qcle_trans; [apply qmul_le_r; [exact Q0|exact RT1]|]. rewrite D1. replace (T0 * (up (S n) * c)) with (up (S n) * (T0 * c)) by ring. rewrite D0. exact RN2. }
    assert (V : dn m * y <= dn m * ((1 + u) * q)) by (apply qmul_le_l; [apply Qclt_le_weak, dn_pos|]; replace ((1 + u) * q) with (q + u * q) by ring; exact E2).
    eapply Qcle_trans; [exact V|]. replace (dn m * ((1 + u) * q)) with ((1 + u) * (dn m * q)) by ring. change (up m) with ((1 + u) * up (S n)). replace ((1 + u) * up (S n) * c) with ((1 + u) * (up (S n) * c)) by ring. apply qmul_le_l; [qlra|exact W]. }
  assert (A2 : dn m * c <= up m * y).
  { assert (W : dn (S n) * c <= up m * q).
    { apply CAN. replace (T0 * (dn (S n) * c)) with (dn (S n) * (T0 * c)) by ring. rewrite D0. eapply Qcle_trans; [exact RN1|]. rewrite <- D1. replace (T0 * (up m * q)) with (up m * T0 * q) by ring. apply qmul_le_r; [exact Q0|exact RT2]. }
    assert (V : up m * ((1 - u) * q) <= up m * y) by (apply qmul_le_l; [apply Qclt_le_weak, up_pos|]; replace ((1 - u) * q) with (q - u * q) by ring; exact E1).
    eapply Qcle_trans; [|exact V]. replace (up m * ((1 - u) * q)) with ((1 - u) * (up m * q)) by ring. change (dn m) with ((1 - u) * dn (S n)). replace ((1 - u) * dn (S n) * c) with ((1 - u) * (dn (S n) * c)) by ring. apply qmul_le_l; [qlra|exact W]. }
  pose proof (dn_bernoulli m) as B1. assert (Hm : (Z.of_nat m <= 2 ^ 52)%Z) by (unfold m; lia). pose proof (growth_small m Hm) as B2.
  replace (n + 2)%nat with m by (unfold m; lia). set (k := qz (Z.of_nat m)) in *. assert (K0 : 0 <= k) by (unfold k; rewrite <- qz_0; apply qz_le; lia). set (du := dn m) in *. set (uu := up m) in *. clearbody du uu k.
  set (ku := k * u) in *. assert (KU : 0 <= ku) by (apply qmul_nonneg; qlra). replace (qz 2 * k * u) with (ku + ku) in B2 by (unfold ku; replace (qz 2) with (1 + 1) by (apply Qc_is_canon; reflexivity); ring). replace (qz 3 * k * u) with (ku + ku + ku) by (unfold ku; replace (qz 3) with (1 + 1 + 1) by (apply Qc_is_canon; reflexivity); ring). clearbody ku.
  assert (G1 : (1 - ku) * y <= du * y) by (apply qmul_le_r; [qlra|exact B1]). assert (G2 : (1 - ku) * c <= du * c) by (apply qmul_le_r; [qlra|exact B1]).
  assert (G3 : uu * y <= (1 + ku + ku) * y) by (apply qmul_le_r; qlra). assert (G4 : uu * c <= (1 + ku + ku) * c) by (apply qmul_le_r; qlra).
  assert (F1 : 0 <= ku * (1 - y)) by (apply qmul_nonneg; qlra). assert (F2 : 0 <= ku * (1 - c)) by (apply qmul_nonneg; qlra).
  replace ((1 - ku) * y) with (y - ku * y) in G1 by ring. replace ((1 - ku) * c) with (c - ku * c) in G2 by ring. replace ((1 + ku + ku) * y) with (y + ku * y + ku * y) in G3 by ring. replace ((1 + ku + ku) * c) with (c + ku * c + ku * c) in G4 by ring.
  replace (ku * (1 - y)) with (ku - ku * y) in F1 by ring. replace (ku * (1 - c)) with (ku - ku * c) in F2 by ring.
  apply qabs_le. split; qlra.
Qed.
End Accuracy.
