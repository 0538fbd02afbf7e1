(** The rounding of Model_rounding.v is a rounding function. *)
From Coq Require Import Qpower Qabs.
From Verif Require Import Proofs_num Spec_rounding.
#[local] Open Scope Qc_scope.

Lemma two_nz : ~ (2 == 0)%Q.
Proof. discriminate. Qed.
Lemma this_pow2 e : (this (pow2 e) == 2 ^ e)%Q.
Proof. apply this_Q2Qc. Qed.
Lemma pow2_plus a b : pow2 (a + b) = pow2 a * pow2 b.
Proof. apply Qc_eq_this. rewrite this_mult, !this_pow2. now rewrite Qpower_plus by apply two_nz. Qed.
Lemma pow2_0 : pow2 0 = 1.
Proof. apply Qc_is_canon. reflexivity. Qed.
Lemma pow2_pos e : 0 < pow2 e.
Proof. rewrite Qc_lt_this, this_pow2. apply Qpower_0_lt. reflexivity. Qed.
Lemma pow2_Z n : (0 <= n)%Z -> pow2 n = qz (2 ^ n).
Proof. intro H. apply Qc_eq_this. rewrite this_pow2, this_qz. symmetry. exact (Zpower_Qpower 2 n H). Qed.
Lemma pow2_inv e : pow2 e * pow2 (- e) = 1.
Proof. rewrite <- pow2_plus, <- pow2_0. f_equal. lia. Qed.
Lemma pow2_ge1 n : (0 <= n)%Z -> 1 <= pow2 n.
Proof. intro H. rewrite pow2_Z by exact H. rewrite <- qz_1. apply qz_le. pose proof (Z.pow_pos_nonneg 2 n). lia. Qed.
Lemma pow2_le a b : (a <= b)%Z -> pow2 a <= pow2 b.
Proof.
  intro H. replace b with (a + (b - a))%Z by lia. rewrite pow2_plus. rewrite <- (Qcmult_1_r (pow2 a)) at 1.
  apply qmul_le_l; [apply Qclt_le_weak, pow2_pos|]. apply pow2_ge1. lia.
Qed.
Lemma pow2_lt_inv a b : pow2 a < pow2 b -> (a < b)%Z.
Proof. intro H. destruct (Z.lt_ge_cases a b) as [L|L]; [exact L|]. apply pow2_le in L. exfalso. qlra. Qed.
Lemma pow2_succ e : pow2 (e + 1) = qz 2 * pow2 e.
Proof. rewrite pow2_plus, Qcmult_comm. f_equal. Qed.

(** ** The exponent *)
Lemma qabs_pos x : x <> 0 -> 0 < qabs x.
Proof. intro H. unfold qabs. destruct (qle_spec 0 x) as [L|L]; [|qlra]. apply Qcnot_le_lt. intro K. apply H. apply Qcle_antisym; assumption. Qed.
Lemma this_qabs x : (this (qabs x) == Qabs.Qabs (this x))%Q.
Proof.
  unfold qabs. destruct (qle_spec 0 x) as [L|L].
  - rewrite Qabs.Qabs_pos; [reflexivity|exact L].
  - rewrite this_opp. rewrite Qabs.Qabs_neg; [reflexivity|]. apply Qlt_le_weak. exact L.
Qed.
Lemma mag_spec x : x <> 0 -> pow2 (mag x) <= qabs x /\ qabs x < pow2 (mag x + 1).
Proof.
  intro H. unfold mag. set (n := Z.abs (Qnum (this x))). set (d := Zpos (Qden (this x))). set (l := (Z.log2 n - Z.log2 d)%Z).
  assert (Hn : (0 < n)%Z).
  { unfold n. apply Z.abs_pos. intro Q. apply H. apply Qc_is_canon. unfold Qeq. rewrite Q. reflexivity. }
  assert (Hd : (0 < d)%Z) by reflexivity.
  pose proof (Z.log2_spec n Hn) as [N1 N2]. pose proof (Z.log2_spec d Hd) as [D1 D2]. pose proof (Z.log2_nonneg n) as P1. pose proof (Z.log2_nonneg d) as P2.
  assert (E : qabs x * qz d = qz n).
  { apply Qc_eq_this. rewrite this_mult, this_qabs, !this_qz. unfold n, d. destruct (this x) as [a b]. cbn. unfold Qeq, Qmult, inject_Z. cbn. lia. }
  assert (L1 : pow2 (l - 1) <= qabs x).
  { apply Qcnot_lt_le. intro L. apply (qmul_lt_r _ _ (qz d)) in L; [|change 0 with (qz 0); now apply qz_lt]. rewrite E in L.
    assert (L' : pow2 (l - 1) * qz d < pow2 (l - 1) * pow2 (Z.log2 d + 1)).
    { apply qmul_lt_l; [apply pow2_pos|]. rewrite pow2_Z by lia. apply qz_lt. replace (Z.log2 d + 1)%Z with (Z.succ (Z.log2 d)) by lia. exact D2. }
    rewrite <- pow2_plus in L'. replace (l - 1 + (Z.log2 d + 1))%Z with (Z.log2 n) in L' by (unfold l; lia). rewrite (pow2_Z (Z.log2 n)) in L' by exact P1.
    assert (qz n < qz (2 ^ Z.log2 n)) by qlra. apply (proj1 (qz_lt _ _)) in H0. lia. }
  assert (L2 : qabs x < pow2 (l + 1)).
  { apply Qcnot_le_lt. intro L. apply (qmul_le_r _ _ (qz d)) in L; [|change 0 with (qz 0); apply qz_le; lia]. rewrite E in L.
    assert (L' : pow2 (l + 1) * pow2 (Z.log2 d) <= pow2 (l + 1) * qz d).
    { apply qmul_le_l; [apply Qclt_le_weak, pow2_pos|]. rewrite pow2_Z by lia. apply qz_le. exact D1. }
    rewrite <- pow2_plus in L'. replace (l + 1 + Z.log2 d)%Z with (Z.succ (Z.log2 n)) in L' by (unfold l; lia). rewrite (pow2_Z (Z.succ _)) in L' by lia.
    assert (qz (2 ^ Z.succ (Z.log2 n)) <= qz n) by qlra. apply (proj1 (qz_le _ _)) in H0. lia. }
  destruct (qle_spec (pow2 l) (qabs x)) as [C|C]; [split; assumption|]. split; [exact L1|]. replace (l - 1 + 1)%Z with l by lia. exact C.
Qed.
Lemma mag_unique x k : pow2 k <= qabs x -> qabs x < pow2 (k + 1) -> mag x = k.
Proof.
  intros H1 H2. assert (N : x <> 0). { intros ->. pose proof (pow2_pos k). change (qabs 0) with (Q2Qc 0) in H1. qlra. }
  destruct (mag_spec x N) as [M1 M2]. assert (A : pow2 k < pow2 (mag x + 1)) by qlra. assert (B : pow2 (mag x) < pow2 (k + 1)) by qlra. apply pow2_lt_inv in A, B. lia.
Qed.

(** ** Nearest integers *)
Lemma half_even_near x : qabs (qz (half_even x) - x) <= qfrac 1 2.
Proof.
  unfold half_even. pose proof (qfloor_le x) as F1. pose proof (qfloor_lt x) as F2. apply qabs_le.
  destruct (qlt_spec (x - qz (qfloor x)) (qfrac 1 2)) as [C|C]; [split; qlra|]. destruct (qlt_spec (qfrac 1 2) (x - qz (qfloor x))) as [D|D]; [|destruct (Z.even _)]; rewrite ?qz_plus, ?qz_1; split; qlra.
Qed.
Lemma half_even_qz n : half_even (qz n) = n.
Proof.
  unfold half_even. rewrite qfloor_qz. replace (qz n - qz n) with 0 by ring. replace (0 <? qfrac 1 2) with true; [reflexivity|]. symmetry. apply qlt_iff. reflexivity.
Qed.
Lemma half_even_bounds x : (qfloor x <= half_even x <= qfloor x + 1)%Z.
Proof. unfold half_even. destruct (qlt _ _); [lia|]. destruct (qlt _ _); [lia|]. destruct (Z.even _); lia. Qed.
Lemma half_even_mono x y : x <= y -> (half_even x <= half_even y)%Z.
Proof.
  intro H. pose proof (qfloor_mono _ _ H) as F. destruct (Z.eq_dec (qfloor x) (qfloor y)) as [E|E].
  - unfold half_even. rewrite <- E. set (f := qfloor x). destruct (qlt_spec (x - qz f) (qfrac 1 2)) as [A|A].
    + destruct (qlt _ _); [lia|]. destruct (qlt _ _); [lia|]. destruct (Z.even f); lia.
    + destruct (qlt_spec (y - qz f) (qfrac 1 2)) as [B|B]; [exfalso; qlra|]. destruct (qlt_spec (qfrac 1 2) (x - qz f)) as [C|C].
      * destruct (qlt_spec (qfrac 1 2) (y - qz f)) as [D|D]; [lia|exfalso; qlra].
      * destruct (qlt_spec (qfrac 1 2) (y - qz f)) as [D|D]; [|lia]. destruct (Z.even f); lia.
  - pose proof (half_even_bounds x). pose proof (half_even_bounds y). lia.
Qed.

(** ** Rounding positive numbers *)
Lemma qabs_of_pos x : 0 <= x -> qabs x = x.
Proof. intro H. unfold qabs. now rewrite (proj2 (qle_iff _ _) H). Qed.
Section Pos.
Context (x : Qc) (Hx : 0 < x).
Let e : Z := (mag x - 52)%Z.
Let m : Qc := x * pow2 (- e).
Lemma nz : x <> 0.
Proof. intro E. rewrite E in Hx. exact (Qclt_not_eq _ _ Hx eq_refl). Qed.
Lemma x_m : x = m * pow2 e.
Proof. unfold m. rewrite <- Qcmult_assoc, (Qcmult_comm (pow2 (- e))), pow2_inv. ring. Qed.
Lemma round_pos_eq : round_pos x = qz (half_even m) * pow2 e.
Proof. unfold round_pos. rewrite (proj2 (qeq_false _ _) nz). reflexivity. Qed.
Lemma m_lo : qz (2 ^ 52) <= m.
Proof.
  destruct (mag_spec x nz) as [M _]. rewrite qabs_of_pos in M by (now apply Qclt_le_weak). rewrite <- pow2_Z by lia. unfold m.
  replace 52%Z with (mag x + - e)%Z by (unfold e; lia). rewrite pow2_plus. apply qmul_le_r; [apply Qclt_le_weak, pow2_pos|exact M].
Qed.
Lemma m_hi : m < qz (2 ^ 53).
Proof.
  destruct (mag_spec x nz) as [_ M]. rewrite qabs_of_pos in M by (now apply Qclt_le_weak). rewrite <- pow2_Z by lia. unfold m.
  replace 53%Z with (mag x + 1 + - e)%Z by (unfold e; lia). rewrite pow2_plus. apply qmul_lt_r; [apply pow2_pos|exact M].
Qed.
Lemma he_range : (2 ^ 52 <= half_even m <= 2 ^ 53)%Z.
Proof.
  split.
  - rewrite <- (half_even_qz (2 ^ 52)). apply half_even_mono, m_lo.
  - rewrite <- (half_even_qz (2 ^ 53)). apply half_even_mono, Qclt_le_weak, m_hi.
Qed.
Lemma round_pos_err : qabs (round_pos x - x) <= unit64 * x.
Proof.
  rewrite round_pos_eq. rewrite x_m at 1. replace (qz (half_even m) * pow2 e - m * pow2 e) with ((qz (half_even m) - m) * pow2 e) by ring.
  pose proof (half_even_near m) as N. pose proof m_lo as L. pose proof (pow2_pos e) as P.
  assert (U : qfrac 1 2 = unit64 * qz (2 ^ 52)) by (apply Qc_is_canon; reflexivity).
  assert (K : unit64 * qz (2 ^ 52) * pow2 e <= unit64 * x).
  { rewrite x_m, Qcmult_assoc. apply qmul_le_r; [now apply Qclt_le_weak|]. apply qmul_le_l; [|exact L]. apply qle_iff. reflexivity. }
  rewrite <- U in K. apply qabs_le in N. destruct N as [N1 N2]. apply qabs_le.
  apply (qmul_le_r _ _ (pow2 e)) in N1; [|now apply Qclt_le_weak]. apply (qmul_le_r _ _ (pow2 e)) in N2; [|now apply Qclt_le_weak].
  replace (- qfrac 1 2 * pow2 e) with (- (qfrac 1 2 * pow2 e)) in N1 by ring. split; qlra.
Qed.
(** Representable numbers are not changed. *)
Lemma round_pos_rep k i : (0 < k <= 2 ^ 53)%Z -> x = qz k * pow2 i -> round_pos x = x.
Proof.
  intros Hk E. assert (I : exists n, m = qz n).
  { destruct (Z.le_gt_cases e i) as [L|L].
    - exists (k * 2 ^ (i - e))%Z. rewrite qz_mult, <- pow2_Z by lia. unfold m. rewrite E, <- Qcmult_assoc, <- pow2_plus. reflexivity.
    - assert (A : pow2 (53 + i) <= m * pow2 e).
      { eapply Qcle_trans; [|apply qmul_le_r; [apply Qclt_le_weak, pow2_pos|exact m_lo]]. rewrite <- pow2_Z by lia. rewrite <- pow2_plus. apply pow2_le. lia. }
      rewrite <- x_m, E in A. rewrite pow2_plus in A. rewrite pow2_Z in A by lia.
      assert (B : qz (2 ^ 53) <= qz k). { apply Qcnot_lt_le. intro B. apply (qmul_lt_r _ _ (pow2 i)) in B; [|apply pow2_pos]. qlra. }
      apply (proj1 (qz_le _ _)) in B. assert (K : k = (2 ^ 53)%Z) by lia. exists (2 ^ (53 + i - e))%Z.
      assert (C : (52 <= 53 + i - e)%Z).
      { assert (D : pow2 52 <= pow2 (53 + i - e)).
        { rewrite pow2_Z by lia. pose proof m_lo as D. unfold m in D. rewrite E, K, <- (pow2_Z 53) in D by lia. rewrite <- !pow2_plus in D. replace (53 + i - e)%Z with (53 + i + - e)%Z by lia. exact D. }
        destruct (Z.le_gt_cases 52 (53 + i - e)) as [G|G]; [exact G|]. assert (G' : (53 + i - e + 1 <= 52)%Z) by lia. apply pow2_le in G'. rewrite pow2_succ in G'. pose proof (pow2_pos (53 + i - e)). exfalso. qlra. }
      rewrite <- pow2_Z by lia. unfold m. rewrite E, K, <- (pow2_Z 53) by lia. rewrite <- !pow2_plus. reflexivity. }
  destruct I as (n & I). rewrite round_pos_eq, I, half_even_qz, <- I. symmetry. apply x_m.
Qed.
Lemma round_pos_pos : 0 < round_pos x.
Proof.
  rewrite round_pos_eq. pose proof he_range as [R _]. assert (Q : 0 < qz (half_even m)) by (change 0 with (qz 0); apply qz_lt; lia).
  replace 0 with (0 * pow2 e) by ring. apply qmul_lt_r; [apply pow2_pos|exact Q].
Qed.
End Pos.
Lemma round_pos_mono x y : 0 < x -> x <= y -> round_pos x <= round_pos y.
Proof.
  intros Hx H. assert (Hy : 0 < y) by qlra. rewrite (round_pos_eq x Hx), (round_pos_eq y Hy).
  pose proof (mag_spec x (nz x Hx)) as [X1 X2]. pose proof (mag_spec y (nz y Hy)) as [Y1 Y2]. rewrite !qabs_of_pos in * by (now apply Qclt_le_weak).
  assert (L : (mag x <= mag y)%Z). { assert (A : pow2 (mag x) < pow2 (mag y + 1)) by qlra. apply pow2_lt_inv in A. lia. }
  destruct (Z.eq_dec (mag x) (mag y)) as [E|E].
  - rewrite E. apply qmul_le_r; [apply Qclt_le_weak, pow2_pos|]. apply qz_le. apply half_even_mono. apply qmul_le_r; [apply Qclt_le_weak, pow2_pos|exact H].
  - eapply Qcle_trans; [apply qmul_le_r; [apply Qclt_le_weak, pow2_pos|]; apply qz_le; apply (he_range x Hx)|].
    eapply Qcle_trans; [|apply qmul_le_r; [apply Qclt_le_weak, pow2_pos|]; apply qz_le; apply (he_range y Hy)].
    rewrite <- !pow2_Z, <- !pow2_plus by lia. apply pow2_le. lia.
Qed.
Lemma round_pos_0 : round_pos 0 = 0.
Proof. unfold round_pos. now rewrite (proj2 (qeq_iff 0 0) eq_refl). Qed.
Lemma round_pos_nn x : 0 <= x -> 0 <= round_pos x.
Proof. intro H. destruct (qeq_spec x 0) as [->|N]; [rewrite round_pos_0; apply Qcle_refl|]. apply Qclt_le_weak, round_pos_pos. apply Qcnot_le_lt. intro K. apply N. now apply Qcle_antisym. Qed.
Lemma nn_cases x : 0 <= x -> x = 0 \/ 0 < x.
Proof. intro H. destruct (qeq_spec x 0) as [E|N]; [now left|right]. apply Qcnot_le_lt. intro K. apply N. now apply Qcle_antisym. Qed.
Lemma round_pos_idem x : 0 <= x -> round_pos (round_pos x) = round_pos x.
Proof.
  intro H. destruct (nn_cases x H) as [->|P]; [now rewrite !round_pos_0|]. pose proof (he_range x P) as R. apply (round_pos_rep _ (round_pos_pos x P) (half_even (x * pow2 (- (mag x - 52)))) (mag x - 52)); [|apply round_pos_eq, P].
  split; [|apply R]. eapply Z.lt_le_trans; [|apply R]. reflexivity.
Qed.

(** A number of the form k * 2^i with |k| <= 2^53 is representable. *)
Lemma rnd64_neg x : 0 < x -> rnd64 (- x) = - round_pos x.
Proof. intro H. unfold rnd64. rewrite (proj2 (qlt_iff (- x) 0)) by qlra. f_equal. f_equal. ring. Qed.
Lemma rnd64_nn x : 0 <= x -> rnd64 x = round_pos x.
Proof. intro H. unfold rnd64. now rewrite (proj2 (qlt_false x 0)) by exact H. Qed.
Lemma rnd64_0 : rnd64 0 = 0.
Proof. rewrite rnd64_nn by apply Qcle_refl. apply round_pos_0. Qed.
Lemma rnd64_opp x : rnd64 (- x) = - rnd64 x.
Proof.
  destruct (qlt_spec x 0) as [N|P].
  - rewrite rnd64_nn by qlra. rewrite <- (Qcopp_involutive x) at 2. rewrite rnd64_neg by qlra. now rewrite Qcopp_involutive.
  - destruct (nn_cases x P) as [->|P']; [replace (- 0) with 0 by ring; rewrite rnd64_0; ring|]. rewrite rnd64_neg by exact P'. now rewrite rnd64_nn.
Qed.
Lemma rnd64_rep k i : (Z.abs k <= 2 ^ 53)%Z -> rnd64 (qz k * pow2 i) = qz k * pow2 i.
Proof.
  assert (P : forall k, (0 < k <= 2 ^ 53)%Z -> rnd64 (qz k * pow2 i) = qz k * pow2 i).
  { intros n Hn. assert (Q : 0 < qz n * pow2 i). { replace 0 with (0 * pow2 i) by ring. apply qmul_lt_r; [apply pow2_pos|]. change 0 with (qz 0). apply qz_lt. lia. }
    rewrite rnd64_nn by (now apply Qclt_le_weak). now apply (round_pos_rep _ Q n i). }
  intro H. destruct (Z.lt_trichotomy k 0) as [L|[->|L]].
  - replace (qz k * pow2 i) with (- (qz (- k) * pow2 i)) by (rewrite qz_opp; ring). rewrite rnd64_opp, P by lia. reflexivity.
  - rewrite qz_0. replace (0 * pow2 i) with 0 by ring. apply rnd64_0.
  - apply P. lia.
Qed.
Theorem rounding_rnd64 : rounding rnd64.
Proof.
  split; [|split; [exact rnd64_opp|split; [|split]]].
  - assert (M : forall x y, 0 <= x -> x <= y -> rnd64 x <= rnd64 y).
    { intros x y Hx H. rewrite !rnd64_nn by qlra. destruct (nn_cases x Hx) as [->|P]; [rewrite round_pos_0; apply round_pos_nn; qlra|now apply round_pos_mono]. }
    intros x y H. destruct (qlt_spec x 0) as [N|P]; [|now apply M]. destruct (qlt_spec y 0) as [N'|P'].
    + assert (K : rnd64 (- y) <= rnd64 (- x)) by (apply M; qlra). rewrite !rnd64_opp in K. qlra.
    + assert (A : rnd64 0 <= rnd64 (- x)) by (apply M; qlra). assert (B : rnd64 0 <= rnd64 y) by (apply M; qlra). rewrite rnd64_opp, rnd64_0 in *. qlra.
  - assert (I : forall x, 0 <= x -> rnd64 (rnd64 x) = rnd64 x).
    { intros x H. rewrite (rnd64_nn x H). rewrite rnd64_nn by (now apply round_pos_nn). now apply round_pos_idem. }
    intro x. destruct (qlt_spec x 0) as [N|P]; [|now apply I]. rewrite <- (Qcopp_involutive x). rewrite !(rnd64_opp (- x)), rnd64_opp, I by qlra. reflexivity.
  - intros n H. rewrite <- (Qcmult_1_r (qz n)), <- pow2_0. now apply rnd64_rep.
  - assert (A : forall x, 0 <= x -> qabs (rnd64 x - x) <= unit64 * qabs x).
    { intros x H. rewrite rnd64_nn by exact H. destruct (nn_cases x H) as [->|P]; [rewrite round_pos_0; apply qle_iff; reflexivity|]. rewrite (qabs_of_pos x H). now apply round_pos_err. }
    intro x. destruct (qlt_spec x 0) as [N|P]; [|now apply A]. assert (B : qabs (rnd64 (- x) - - x) <= unit64 * qabs (- x)) by (apply A; qlra). rewrite rnd64_opp in B.
    apply qabs_le in B. destruct B as [B1 B2]. rewrite (qabs_of_pos (- x)) in * by qlra. apply qabs_le. replace (qabs x) with (- x); [split; qlra|]. unfold qabs. now rewrite (proj2 (qle_false 0 x) N).
Qed.
