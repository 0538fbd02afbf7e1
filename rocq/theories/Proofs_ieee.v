(** [rnd64] is the rounding that the Flocq library defines for 53 bits, to nearest, ties to even. *)
From Coq Require Import Reals Qreals Lia.
From Flocq Require Import Core.
From Verif Require Import Proofs_num Proofs_round Model_rounding.
From Coq Require Import Lra.
#[local] Open Scope R_scope.

Definition qr (x : Qc) : R := Q2R (this x).
Lemma qr_eq (x : Qc) q : (this x == q)%Q -> qr x = Q2R q. Proof. apply Qeq_eqR. Qed.
Lemma qr_mult a b : qr (a * b)%Qc = qr a * qr b.
Proof. unfold qr. rewrite <- Q2R_mult. apply Qeq_eqR. cbn [Qcmult this]. apply Qred_correct. Qed.
Lemma qr_plus a b : qr (a + b)%Qc = qr a + qr b.
Proof. unfold qr. rewrite <- Q2R_plus. apply Qeq_eqR. cbn [Qcplus this]. apply Qred_correct. Qed.
Lemma qr_opp a : qr (- a)%Qc = - qr a.
Proof. unfold qr. rewrite <- Q2R_opp. apply Qeq_eqR. cbn [Qcopp this]. apply Qred_correct. Qed.
Lemma qr_minus a b : qr (a - b)%Qc = qr a - qr b.
Proof. unfold Qcminus. rewrite qr_plus, qr_opp. reflexivity. Qed.
Lemma qr_qz n : qr (qz n) = IZR n.
Proof. unfold qr. rewrite (Qeq_eqR _ (inject_Z n)); [unfold Q2R; cbn; field|]. unfold qz. apply Qred_correct. Qed.
Lemma qr_lt a b : (a < b)%Qc -> qr a < qr b. Proof. intro H. apply Qlt_Rlt. exact H. Qed.
Lemma qr_le a b : (a <= b)%Qc -> qr a <= qr b. Proof. intro H. apply Qle_Rle. exact H. Qed.
Lemma qr_0 : qr 0%Qc = 0. Proof. rewrite <- qz_0. apply qr_qz. Qed.
Lemma qr_1 : qr 1%Qc = 1. Proof. rewrite <- qz_1. apply qr_qz. Qed.
Lemma qr_half : qr (qfrac 1 2) = / 2.
Proof. assert (H : qr (qfrac 1 2) * qr (qz 2) = 1). { rewrite <- qr_mult. replace (qfrac 1 2 * qz 2)%Qc with 1%Qc by (apply Qc_is_canon; reflexivity). apply qr_1. } rewrite qr_qz in H. lra. Qed.
Lemma qr_pow2 e : qr (pow2 e) = bpow radix2 e.
Proof.
  assert (P : forall n : nat, qr (pow2 (Z.of_nat n)) = bpow radix2 (Z.of_nat n)).
  { intro n. rewrite pow2_Z by lia. rewrite qr_qz, (IZR_Zpower radix2) by lia. reflexivity. }
  assert (Z0 : forall n, (0 <= n)%Z -> qr (pow2 n) = bpow radix2 n) by (intros n H; rewrite <- (Z2Nat.id n H); apply P).
  destruct (Z_le_gt_dec 0 e) as [H|H]; [now apply Z0|].
  assert (Q : qr (pow2 e) * bpow radix2 (- e) = 1). { rewrite <- Z0 by lia. rewrite <- qr_mult, pow2_inv. apply qr_1. }
  assert (Q2 : bpow radix2 e * bpow radix2 (- e) = 1) by (rewrite <- bpow_plus; replace (e + - e)%Z with 0%Z by lia; reflexivity).
  pose proof (bpow_gt_0 radix2 (- e)) as B. apply (Rmult_eq_reg_r (bpow radix2 (- e))); lra.
Qed.
Lemma qr_floor x : Zfloor (qr x) = qfloor x.
Proof.
  apply Zfloor_imp. rewrite plus_IZR, <- qr_qz. split; [apply qr_le, qfloor_le|]. replace (qr (qz (qfloor x)) + 1) with (qr (qz (qfloor x) + 1)%Qc); [apply qr_lt, qfloor_lt|].
  rewrite qr_plus, qr_1. reflexivity.
Qed.
Lemma qr_half_even x : ZnearestE (qr x) = half_even x.
Proof.
  unfold Znearest, half_even. rewrite qr_floor. set (f := qfloor x). replace (qr x - IZR f) with (qr (x - qz f)%Qc) by (rewrite qr_minus, qr_qz; reflexivity). rewrite <- qr_half.
  assert (C : (0 < x - qz f)%Qc -> Zceil (qr x) = (f + 1)%Z).
  { intro H. rewrite Zceil_floor_neq; [now rewrite qr_floor|]. rewrite qr_floor. fold f. rewrite <- qr_qz. apply qr_lt in H. rewrite qr_minus, qr_0 in H. lra. }
  assert (H2 : (0 < qfrac 1 2)%Qc) by (apply qlt_iff; reflexivity).
  destruct (qlt_spec (x - qz f)%Qc (qfrac 1 2)) as [L|L].
  - rewrite Rcompare_Lt by now apply qr_lt. reflexivity.
  - destruct (qlt_spec (qfrac 1 2) (x - qz f)%Qc) as [G|G].
    + rewrite Rcompare_Gt by now apply qr_lt. apply C. eapply Qclt_trans; eassumption.
    + assert (E : (x - qz f)%Qc = qfrac 1 2) by now apply Qcle_antisym. rewrite E, Rcompare_Eq by reflexivity. rewrite E in C. rewrite (C H2). destruct (Z.even f); reflexivity.
Qed.
Lemma round_pos_flocq x : (0 < x)%Qc -> qr (round_pos x) = round radix2 (FLX_exp 53) ZnearestE (qr x).
Proof.
  intro H. assert (N : x <> 0%Qc) by now apply qpos_neq. destruct (mag_spec x N) as [M1 M2]. rewrite qabs_of_pos in M1, M2 by now apply Qclt_le_weak.
  assert (M : Raux.mag radix2 (qr x) = (Model_rounding.mag x + 1)%Z :> Z).
  { apply mag_unique_pos. replace (Model_rounding.mag x + 1 - 1)%Z with (Model_rounding.mag x) by lia. rewrite <- !qr_pow2. split; [now apply qr_le|now apply qr_lt]. }
  unfold round, scaled_mantissa, cexp, FLX_exp. rewrite M. replace (Model_rounding.mag x + 1 - 53)%Z with (Model_rounding.mag x - 52)%Z by lia. set (e := (Model_rounding.mag x - 52)%Z).
  rewrite <- qr_pow2, <- qr_mult, qr_half_even. unfold F2R. cbn [Fnum Fexp]. rewrite <- qr_pow2, <- qr_qz, <- qr_mult. f_equal. unfold round_pos. rewrite (proj2 (qeq_false x 0%Qc) N). reflexivity.
Qed.
Theorem rnd64_flocq x : Q2R (this (rnd64 x)) = round radix2 (FLX_exp 53) ZnearestE (Q2R (this x)).
Proof.
  change (qr (rnd64 x) = round radix2 (FLX_exp 53) ZnearestE (qr x)). unfold rnd64. destruct (qlt_spec x 0%Qc) as [L|L].
  - rewrite qr_opp, round_pos_flocq by (apply Qclt_minus_iff in L; rewrite Qcplus_0_l in L; exact L). rewrite qr_opp, round_NE_opp. lra.
  - destruct (nn_cases x L) as [->|P]; [|now apply round_pos_flocq]. rewrite round_pos_0, qr_0, round_0; [reflexivity|]. apply valid_rnd_N.
Qed.
(** The binary64 format proper (least exponent -1074): the same, unless the number is subnormal. *)
Theorem rnd64_binary64 x : x = 0%Qc \/ (pow2 (-1022) <= qabs x)%Qc -> Q2R (this (rnd64 x)) = round radix2 (FLT_exp (-1074) 53) ZnearestE (Q2R (this x)).
Proof.
  intros [->|H].
  - rewrite rnd64_flocq. change (Q2R (this 0%Qc)) with (qr 0%Qc). rewrite qr_0, !round_0; try apply valid_rnd_N. reflexivity.
  - rewrite rnd64_flocq, round_FLT_FLX; [reflexivity|]. change (Q2R (this x)) with (qr x). change (-1074 + 53 - 1)%Z with (-1022)%Z. rewrite <- qr_pow2. apply qr_le in H. eapply Rle_trans; [exact H|]. apply Req_le.
    unfold qabs. destruct (qle_spec 0%Qc x) as [P|P].
    + apply qr_le in P. rewrite qr_0 in P. now rewrite Rabs_pos_eq.
    + apply qr_lt in P. rewrite qr_0 in P. rewrite qr_opp. now rewrite Rabs_left.
Qed.
