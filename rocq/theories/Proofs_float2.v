(** The default step of integer features, and grids of real-valued features. *)
From Coq Require Import Qpower Qabs.
From Verif Require Import Proofs_num Spec_rounding Model_float Proofs_round Proofs_float.
#[local] Open Scope list_scope.
#[local] Open Scope Qc_scope.

Lemma half_even_above n h : 0 <= h -> h < qfrac 1 2 -> half_even (qz n + h) = n.
Proof.
  intros H0 H1. assert (F : qfloor (qz n + h) = n).
  { pose proof (qfloor_le (qz n + h)) as A. pose proof (qfloor_lt (qz n + h)) as B. assert (A' : qz (qfloor (qz n + h)) < qz (n + 1)) by (rewrite qz_plus, qz_1; qlra).
    apply (proj1 (qz_lt _ _)) in A'. rewrite <- qz_1, <- qz_plus in B. assert (B' : qz n < qz (qfloor (qz n + h) + 1)) by qlra. apply (proj1 (qz_lt _ _)) in B'. lia. }
  unfold half_even. rewrite F. replace (qz n + h - qz n) with h by ring. now rewrite (proj2 (qlt_iff _ _) H1).
Qed.
(** Numbers slightly above an integer are rounded to it. *)
Lemma rnd64_near_int k h : (0 < k < 2 ^ 53)%Z -> 0 <= h -> h * qz (2 ^ 54) < qz k -> rnd64 (qz k + h) = qz k.
Proof.
  intros Hk H0 H1. assert (Pk : 0 < qz k) by (rewrite <- qz_0; apply qz_lt; lia). assert (Py : 0 < qz k + h) by qlra.
  set (e := (mag (qz k) - 52)%Z). pose proof (m_lo _ Pk) as L. pose proof (m_hi _ Pk) as U. fold e in L, U.
  assert (He : (e <= 0)%Z).
  { pose proof (mag_spec _ (nz _ Pk)) as [M _]. rewrite qabs_of_pos in M by qlra. assert (A : pow2 (mag (qz k)) < pow2 53). { rewrite (pow2_Z 53) by lia. assert (qz k < qz (2 ^ 53)) by (apply qz_lt; lia). qlra. }
    apply pow2_lt_inv in A. unfold e. lia. }
  assert (En : qz k * pow2 (- e) = qz (k * 2 ^ (- e))) by (rewrite qz_mult, pow2_Z by lia; reflexivity). set (n := (k * 2 ^ (- e))%Z) in *. rewrite En in L, U.
  assert (Hh : h * pow2 (- e) < qfrac 1 2).
  { apply (qmul_cancel_lt _ _ (qz (2 ^ 54))); [apply qlt_iff; reflexivity|]. replace (h * pow2 (- e) * qz (2 ^ 54)) with (h * qz (2 ^ 54) * pow2 (- e)) by ring.
    replace (qfrac 1 2 * qz (2 ^ 54)) with (qz (2 ^ 53)) by (apply Qc_is_canon; reflexivity). apply (qmul_lt_r _ _ (pow2 (- e)) (pow2_pos _)) in H1. rewrite En in H1. qlra. }
  assert (Hh0 : 0 <= h * pow2 (- e)) by (apply qmul_nonneg; [exact H0|apply Qclt_le_weak, pow2_pos]).
  assert (Ey : (qz k + h) * pow2 (- e) = qz n + h * pow2 (- e)) by (rewrite <- En; ring).
  assert (My : mag (qz k + h) = mag (qz k)).
  { apply mag_unique; rewrite (qabs_of_pos (qz k + h)) by qlra.
    - pose proof (mag_spec _ (nz _ Pk)) as [M _]. rewrite qabs_of_pos in M by qlra. qlra.
    - apply (qmul_cancel_lt _ _ (pow2 (- e)) (pow2_pos _)). rewrite Ey, <- pow2_plus. replace (mag (qz k) + 1 + - e)%Z with 53%Z by (unfold e; lia). rewrite (pow2_Z 53) by lia.
      apply (proj1 (qz_lt _ _)) in U. assert (U' : qz (n + 1) <= qz (2 ^ 53)) by (apply qz_le; lia). rewrite qz_plus, qz_1 in U'. assert (Q : qfrac 1 2 < 1) by (apply qlt_iff; reflexivity). qlra. }
  rewrite rnd64_nn by qlra. rewrite (round_pos_eq _ Py), My. fold e. rewrite Ey, half_even_above by assumption. rewrite <- En, <- Qcmult_assoc, <- pow2_plus. replace (- e + e)%Z with 0%Z by lia. rewrite pow2_0. ring.
Qed.

Definition default_step : Qc := qfrac 1 100.
Lemma default_excess : rnd64 default_step = default_step + qfrac 3 14411518807585587200.
Proof. apply Qc_is_canon. vm_compute. reflexivity. Qed.
Lemma default_ceil r : (0 <= r <= 2 ^ 51)%Z -> qceil (rnd64 (rnd64 default_step * qz r)) = qceil (default_step * qz r).
Proof.
  intro Hr. rewrite default_excess. set (x := qfrac 3 14411518807585587200).
  destruct (Z.eq_dec r 0) as [->|R0]. { rewrite qz_0. replace ((default_step + x) * 0) with 0 by ring. rewrite rnd64_0. f_equal. ring. }
  assert (Pr : 0 < qz r) by (rewrite <- qz_0; apply qz_lt; lia).
  pose proof (Z.div_mod r 100 ltac:(lia)) as D. pose proof (Z.mod_pos_bound r 100 ltac:(lia)) as B. set (k := (r / 100)%Z) in *. set (m := (r mod 100)%Z) in *.
  assert (X0 : 0 <= x) by (apply qle_iff; reflexivity).
  assert (Er : default_step * qz r = qz k + default_step * qz m).
  { rewrite D, qz_plus, qz_mult. replace (default_step * (qz 100 * qz k + qz m)) with (default_step * qz 100 * qz k + default_step * qz m) by ring. replace (default_step * qz 100) with 1 by (apply Qc_is_canon; reflexivity). ring. }
  destruct (Z.eq_dec m 0) as [M0|M0].
  - (* a multiple of 100 *)
    rewrite M0, qz_0 in Er. replace (default_step * 0) with 0 in Er by ring. replace ((default_step + x) * qz r) with (qz k + x * qz r) by (rewrite Qcmult_plus_distr_l, Er; ring).
    rewrite rnd64_near_int; [rewrite Er; f_equal; ring| lia | now apply qmul_nonneg, Qclt_le_weak |].
    replace r with (100 * k)%Z by lia. rewrite qz_mult. replace (x * (qz 100 * qz k) * qz (2 ^ 54)) with (x * qz 100 * qz (2 ^ 54) * qz k) by ring.
    rewrite <- (Qcmult_1_l (qz k)) at 2. apply qmul_lt_r; [rewrite <- qz_0; apply qz_lt; lia|]. apply qlt_iff. vm_compute. reflexivity.
  - assert (Y0 : 0 <= (default_step + x) * qz r). { apply qmul_nonneg; [|qlra]. apply qle_iff. vm_compute. reflexivity. }
    assert (L1 : default_step <= default_step * qz m). { rewrite <- (Qcmult_1_r default_step) at 1. apply qmul_le_l; [apply qle_iff; reflexivity|]. rewrite <- qz_1. apply qz_le. lia. }
    assert (L2 : default_step * qz m <= 1 - default_step). { replace (1 - default_step) with (default_step * qz 99) by (apply Qc_is_canon; reflexivity). apply qmul_le_l; [apply qle_iff; reflexivity|]. apply qz_le. lia. }
    assert (K : qz r <= qz (2 ^ 51)) by (apply qz_le; lia).
    assert (Xr : x * qz r <= qfrac 1 1000). { eapply Qcle_trans; [apply qmul_le_l; [exact X0|exact K]|]. apply qle_iff. vm_compute. reflexivity. }
    assert (Xr0 : 0 <= x * qz r) by (apply qmul_nonneg; qlra).
    assert (Ub : unit64 * ((default_step + x) * qz r) <= qfrac 5 1000).
    { eapply Qcle_trans; [apply qmul_le_l; [apply Qclt_le_weak, unit_pos|]; apply qmul_le_l; [|exact K]; apply qle_iff; vm_compute; reflexivity|]. apply qle_iff. vm_compute. reflexivity. }
    destruct (r_err_pos rnd64 rounding_rnd64 _ Y0) as [E1 E2]. replace ((default_step + x) * qz r) with (qz k + default_step * qz m + x * qz r) in * by (rewrite Qcmult_plus_distr_l, Er; ring).
    assert (Ds : default_step = qfrac 10 1000) by (apply Qc_is_canon; reflexivity).
    assert (T6 : qfrac 5 1000 + qfrac 1 1000 < qfrac 10 1000) by (apply qlt_iff; reflexivity). assert (T1 : 0 < qfrac 1 1000) by (apply qlt_iff; reflexivity). assert (T5 : 0 < qfrac 5 1000) by (apply qlt_iff; reflexivity).
    rewrite Er. rewrite (ceil_between k (qz k + default_step * qz m)); [|qlra|rewrite qz_plus, qz_1; qlra]. apply ceil_between; [qlra|]. rewrite qz_plus, qz_1. qlra.
Qed.
(** Integer features with the default relative step: the grid is computed exactly. *)
Theorem default_exact e a b : e_vtype e = TInt -> e_step_type e = Relative -> e_step_size e = default_step -> e_lb e = qz a -> e_ub e = qz b -> (a < b)%Z -> (Z.abs a <= 2 ^ 50)%Z -> (Z.abs b <= 2 ^ 50)%Z ->
  f_grid rnd64 e = exact_grid e.
Proof.
  intros Hv Ht Hs El Eu Hab Ha Hb. destruct (f_range rnd64 rounding_rnd64 e a b Hv El Eu Ha Hb) as [R1 R2].
  assert (Gs : grid_step e = qz (qceil (default_step * qz (b - a)))) by (unfold grid_step; rewrite Hv, Ht, Hs, R2; reflexivity).
  apply (whole_grid rnd64 rounding_rnd64 e a b (qceil (default_step * qz (b - a)))); auto; try lia.
  - pose proof (qceil_ge (default_step * qz (b - a))) as C1. pose proof (qceil_lt (default_step * qz (b - a))) as C2. set (c := qceil (default_step * qz (b - a))) in *.
    assert (P : 0 < default_step * qz (b - a)). { apply qmul_pos; [apply qlt_iff; reflexivity|]. rewrite <- qz_0. apply qz_lt. lia. }
    assert (Q : default_step * qz (b - a) <= qz (2 ^ 49)). { eapply Qcle_trans; [apply qmul_le_l; [apply qle_iff; reflexivity|]; apply (proj2 (qz_le (b - a) (2 ^ 51))); lia|]. apply qle_iff. vm_compute. reflexivity. }
    split.
    + assert (A : qz 0 < qz c) by (rewrite qz_0; qlra). apply (proj1 (qz_lt _ _)) in A. exact A.
    + rewrite <- qz_1, <- qz_minus in C2. assert (A : qz (c - 1) < qz (2 ^ 49)) by qlra. apply (proj1 (qz_lt _ _)) in A. lia.
  - unfold f_step. rewrite Hv, Ht, Hs, R1. now rewrite default_ceil by lia.
Qed.
