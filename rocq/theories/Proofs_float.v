(** Grids in floating-point arithmetic. *)
From Coq Require Import Qpower Qabs.
From Verif Require Import Proofs_num Spec_rounding Model_float Proofs_round.
#[local] Open Scope list_scope.
#[local] Open Scope Qc_scope.

Section R.
Context (rnd : Qc -> Qc) (HR : rounding rnd).
Lemma r_mono x y : x <= y -> rnd x <= rnd y. Proof. apply HR. Qed.
Lemma r_opp x : rnd (- x) = - rnd x. Proof. apply HR. Qed.
Lemma r_idem x : rnd (rnd x) = rnd x. Proof. apply HR. Qed.
Lemma r_int n : (Z.abs n <= 2 ^ 53)%Z -> rnd (qz n) = qz n. Proof. apply HR. Qed.
Lemma r_err x : qabs (rnd x - x) <= unit64 * qabs x. Proof. apply HR. Qed.
Lemma r_0 : rnd 0 = 0. Proof. rewrite <- qz_0. apply r_int. lia. Qed.
Lemma r_1 : rnd 1 = 1. Proof. rewrite <- qz_1. apply r_int. lia. Qed.
Lemma r_nn x : 0 <= x -> 0 <= rnd x. Proof. intro H. rewrite <- r_0. now apply r_mono. Qed.
Lemma r_err_pos x : 0 <= x -> x - unit64 * x <= rnd x /\ rnd x <= x + unit64 * x.
Proof. intro H. pose proof (r_err x) as E. rewrite (qabs_of_pos x H) in E. apply qabs_le in E. destruct E. split; qlra. Qed.
Lemma unit_small : unit64 < qfrac 1 4. Proof. apply qlt_iff. reflexivity. Qed.
Lemma unit_pos : 0 < unit64. Proof. apply qlt_iff. reflexivity. Qed.
Lemma r_pos x : 0 < x -> 0 < rnd x.
Proof.
  intro H. destruct (r_err_pos x) as [E _]; [now apply Qclt_le_weak|]. pose proof unit_small. assert (K : unit64 * x <= qfrac 1 4 * x) by (apply qmul_le_r; qlra). qlra.
Qed.

(** ** Lengths *)
Lemma ceil_between n q : qz n < q -> q <= qz (n + 1) -> qceil q = (n + 1)%Z.
Proof.
  intros H1 H2. pose proof (qceil_ge q) as C1. pose proof (qceil_lt q) as C2. assert (A : qz n < qz (qceil q)) by qlra. apply (proj1 (qz_lt _ _)) in A.
  rewrite <- qz_1, <- qz_minus in C2. assert (B : qz (qceil q - 1) < qz (n + 1)) by qlra. apply (proj1 (qz_lt _ _)) in B. lia.
Qed.
(** Rounding a quotient of integers does not change its ceiling. *)
Lemma ceil_quot a s : (0 < s)%Z -> (0 <= a < 2 ^ 53)%Z -> qceil (rnd (qz a / qz s)) = qceil (qz a / qz s).
Proof.
  intros Hs Ha. set (q := qz a / qz s). assert (Ps : 0 < qz s) by (change 0 with (qz 0); now apply qz_lt). assert (Eq : q * qz s = qz a) by (apply qdiv_mul; now apply qpos_neq).
  assert (Q0 : 0 <= q). { apply (qmul_cancel_le _ _ (qz s) Ps). rewrite Eq. replace (0 * qz s) with (qz 0) by (rewrite qz_0; ring). apply qz_le. lia. }
  destruct (qle_spec q 0) as [Z|P]. { assert (E0 : q = 0) by (now apply Qcle_antisym). rewrite E0, r_0. reflexivity. }
  set (n := (qceil q - 1)%Z). assert (L1 : qz n < q) by (unfold n; rewrite qz_minus, qz_1; apply qceil_lt). assert (L2 : q <= qz (n + 1)) by (replace (n + 1)%Z with (qceil q) by (unfold n; lia); apply qceil_ge).
  assert (Qa : q <= qz a). { rewrite <- (Qcmult_1_r q). rewrite <- Eq. apply qmul_le_l; [exact Q0|]. rewrite <- qz_1. apply qz_le. lia. }
  assert (N1 : (0 <= n)%Z). { assert (A : 0 < qz (n + 1)) by qlra. rewrite <- qz_0 in A. apply (proj1 (qz_lt _ _)) in A. lia. }
  assert (N2 : (n + 1 <= a)%Z). { assert (A : qz n < qz a) by qlra. apply (proj1 (qz_lt _ _)) in A. lia. }
  (* the distance from the integer below is at least 1/s *)
  assert (G : 1 <= (q - qz n) * qz s).
  { replace ((q - qz n) * qz s) with (qz (a - n * s)).
    - rewrite <- qz_1. apply qz_le. assert (A : qz n * qz s < qz a) by (rewrite <- Eq; now apply qmul_lt_r). rewrite <- qz_mult in A. apply (proj1 (qz_lt _ _)) in A. lia.
    - rewrite qz_minus, qz_mult, <- Eq. ring. }
  assert (U : unit64 * q * qz s < 1).
  { rewrite <- Qcmult_assoc, Eq. assert (A : qz a < qz (2 ^ 53)) by (apply qz_lt; lia). pose proof (qmul_lt_l _ _ unit64 unit_pos A) as B. replace (unit64 * qz (2 ^ 53)) with 1 in B by (apply Qc_is_canon; reflexivity). exact B. }
  assert (D : qz n < q - unit64 * q).
  { apply (qmul_cancel_lt _ _ (qz s) Ps). replace ((q - unit64 * q) * qz s) with (q * qz s - unit64 * q * qz s) by ring. replace ((q - qz n) * qz s) with (q * qz s - qz n * qz s) in G by ring. qlra. }
  destruct (r_err_pos q Q0) as [E1 E2]. rewrite (ceil_between n q L1 L2). apply ceil_between; [qlra|]. rewrite <- (r_int (n + 1)) by lia. now apply r_mono.
Qed.

(** ** Whole numbers *)
Lemma f_arange_int a b s : (0 < s)%Z -> (Z.abs a <= 2 ^ 50)%Z -> (Z.abs b <= 2 ^ 50)%Z -> (s <= 2 ^ 50)%Z -> (a <= b)%Z ->
  f_arange rnd (qz a) (rnd (qz b + qz s)) (qz s) = np_arange (qz a) (qz b + qz s) (qz s).
Proof.
  intros Hs Ha Hb Hs2 Hab. unfold f_arange, np_arange. rewrite <- !qz_plus, <- !qz_minus. rewrite (r_int (b + s)) by lia. rewrite <- !qz_minus. rewrite (r_int (b + s - a)) by lia.
  rewrite ceil_quot by lia. rewrite (r_int (a + s)) by lia. rewrite <- qz_minus. replace (a + s - a)%Z with s by lia. rewrite (r_int s) by lia.
  set (n := Z.to_nat (qceil (qz (b + s - a) / qz s))).
  assert (Hn : forall i, (i < n)%nat -> (Z.of_nat i * s <= b - a + s)%Z).
  { intros i Hi. unfold n in Hi. pose proof (qceil_lt (qz (b + s - a) / qz s)) as C. assert (Hi' : (Z.of_nat i <= qceil (qz (b + s - a) / qz s) - 1)%Z) by lia.
    apply qz_le in Hi'. rewrite qz_minus, qz_1 in Hi'. assert (A : qz (Z.of_nat i) < qz (b + s - a) / qz s) by qlra.
    assert (Ps : 0 < qz s) by (change 0 with (qz 0); now apply qz_lt). apply (proj1 (qlt_div _ _ _ Ps)) in A. rewrite <- qz_mult in A. apply (proj1 (qz_lt _ _)) in A. lia. }
  apply map_ext_in. intros i Hi. apply in_seq in Hi. destruct i as [|[|i]].
  - change (Z.of_nat 0) with 0%Z. rewrite qz_0. ring.
  - change (Z.of_nat 1) with 1%Z. rewrite qz_1, qz_plus. ring.
  - specialize (Hn (S (S i))). rewrite <- qz_mult. rewrite (r_int (Z.of_nat (S (S i)) * s)) by lia. rewrite <- qz_plus. apply r_int. lia.
Qed.
Lemma np_arange_int a b s : Forall (fun v => exists z, v = qz z) (np_arange (qz a) (qz b) (qz s)).
Proof. unfold np_arange. apply Forall_forall. intros v H. apply in_map_iff in H. destruct H as (i & <- & _). exists (a + Z.of_nat i * s)%Z. now rewrite qz_plus, qz_mult. Qed.
Lemma trunc_ints l : Forall (fun v => exists z, v = qz z) l -> map (fun v => qz (qtrunc v)) l = l.
Proof. intro H. induction H as [|v l (z & ->) _ IH]; [reflexivity|]. cbn. now rewrite qtrunc_qz, IH. Qed.

(** The grid of an element with whole bounds and step: computed exactly. *)
Lemma whole_grid e a b s : e_lb e = qz a -> e_ub e = qz b -> (a <= b)%Z -> (Z.abs a <= 2 ^ 50)%Z -> (Z.abs b <= 2 ^ 50)%Z -> (0 < s <= 2 ^ 50)%Z ->
  f_step rnd e = qz s -> grid_step e = qz s -> f_grid rnd e = exact_grid e.
Proof.
  intros El Eu Hab Ha Hb Hs Fs Gs. unfold f_grid, exact_grid, update_grid. rewrite Fs, Gs. assert (N : (qz s =? 0) = false). { apply qeq_false. rewrite <- qz_0. intro Q. apply (proj1 (qz_inj _ _)) in Q. lia. }
  rewrite N. cbn [bind e_grid with_grid].
  assert (E1 : f_start rnd e = qz a) by (unfold f_start; rewrite El, (r_int a) by lia; destruct (e_vtype e); rewrite ?qfloor_qz; reflexivity).
  assert (E2 : f_stop rnd e = qz b) by (unfold f_stop; rewrite Eu, (r_int b) by lia; destruct (e_vtype e); rewrite ?qceil_qz; reflexivity).
  assert (E3 : grid_start e = qz a) by (unfold grid_start; rewrite El; destruct (e_vtype e); rewrite ?qfloor_qz; reflexivity).
  assert (E4 : grid_stop e = qz b) by (unfold grid_stop; rewrite Eu; destruct (e_vtype e); rewrite ?qceil_qz; reflexivity).
  rewrite E1, E2, E3, E4, f_arange_int by lia. destruct (vtype_eqb (e_vtype e) TInt); [|reflexivity]. rewrite trunc_ints; [reflexivity|]. rewrite <- qz_plus. apply np_arange_int.
Qed.
Theorem whole_absolute e a b s : e_step_type e = AbsoluteStep -> e_lb e = qz a -> e_ub e = qz b -> e_step_size e = qz s -> (a <= b)%Z -> (Z.abs a <= 2 ^ 50)%Z -> (Z.abs b <= 2 ^ 50)%Z -> (0 < s <= 2 ^ 50)%Z ->
  f_grid rnd e = exact_grid e.
Proof.
  intros Ht El Eu Es Hab Ha Hb Hs. apply (whole_grid e a b s); auto.
  - unfold f_step. rewrite Ht, Es, (r_int s) by lia. destruct (e_vtype e); rewrite ?qceil_qz; reflexivity.
  - unfold grid_step. rewrite Ht, Es. destruct (e_vtype e); rewrite ?qceil_qz; reflexivity.
Qed.

(** ** Relative steps on integer features *)
Lemma f_range e a b : e_vtype e = TInt -> e_lb e = qz a -> e_ub e = qz b -> (Z.abs a <= 2 ^ 50)%Z -> (Z.abs b <= 2 ^ 50)%Z ->
  rnd (f_stop rnd e - f_start rnd e) = qz (b - a) /\ grid_stop e - grid_start e = qz (b - a).
Proof.
  intros Ht El Eu Ha Hb. unfold f_stop, f_start, grid_stop, grid_start. rewrite Ht, El, Eu, (r_int a), (r_int b), !qfloor_qz, !qceil_qz, <- !qz_minus by lia. split; [apply r_int; lia|reflexivity].
Qed.
(** The computed step is at most one off. *)
Lemma near_ceil p q d : qabs (p - q) <= d -> d < 1 -> (Z.abs (qceil p - qceil q) <= 1)%Z.
Proof.
  intros H Hd. apply qabs_le in H. destruct H as [H1 H2]. pose proof (qceil_ge p) as P1. pose proof (qceil_lt p) as P2. pose proof (qceil_ge q) as Q1. pose proof (qceil_lt q) as Q2.
  assert (A : qz (qceil p) < qz (qceil q) + qz 2) by (change (qz 2) with (qz (1 + 1)); rewrite qz_plus, qz_1; qlra).
  assert (B : qz (qceil q) < qz (qceil p) + qz 2) by (change (qz 2) with (qz (1 + 1)); rewrite qz_plus, qz_1; qlra).
  rewrite <- qz_plus in A, B. apply (proj1 (qz_lt _ _)) in A. apply (proj1 (qz_lt _ _)) in B. lia.
Qed.
Lemma two_roundings s r : 0 <= s -> s <= 1 -> (0 <= r <= 2 ^ 51)%Z -> qabs (rnd (rnd s * qz r) - s * qz r) <= qfrac 3 4.
Proof.
  intros H0 H1 Hr. destruct (r_err_pos s H0) as [A1 A2]. assert (R0 : 0 <= qz r) by (rewrite <- qz_0; apply qz_le; lia). assert (R1 : qz r <= qz (2 ^ 51)) by (apply qz_le; lia).
  assert (S0 : 0 <= rnd s) by now apply r_nn. assert (S1 : rnd s <= 1) by (rewrite <- r_1; now apply r_mono).
  assert (P0 : 0 <= rnd s * qz r) by now apply qmul_nonneg. destruct (r_err_pos _ P0) as [B1 B2].
  assert (C : rnd s * qz r <= qz (2 ^ 51)). { rewrite <- (Qcmult_1_l (qz (2 ^ 51))). eapply Qcle_trans; [apply qmul_le_r; [exact R0|exact S1]|]. apply qmul_le_l; [apply qle_iff; reflexivity|exact R1]. }
  assert (U1 : unit64 * (rnd s * qz r) <= qfrac 1 4). { eapply Qcle_trans; [apply qmul_le_l; [apply Qclt_le_weak, unit_pos|exact C]|]. apply qle_iff. reflexivity. }
  assert (U2 : unit64 * s * qz r <= qfrac 1 4).
  { eapply Qcle_trans; [apply qmul_le_l; [apply qmul_nonneg; [apply Qclt_le_weak, unit_pos|exact H0]|exact R1]|]. replace (unit64 * s * qz (2 ^ 51)) with (s * (unit64 * qz (2 ^ 51))) by ring.
    replace (unit64 * qz (2 ^ 51)) with (qfrac 1 4) by (apply Qc_is_canon; reflexivity). qlra. }
  assert (D1 : (s - unit64 * s) * qz r <= rnd s * qz r) by (now apply qmul_le_r). assert (D2 : rnd s * qz r <= (s + unit64 * s) * qz r) by (now apply qmul_le_r).
  replace ((s - unit64 * s) * qz r) with (s * qz r - unit64 * s * qz r) in D1 by ring. replace ((s + unit64 * s) * qz r) with (s * qz r + unit64 * s * qz r) in D2 by ring.
  apply qabs_le. split; qlra.
Qed.
Theorem relative_near e a b : e_vtype e = TInt -> e_step_type e = Relative -> e_lb e = qz a -> e_ub e = qz b -> (a <= b)%Z -> (Z.abs a <= 2 ^ 50)%Z -> (Z.abs b <= 2 ^ 50)%Z ->
  0 <= e_step_size e -> e_step_size e <= 1 -> exists s s', f_step rnd e = qz s /\ grid_step e = qz s' /\ (Z.abs (s - s') <= 1)%Z.
Proof.
  intros Hv Ht El Eu Hab Ha Hb S0 S1. destruct (f_range e a b Hv El Eu Ha Hb) as [R1 R2]. unfold f_step, grid_step. rewrite Hv, Ht, R1, R2. eexists _, _. split; [reflexivity|]. split; [reflexivity|].
  eapply near_ceil; [apply two_roundings; auto; lia|]. apply qlt_iff. reflexivity.
Qed.
End R.
