(** Grids of real-valued features in floating-point arithmetic. *)
From Coq Require Import Qpower Qabs.
From Verif Require Import Proofs_num Spec_rounding Model_float Proofs_round Proofs_float Proofs_float2 Proofs_tol.
#[local] Open Scope list_scope.
#[local] Open Scope Qc_scope.

Section R.
Context (rnd : Qc -> Qc) (HR : rounding rnd).
Lemma err_le x c : qabs x <= c -> qabs (rnd x - x) <= unit64 * c.
Proof. intro H. eapply Qcle_trans; [apply (r_err rnd HR)|]. apply qmul_le_l; [apply Qclt_le_weak, unit_pos|exact H]. Qed.

Section G.
Context (a b s B : Qc) (Hab : a <= b) (Hs : 0 < s) (Ha : qabs a <= B) (Hb : qabs b <= B) (Hr : B <= qz (2 ^ 22) * s) (Ma : rnd a = a) (Hsb : s <= B).
Let p : Qc := unit64 * B.
Lemma B_nn : 0 <= B. Proof. pose proof (qabs_nonneg a). qlra. Qed.
Lemma p_nn : 0 <= p. Proof. apply qmul_nonneg; [apply Qclt_le_weak, unit_pos|apply B_nn]. Qed.
Lemma p_small : p <= qfrac 1 (2 ^ 31) * s.
Proof.
  unfold p. eapply Qcle_trans; [apply qmul_le_l; [apply Qclt_le_weak, unit_pos|exact Hr]|]. replace (unit64 * (qz (2 ^ 22) * s)) with (unit64 * qz (2 ^ 22) * s) by ring.
  replace (unit64 * qz (2 ^ 22)) with (qfrac 1 (2 ^ 31)) by (apply Qc_is_canon; reflexivity). apply Qcle_refl.
Qed.
Lemma p_B : p <= qfrac 1 100 * B.
Proof. unfold p. apply qmul_le_r; [apply B_nn|]. apply qle_iff. reflexivity. Qed.
Lemma ap : - B <= a /\ a <= B. Proof. now apply qabs_le. Qed.
Lemma bp : - B <= b /\ b <= B. Proof. now apply qabs_le. Qed.
Lemma up c : unit64 * (c * B) = c * p. Proof. unfold p. ring. Qed.

Let next := rnd (a + s).
Let delta := rnd (next - a).
Lemma next_err : - (qz 2 * p) <= next - (a + s) /\ next - (a + s) <= qz 2 * p.
Proof. apply qabs_le. rewrite <- up. apply err_le. apply qabs_le. destruct ap. split; qlra. Qed.
Lemma delta_err : - (qz 4 * p) <= delta - s /\ delta - s <= qz 4 * p.
Proof.
  destruct next_err as [N1 N2]. pose proof p_B. pose proof p_nn. pose proof B_nn.
  assert (E : qabs (delta - (next - a)) <= qz 2 * p). { rewrite <- up. apply err_le. apply qabs_le. split; qlra. }
  apply qabs_le in E. destruct E. split; qlra.
Qed.
Lemma delta_nn : 0 <= delta.
Proof. apply (r_nn rnd HR). assert (Q : a <= next) by (rewrite <- Ma; apply (r_mono rnd HR); qlra). qlra. Qed.
(** The entry number i. *)
Lemma point_err i : (Z.of_nat i <= 2 ^ 24)%Z -> qz (Z.of_nat i) * s <= qz 4 * B ->
  qabs (rnd (a + rnd (qz (Z.of_nat i) * delta)) - (a + qz (Z.of_nat i) * s)) <= qfrac 1 16 * s.
Proof.
  intros Hi Hi2. set (k := qz (Z.of_nat i)) in *. assert (K0 : 0 <= k) by (unfold k; rewrite <- qz_0; apply qz_le; lia). assert (K1 : k <= qz (2 ^ 24)) by (apply qz_le; lia).
  destruct delta_err as [D1 D2]. pose proof delta_nn as D0. pose proof p_B as PB. pose proof p_nn as P0. pose proof p_small as PS. pose proof B_nn as B0. destruct ap as [A1 A2].
  assert (E1 : - (qz 4 * p * k) <= k * delta - k * s /\ k * delta - k * s <= qz 4 * p * k).
  { apply (qmul_le_l _ _ k K0) in D1. apply (qmul_le_l _ _ k K0) in D2. replace (k * (delta - s)) with (k * delta - k * s) in * by ring. replace (k * - (qz 4 * p)) with (- (qz 4 * p * k)) in D1 by ring. replace (k * (qz 4 * p)) with (qz 4 * p * k) in D2 by ring. auto. }
  assert (PK : qz 4 * p * k <= qz 4 * qz (2 ^ 24) * p). { replace (qz 4 * p * k) with (qz 4 * p * k) by ring. replace (qz 4 * qz (2 ^ 24) * p) with (qz 4 * p * qz (2 ^ 24)) by ring. apply qmul_le_l; [|exact K1]. apply qmul_nonneg; [apply qle_iff; reflexivity|exact P0]. }
  assert (PK0 : 0 <= qz 4 * p * k). { apply qmul_nonneg; [|exact K0]. apply qmul_nonneg; [apply qle_iff; reflexivity|exact P0]. }
  (* 2^26 p <= s/32 *)
  assert (PK2 : qz 4 * p * k <= qfrac 1 32 * s).
  { eapply Qcle_trans; [exact PK|]. eapply Qcle_trans; [apply qmul_le_l; [apply qle_iff; reflexivity|exact PS]|]. rewrite Qcmult_assoc. apply qmul_le_r; [qlra|]. apply qle_iff. reflexivity. }
  assert (E2 : qabs (rnd (k * delta) - k * delta) <= qz 5 * p).
  { rewrite <- up. apply err_le. apply qabs_le. assert (0 <= k * delta) by now apply qmul_nonneg. destruct E1. split; qlra. }
  apply qabs_le in E2. destruct E2 as [E2 E3]. destruct E1 as [E1 E1'].
  assert (E4 : qabs (rnd (a + rnd (k * delta)) - (a + rnd (k * delta))) <= qz 7 * p).
  { rewrite <- up. apply err_le. apply qabs_le. assert (0 <= rnd (k * delta)) by (apply (r_nn rnd HR); now apply qmul_nonneg). split; qlra. }
  apply qabs_le in E4. destruct E4 as [E4 E5].
  assert (P12 : qz 12 * p <= qfrac 1 32 * s).
  { eapply Qcle_trans; [apply qmul_le_l; [apply qle_iff; reflexivity|exact PS]|]. rewrite Qcmult_assoc. apply qmul_le_r; [qlra|]. apply qle_iff. reflexivity. }
  apply qabs_le. split; qlra.
Qed.
(** The number of entries. *)
Let stop := rnd (b + s).
Let quot := rnd (rnd (stop - a) / s).
Lemma quot_err : qabs (quot - ((b - a) / s + 1)) <= qfrac 1 32.
Proof.
  pose proof p_B as PB. pose proof p_nn as P0. pose proof p_small as PS. pose proof B_nn as B0. destruct ap as [A1 A2]. destruct bp as [B1 B2].
  assert (E1 : qabs (stop - (b + s)) <= qz 2 * p). { rewrite <- up. apply err_le. apply qabs_le. split; qlra. }
  apply qabs_le in E1. destruct E1 as [E1 E1'].
  assert (E2 : qabs (rnd (stop - a) - (stop - a)) <= qz 4 * p). { rewrite <- up. apply err_le. apply qabs_le. split; qlra. }
  apply qabs_le in E2. destruct E2 as [E2 E2'].
  set (D := rnd (stop - a)) in *. assert (D1 : D <= qz 4 * B) by qlra. assert (D0 : 0 <= D). { apply (r_nn rnd HR). assert (a <= stop) by (rewrite <- Ma; apply (r_mono rnd HR); qlra). qlra. }
  assert (N : s <> 0) by now apply qpos_neq. assert (Q0 : 0 <= D / s). { apply (qmul_cancel_le _ _ s Hs). rewrite qdiv_mul by exact N. qlra. }
  destruct (r_err_pos rnd HR _ Q0) as [F1 F2]. fold quot in F1, F2.
  assert (F : unit64 * (D / s) * s <= qz 4 * p). { rewrite <- Qcmult_assoc, qdiv_mul by exact N. rewrite <- up. apply qmul_le_l; [apply Qclt_le_weak, unit_pos|exact D1]. }
  assert (P10 : qz 10 * p <= qfrac 1 32 * s). { eapply Qcle_trans; [apply qmul_le_l; [apply qle_iff; reflexivity|exact PS]|]. rewrite Qcmult_assoc. apply qmul_le_r; [qlra|]. apply qle_iff. reflexivity. }
  assert (X : (b - a) / s * s = b - a) by (now apply qdiv_mul). assert (Y : D / s * s = D) by (now apply qdiv_mul).
  apply qabs_le. split; apply (qmul_cancel_le _ _ s Hs).
  - apply (qmul_le_r _ _ s) in F1; [|qlra]. replace ((quot - ((b - a) / s + 1)) * s) with (quot * s - (b - a) / s * s - s) by ring. rewrite X. replace ((D / s - unit64 * (D / s)) * s) with (D / s * s - unit64 * (D / s) * s) in F1 by ring. rewrite Y in F1.
    replace (- qfrac 1 32 * s) with (- (qfrac 1 32 * s)) by ring. qlra.
  - apply (qmul_le_r _ _ s) in F2; [|qlra]. replace ((quot - ((b - a) / s + 1)) * s) with (quot * s - (b - a) / s * s - s) by ring. rewrite X. replace ((D / s + unit64 * (D / s)) * s) with (D / s * s + unit64 * (D / s) * s) in F2 by ring. rewrite Y in F2. qlra.
Qed.
Let n := Z.to_nat (qceil quot).
Lemma n_facts : (0 < n)%nat /\ qz (Z.of_nat n) * s < b - a + qz 2 * s + qfrac 1 32 * s /\ b - a + s - qfrac 1 32 * s <= qz (Z.of_nat n) * s.
Proof.
  pose proof quot_err as Q. apply qabs_le in Q. destruct Q as [Q1 Q2]. assert (N : s <> 0) by now apply qpos_neq. assert (X : (b - a) / s * s = b - a) by (now apply qdiv_mul).
  assert (Z0 : 0 <= (b - a) / s). { apply (qmul_cancel_le _ _ s Hs). rewrite X. qlra. }
  pose proof (qceil_ge quot) as C1. pose proof (qceil_lt quot) as C2. assert (T : qfrac 1 32 < 1) by (apply qlt_iff; reflexivity).
  assert (P : (0 < qceil quot)%Z). { assert (A : qz 0 < qz (qceil quot)) by (rewrite qz_0; qlra). now apply (proj1 (qz_lt _ _)) in A. }
  assert (E : Z.of_nat n = qceil quot) by (unfold n; lia). split; [lia|]. rewrite E. split.
  - assert (A : qz (qceil quot) < (b - a) / s + qz 2 + qfrac 1 32) by (change (qz 2) with (qz (1 + 1)); rewrite qz_plus, qz_1; qlra).
    apply (qmul_lt_r _ _ s Hs) in A. replace (((b - a) / s + qz 2 + qfrac 1 32) * s) with ((b - a) / s * s + qz 2 * s + qfrac 1 32 * s) in A by ring. rewrite X in A. exact A.
  - assert (A : (b - a) / s + 1 - qfrac 1 32 <= qz (qceil quot)) by qlra. apply (qmul_le_r _ _ s) in A; [|qlra].
    replace (((b - a) / s + 1 - qfrac 1 32) * s) with ((b - a) / s * s + s - qfrac 1 32 * s) in A by ring. rewrite X in A. exact A.
Qed.
Lemma index_small i : (i < n)%nat -> (Z.of_nat i <= 2 ^ 24)%Z /\ qz (Z.of_nat i) * s <= qz 4 * B.
Proof.
  intro Hi. destruct n_facts as (_ & N & _). assert (L : qz (Z.of_nat i + 1) <= qz (Z.of_nat n)) by (apply qz_le; lia). apply (qmul_le_r _ _ s) in L; [|qlra]. rewrite qz_plus, qz_1 in L.
  replace ((qz (Z.of_nat i) + 1) * s) with (qz (Z.of_nat i) * s + s) in L by ring. destruct ap, bp. pose proof B_nn. assert (T : qfrac 1 32 * s <= s). { rewrite <- (Qcmult_1_l s) at 2. apply qmul_le_r; [qlra|]. apply qle_iff. reflexivity. }
  assert (K : qz (Z.of_nat i) * s <= qz 4 * B) by qlra. split; [|exact K].
  assert (K2 : qz (Z.of_nat i) * s <= qz (2 ^ 24) * s). { eapply Qcle_trans; [exact K|]. replace (qz (2 ^ 24)) with (qz 4 * qz (2 ^ 22)) by (apply Qc_is_canon; reflexivity). rewrite <- Qcmult_assoc. apply qmul_le_l; [apply qle_iff; reflexivity|exact Hr]. }
  apply (qmul_cancel_le _ _ s Hs) in K2. now apply (proj1 (qz_le _ _)) in K2.
Qed.
Lemma arange_nth i v : nth_error (f_arange rnd a stop s) i = Some v -> (i < n)%nat /\ qabs (v - (a + qz (Z.of_nat i) * s)) <= qfrac 1 16 * s /\ (i = 0%nat -> v = a).
Proof.
  intro H. unfold f_arange in H. fold next delta quot n in H. rewrite nth_error_map in H. destruct (nth_error (seq 0 n) i) as [j|] eqn:Hj; [|discriminate H]. injection H as H.
  assert (Hi : (i < n)%nat) by (rewrite <- (seq_length n 0); apply nth_error_Some; congruence). rewrite (nth_error_nth' _ 0%nat) in Hj by (now rewrite seq_length). rewrite seq_nth in Hj by exact Hi. injection Hj as <-. cbn [Nat.add] in H.
  split; [exact Hi|]. destruct (index_small i Hi) as [I1 I2]. pose proof p_small as PS. pose proof p_nn as P0. destruct i as [|[|i]].
  - subst v. split; [|auto]. change (Z.of_nat 0) with 0%Z. rewrite qz_0. replace (a - (a + 0 * s)) with 0 by ring. apply qabs_le. assert (0 <= qfrac 1 16 * s) by (apply qmul_nonneg; [apply qle_iff; reflexivity|qlra]). split; qlra.
  - subst v. split; [|discriminate]. change (Z.of_nat 1) with 1%Z. rewrite qz_1, Qcmult_1_l. destruct next_err as [N1 N2].
    assert (P2 : qz 2 * p <= qfrac 1 16 * s). { eapply Qcle_trans; [apply qmul_le_l; [apply qle_iff; reflexivity|exact PS]|]. rewrite Qcmult_assoc. apply qmul_le_r; [qlra|]. apply qle_iff. reflexivity. }
    apply qabs_le. split; qlra.
  - subst v. split; [|discriminate]. now apply point_err.
Qed.
Lemma arange_length : length (f_arange rnd a stop s) = n.
Proof. unfold f_arange. now rewrite map_length, seq_length. Qed.
(** Everything about the array. *)
Theorem arange_real : let g := f_arange rnd a stop s in
  hd_error g = Some a /\
  (forall i v, nth_error g i = Some v -> qabs (v - (a + qz (Z.of_nat i) * s)) <= qfrac 1 16 * s) /\
  (forall i v v', nth_error g i = Some v -> nth_error g (S i) = Some v' -> v < v') /\
  (forall v, In v g -> a <= v /\ v < b + qz 2 * s) /\
  (exists v, In v g /\ b - qfrac 1 8 * s <= v) /\
  (Z.abs (Z.of_nat (length g) - Z.of_nat (length (np_arange a (b + s) s))) <= 1)%Z.
Proof.
  cbv zeta. set (g := f_arange rnd a stop s). destruct n_facts as (N0 & N1 & N2).
  assert (S16 : qfrac 1 16 * s + qfrac 1 16 * s <= qfrac 1 8 * s) by (rewrite <- Qcmult_plus_distr_l; apply qmul_le_r; [qlra|]; apply qle_iff; reflexivity).
  assert (S8 : qfrac 1 8 * s < s) by (rewrite <- (Qcmult_1_l s) at 2; apply qmul_lt_r; [exact Hs|]; apply qlt_iff; reflexivity).
  assert (S32 : qfrac 1 32 * s + qfrac 1 16 * s <= qfrac 1 8 * s) by (rewrite <- Qcmult_plus_distr_l; apply qmul_le_r; [qlra|]; apply qle_iff; reflexivity).
  assert (P16 : 0 < qfrac 1 16 * s) by (apply qmul_pos; [apply qlt_iff; reflexivity|exact Hs]).
  assert (P32 : 0 < qfrac 1 32 * s) by (apply qmul_pos; [apply qlt_iff; reflexivity|exact Hs]).
  split; [|split; [|split; [|split; [|split]]]].
  - unfold g, f_arange. fold next delta quot n. destruct n as [|m]; [lia|]. reflexivity.
  - intros i v H. now apply arange_nth in H.
  - intros i v v' H H'. apply arange_nth in H. apply arange_nth in H'. destruct H as (_ & H & _). destruct H' as (_ & H' & _). apply qabs_le in H, H'. destruct H, H'.
    rewrite Nat2Z.inj_succ in *. unfold Z.succ in *. rewrite qz_plus, qz_1 in *. replace ((qz (Z.of_nat i) + 1) * s) with (qz (Z.of_nat i) * s + s) in * by ring. qlra.
  - intros v H. apply In_nth_error in H. destruct H as (i & H). apply arange_nth in H. destruct H as (Hi & H & H0). destruct (Nat.eq_dec i 0) as [->|Z]; [rewrite H0 by reflexivity; split; qlra|].
    apply qabs_le in H. destruct H as [H1 H2]. assert (L1 : qz 1 <= qz (Z.of_nat i)) by (apply qz_le; lia). rewrite qz_1 in L1. apply (qmul_le_r _ _ s) in L1; [|qlra]. rewrite Qcmult_1_l in L1.
    assert (L : qz (Z.of_nat i + 1) <= qz (Z.of_nat n)) by (apply qz_le; lia). apply (qmul_le_r _ _ s) in L; [|qlra]. rewrite qz_plus, qz_1 in L. replace ((qz (Z.of_nat i) + 1) * s) with (qz (Z.of_nat i) * s + s) in L by ring. split; qlra.
  - assert (L : (n - 1 < length g)%nat) by (unfold g; rewrite arange_length; lia). destruct (nth_error g (n - 1)) as [v|] eqn:Hv; [|apply nth_error_None in Hv; lia]. exists v. split; [eapply nth_error_In, Hv|].
    apply arange_nth in Hv. destruct Hv as (_ & Hv & _). apply qabs_le in Hv. destruct Hv as [V1 V2]. rewrite Nat2Z.inj_sub in V1 by lia. rewrite qz_minus in V1. change (Z.of_nat 1) with 1%Z in V1. rewrite qz_1 in V1. replace ((qz (Z.of_nat n) - 1) * s) with (qz (Z.of_nat n) * s - s) in V1 by ring. qlra.
  - unfold g. rewrite arange_length. unfold np_arange. rewrite map_length, seq_length. assert (N : s <> 0) by now apply qpos_neq.
    replace ((b + s - a) / s) with ((b - a) / s + 1) by (apply (qmul_cancel _ _ s N); rewrite Qcmult_plus_distr_l, !qdiv_mul by exact N; ring).
    pose proof (near_ceil quot ((b - a) / s + 1) (qfrac 1 32) quot_err) as C. assert (T : qfrac 1 32 < 1) by (apply qlt_iff; reflexivity). specialize (C T).
    assert (P : (0 < qceil ((b - a) / s + 1))%Z). { assert (Z0 : 0 <= (b - a) / s) by (apply (qmul_cancel_le _ _ s Hs); rewrite qdiv_mul by exact N; qlra). pose proof (qceil_ge ((b - a) / s + 1)) as C1. assert (A : qz 0 < qz (qceil ((b - a) / s + 1))) by (rewrite qz_0; qlra). now apply (proj1 (qz_lt _ _)) in A. }
    unfold n. assert (Q : (0 < qceil quot)%Z) by (unfold n in N0; lia). lia.
Qed.
End G.
End R.
