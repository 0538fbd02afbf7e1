(** Scores in floating-point arithmetic. *)
From Verif Require Import Proofs_num Proofs_tol Proofs_compare2 Proofs_round Proofs_float Model_float Spec_rounding Spec_recourse Spec_flipset.
#[local] Open Scope list_scope.
#[local] Open Scope Qc_scope.

Section R.
Context (rnd : Qc -> Qc) (HR : rounding rnd).
Let K (n : nat) : Qc := Qcpower (1 + unit64) n.
Lemma K_S n : K (S n) = K n + unit64 * K n. Proof. unfold K. cbn [Qcpower]. ring. Qed.
Lemma K_ge n : 1 <= K n.
Proof. induction n as [|n IH]; [apply qle_iff; reflexivity|]. rewrite K_S. pose proof unit_pos. assert (0 <= unit64 * K n) by (apply qmul_nonneg; qlra). qlra. Qed.
Lemma K_mono m n : (m <= n)%nat -> K m <= K n.
Proof. intro H. induction H as [|n H IH]; [apply Qcle_refl|]. rewrite K_S. pose proof unit_pos. pose proof (K_ge n). assert (0 <= unit64 * K n) by (apply qmul_nonneg; qlra). qlra. Qed.
Definition mags (l : list Qc) : Qc := qsum (map qabs l).
Lemma mags_nn l : 0 <= mags l.
Proof. unfold mags. apply qsum_nonneg. apply Forall_forall. intros v Hv. apply in_map_iff in Hv. destruct Hv as (u & <- & _). apply qabs_nonneg. Qed.
Lemma mags_app l1 l2 : mags (l1 ++ l2) = mags l1 + mags l2.
Proof. unfold mags. now rewrite map_app, qsum_app. Qed.
Lemma perm_qsum l l' : Permutation l l' -> qsum l = qsum l'.
Proof. intro H. induction H; cbn [qsum]; [reflexivity|now rewrite IHPermutation|ring|congruence]. Qed.
Lemma qsum_mags l : qabs (qsum l) <= mags l.
Proof.
  unfold mags. induction l as [|v l IH]; cbn [qsum map]; [apply qle_iff; reflexivity|]. eapply Qcle_trans; [apply qabs_plus|]. qlra.
Qed.
(** From an error bound: the size of the computed value. *)
Lemma size_of a s c m : qabs (a - s) <= (c - 1) * m -> qabs s <= m -> qabs a <= c * m.
Proof. intros H1 H2. apply qabs_le in H1, H2. destruct H1, H2. replace (c * m) with ((c - 1) * m + m) by ring. apply qabs_le. split; qlra. Qed.
Lemma one_more a s c m : qabs (a - s) <= (c - 1) * m -> qabs s <= m -> qabs (rnd a - s) <= (c + unit64 * c - 1) * m.
Proof.
  intros H1 H2. pose proof (size_of a s c m H1 H2) as H3. pose proof (r_err rnd HR a) as E. assert (E2 : unit64 * qabs a <= unit64 * (c * m)) by (apply qmul_le_l; [apply Qclt_le_weak, unit_pos|exact H3]).
  assert (E3 : qabs (rnd a - a) <= unit64 * (c * m)) by (eapply Qcle_trans; eassumption). apply qabs_le in E3, H1. destruct E3, H1. replace ((c + unit64 * c - 1) * m) with ((c - 1) * m + unit64 * (c * m)) by ring. apply qabs_le. split; qlra.
Qed.
Lemma sum_err l a : f_sum rnd l a -> l <> [] /\ qabs (a - qsum l) <= (K (length l - 1) - 1) * mags l.
Proof.
  intro H. induction H as [t|l1 l2 a b H1 [N1 IH1] H2 [N2 IH2]|l l' a P H [N IH]].
  - split; [discriminate|]. cbn [qsum length Nat.sub]. replace (t - (t + 0)) with 0 by ring. replace ((K 0 - 1) * mags [t]) with 0 by (unfold K; cbn [Qcpower]; ring). apply qle_iff. reflexivity.
  - assert (L1 : (1 <= length l1)%nat) by (destruct l1; [congruence|cbn; lia]). assert (L2 : (1 <= length l2)%nat) by (destruct l2; [congruence|cbn; lia]).
    split; [destruct l1; [congruence|discriminate]|]. rewrite app_length, qsum_app, mags_app. set (n := (length l1 + length l2 - 2)%nat). replace (length l1 + length l2 - 1)%nat with (S n) by (unfold n; lia). rewrite K_S.
    apply one_more.
    + pose proof (K_mono (length l1 - 1) n ltac:(unfold n; lia)) as M1. pose proof (K_mono (length l2 - 1) n ltac:(unfold n; lia)) as M2.
      pose proof (mags_nn l1) as P1. pose proof (mags_nn l2) as P2.
      assert (Q1 : (K (length l1 - 1) - 1) * mags l1 <= (K n - 1) * mags l1) by (apply qmul_le_r; [exact P1|qlra]). assert (Q2 : (K (length l2 - 1) - 1) * mags l2 <= (K n - 1) * mags l2) by (apply qmul_le_r; [exact P2|qlra]).
      apply qabs_le in IH1, IH2. destruct IH1, IH2. replace ((K n - 1) * (mags l1 + mags l2)) with ((K n - 1) * mags l1 + (K n - 1) * mags l2) by ring. apply qabs_le. split; qlra.
    + rewrite <- qsum_app, <- mags_app. apply qsum_mags.
  - split; [intros ->; apply N; now apply Permutation_nil, Permutation_sym|]. rewrite <- (Permutation_length P), <- (perm_qsum l l' P). unfold mags. rewrite <- (perm_qsum _ _ (Permutation_map qabs P)). exact IH.
Qed.
Lemma terms_err w x ts : f_terms rnd w x ts -> length ts = length w /\ length x = length w /\ qabs (qsum ts - dot w x) <= unit64 * dot (map qabs w) (map qabs x) /\ mags ts <= (1 + unit64) * dot (map qabs w) (map qabs x).
Proof.
  intro H. induction H as [|w x t ws xs ts Ht H (L & L2 & E & M)].
  - cbn [qsum dot map length]. repeat split; [|apply qle_iff; reflexivity]. replace (unit64 * 0) with 0 by ring. apply qle_iff. reflexivity.
  - cbn [qsum dot map length]. rewrite L, L2. split; [reflexivity|]. split; [reflexivity|]. set (D := dot (map qabs ws) (map qabs xs)) in *.
    assert (E1 : qabs (t - w * x) <= unit64 * (qabs w * qabs x)).
    { rewrite <- qabs_mul. destruct Ht as [->| ->]; [apply (r_err rnd HR)|]. replace (w * x - w * x) with 0 by ring. replace (qabs 0) with 0 by (apply Qc_is_canon; reflexivity). apply qmul_nonneg; [apply Qclt_le_weak, unit_pos|apply qabs_nonneg]. }
    assert (M1 : qabs t <= (1 + unit64) * (qabs w * qabs x)). { apply (size_of t (w * x)); [replace (1 + unit64 - 1) with unit64 by ring; exact E1|rewrite qabs_mul; apply Qcle_refl]. }
    split.
    + apply qabs_le in E, E1. destruct E, E1. replace (unit64 * (qabs w * qabs x + D)) with (unit64 * (qabs w * qabs x) + unit64 * D) by ring. apply qabs_le. split; qlra.
    + unfold mags in *. cbn [map qsum]. replace ((1 + unit64) * (qabs w * qabs x + D)) with ((1 + unit64) * (qabs w * qabs x) + (1 + unit64) * D) by ring. qlra.
Qed.
Lemma dot_mag w x : qabs (dot w x) <= dot (map qabs w) (map qabs x).
Proof. revert x. induction w as [|a w IH]; intros [|c x]; cbn [dot map]; try (apply qle_iff; reflexivity). eapply Qcle_trans; [apply qabs_plus|]. rewrite qabs_mul. specialize (IH x). qlra. Qed.
Lemma dot_err w x ts d : f_terms rnd w x ts -> ts = [] /\ d = 0 \/ f_sum rnd ts d -> qabs (d - dot w x) <= (K (length w) - 1) * dot (map qabs w) (map qabs x).
Proof.
  intros HT HS. destruct (terms_err w x ts HT) as (L & L2 & E & M). set (D := dot (map qabs w) (map qabs x)) in *.
  assert (D0 : 0 <= D) by (eapply Qcle_trans; [apply qabs_nonneg|apply dot_mag]).
  destruct HS as [[-> ->]|HS].
  - destruct w; [|discriminate L]. cbn [dot] in *. replace (0 - 0) with 0 by ring. unfold D. cbn [dot map]. rewrite Qcmult_0_r. apply qle_iff. reflexivity.
  - apply sum_err in HS. destruct HS as [N S1]. set (n := (length ts - 1)%nat) in *. assert (Ln : length w = S n) by (unfold n; destruct ts; [congruence|cbn [length] in *; lia]). rewrite Ln, K_S.
    pose proof (K_ge n) as G. assert (S2 : (K n - 1) * mags ts <= (K n - 1) * ((1 + unit64) * D)) by (apply qmul_le_l; [qlra|exact M]).
    apply qabs_le in S1, E. destruct S1, E. replace ((K n + unit64 * K n - 1) * D) with ((K n - 1) * ((1 + unit64) * D) + unit64 * D) by ring. apply qabs_le. split; qlra.
Qed.
Theorem score_err w t x s : float_score rnd w t x s -> qabs (s - score w t x) <= score_slack w t x.
Proof.
  intros (ts & d & HT & HS & ->). pose proof (dot_err w x ts d HT HS) as E. unfold score, score_slack. fold (K (length w + 1)). replace (length w + 1)%nat with (S (length w)) by lia. rewrite K_S.
  set (D := dot (map qabs w) (map qabs x)) in *. apply one_more.
  - replace (d + t - (dot w x + t)) with (d - dot w x) by ring. eapply Qcle_trans; [exact E|]. apply qmul_le_l; [pose proof (K_ge (length w)); qlra|]. pose proof (qabs_nonneg t). qlra.
  - eapply Qcle_trans; [apply qabs_plus|]. pose proof (dot_mag w x). fold D in H. qlra.
Qed.
Lemma sign_far s e d : qabs (s - e) <= d -> d < qabs e -> qsign s = qsign e.
Proof.
  intros H1 H2. apply qabs_le in H1. destruct H1 as [A B]. unfold qabs in H2. unfold qsign.
  destruct (qle_spec 0 e); destruct (qlt_spec 0 s), (qlt_spec 0 e), (qlt_spec s 0), (qlt_spec e 0); try reflexivity; exfalso; qlra.
Qed.
Theorem prediction_far w t x s : float_score rnd w t x s -> score_slack w t x < qabs (score w t x) -> qsign s = prediction w t x.
Proof. intros H1 H2. unfold prediction. eapply sign_far; [now apply score_err|exact H2]. Qed.
End R.
(** The slack in plain numbers. *)
Lemma growth_small n : (Z.of_nat n <= 2 ^ 52)%Z -> Qcpower (1 + unit64) n - 1 <= qz 2 * qz (Z.of_nat n) * unit64.
Proof.
  induction n as [|n IH]; intro H.
  - cbn [Qcpower]. change (Z.of_nat 0) with 0%Z. rewrite qz_0. replace (1 - 1) with 0 by ring. replace (qz 2 * 0 * unit64) with 0 by ring. apply Qcle_refl.
  - specialize (IH ltac:(lia)). cbn [Qcpower]. set (c := Qcpower (1 + unit64) n) in *. set (k := qz (Z.of_nat n)) in *. replace (qz (Z.of_nat (S n))) with (k + 1) by (unfold k; rewrite <- qz_1, <- qz_plus; f_equal; lia).
    pose proof unit_pos as U. assert (B : qz 2 * k * unit64 <= 1).
    { assert (Kb : k <= qz (2 ^ 52)) by (apply qz_le; lia). eapply Qcle_trans; [apply qmul_le_r; [qlra|]; apply qmul_le_l; [apply qle_iff; reflexivity|exact Kb]|]. apply qle_iff. vm_compute. reflexivity. }
    assert (C : c <= 1 + 1) by qlra. assert (D : unit64 * c <= unit64 * (1 + 1)) by (apply qmul_le_l; [qlra|exact C]).
    replace ((1 + unit64) * c) with (c + unit64 * c) by ring. replace (qz 2 * (k + 1) * unit64) with (qz 2 * k * unit64 + unit64 * qz 2) by ring. assert (T : qz 2 = 1 + 1) by (apply Qc_is_canon; reflexivity). rewrite T in *. qlra.
Qed.
Theorem slack_small w t x : (Z.of_nat (length w) < 2 ^ 52)%Z -> score_slack w t x <= qz 2 * qz (Z.of_nat (length w + 1)) * unit64 * (dot (map qabs w) (map qabs x) + qabs t).
Proof.
  intro H. unfold score_slack. apply qmul_le_r; [|apply growth_small; lia]. pose proof (qabs_nonneg t). pose proof (dot_mag w x). pose proof (qabs_nonneg (dot w x)). qlra.
Qed.
(** A score that is computed as zero although it is one. *)
Lemma lost_score : exists w t x s, Forall (machine rnd64) w /\ machine rnd64 t /\ Forall (machine rnd64) x /\ float_score rnd64 w t x s /\ prediction w t x = 1%Z /\ qsign s = 0%Z.
Proof.
  exists [1; 1], (qz (- 2 ^ 53)), [qz (2 ^ 53); 1], 0. repeat split.
  - repeat constructor; apply Qc_is_canon; vm_compute; reflexivity.
  - repeat constructor; apply Qc_is_canon; vm_compute; reflexivity.
  - exists ([qz (2 ^ 53)] ++ [1]), (qz (2 ^ 53)). split; [|split].
    + cbn [app]. repeat constructor; right; apply Qc_is_canon; reflexivity.
    + right. replace (qz (2 ^ 53)) with (rnd64 (qz (2 ^ 53) + 1)) at 2 by (apply Qc_is_canon; vm_compute; reflexivity). constructor; constructor.
    + apply Qc_is_canon; vm_compute; reflexivity.
Qed.
