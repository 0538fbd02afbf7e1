(** C05: how far the grid may pass the upper bound, and when exactly it stays inside. *)
From Verif Require Import Spec_element Proofs_element Proofs_props_element.
Import ListNotations. Open Scope list_scope. Open Scope Qc_scope.

Lemma c05_overshoot E e e' : fresh_grid E e e' ->
  exists lo hi s, grid_from e' lo /\ grid_to e' hi /\ grid_step_is e' lo hi s /\ 0 < s /\ 
    (forall v, In v (e_grid e') -> lo <= v /\ v < hi + s) /\
    ((forall v, In v (e_grid e') -> v <= hi) <-> exists n : nat, hi - lo = qz (Z.of_nat n) * s).
Proof.
  intro HF. destruct (c04 _ _ _ HF) as [(lo & hi & s & la & H1 & H2 & H3 & Hs & H0 & Hi & Hl & Hge & Hlt) _].
  exists lo, hi, s. do 4 (split; [assumption|]).
  set (g := e_grid e') in *.
  assert (Hla : la = lo + qz (Z.of_nat (pred (length g))) * s) by (apply Hi; exact Hl).
  assert (Hle : forall v, In v g -> lo <= v /\ v <= la).
  { intros v Hv. apply In_nth_error in Hv. destruct Hv as [i Hv]. pose proof (Hi _ _ Hv) as ->.
    assert (Hb : (i < length g)%nat) by (apply nth_error_Some; rewrite Hv; discriminate).
    rewrite Hla. split.
    - assert (0 <= qz (Z.of_nat i) * s) by (apply qmul_nonneg; [apply (qz_le 0); lia|qlra]). qlra.
    - assert (qz (Z.of_nat i) * s <= qz (Z.of_nat (pred (length g))) * s).
      { rewrite (Qcmult_comm (qz (Z.of_nat i))), (Qcmult_comm (qz (Z.of_nat (pred (length g))))).
        apply qmul_le_l; [qlra|]. apply qz_le. lia. }
      qlra. }
  split. { intros v Hv. destruct (Hle v Hv). split; [assumption|qlra]. }
  split.
  - intros H. exists (pred (length g)). assert (la <= hi) by (apply H; eapply nth_error_In; exact Hl).
    assert (hi = la) by (apply Qcle_antisym; assumption). subst hi. rewrite Hla. ring.
  - intros [n Hn] v Hv. destruct (Hle v Hv) as [_ Hv']. eapply Qcle_trans; [exact Hv'|].
    destruct (Z_le_gt_dec (Z.of_nat (pred (length g))) (Z.of_nat n)) as [Hz|Hz].
    + rewrite Hla. assert (qz (Z.of_nat (pred (length g))) * s <= qz (Z.of_nat n) * s).
      { rewrite (Qcmult_comm (qz (Z.of_nat n))), (Qcmult_comm (qz (Z.of_nat (pred (length g))))).
        apply qmul_le_l; [qlra|]. apply qz_le. lia. }
      qlra.
    + exfalso. assert ((qz (Z.of_nat n) + 1) * s <= qz (Z.of_nat (pred (length g))) * s).
      { rewrite <- qz_1, <- qz_plus.
        rewrite (Qcmult_comm (qz (Z.of_nat n + 1))), (Qcmult_comm (qz (Z.of_nat (pred (length g))))).
        apply qmul_le_l; [qlra|]. apply qz_le. lia. }
      assert (hi = lo + qz (Z.of_nat n) * s) by (rewrite <- Hn; ring).
      assert ((qz (Z.of_nat n) + 1) * s = qz (Z.of_nat n) * s + s) as Hq by ring. rewrite Hq in *. qlra.
Qed.
