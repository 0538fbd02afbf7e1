(** Percentiles in floating-point arithmetic. *)
From Verif Require Import Proofs_num Proofs_tol Proofs_round Proofs_float Model_float Spec_rounding.
#[local] Open Scope list_scope.
#[local] Open Scope Qc_scope.

Section R.
Context (rnd : Qc -> Qc) (HR : rounding rnd).

Lemma f_cumsum_from_mono l : forall acc, rnd acc = acc -> Forall (fun p => 0 <= p) l ->
  forall i j a b, (i <= j)%nat -> nth_error (acc :: f_cumsum_from rnd acc l) i = Some a -> nth_error (acc :: f_cumsum_from rnd acc l) j = Some b -> a <= b.
Proof.
  induction l as [|p l IH]; intros acc Ha Hl i j a b Hij Hi Hj.
  - cbn [f_cumsum_from] in *. destruct j as [|[|j]]; [|discriminate Hj..]. destruct i; [|lia]. rewrite Hi in Hj. injection Hj as ->. apply Qcle_refl.
  - inversion Hl as [|? ? P Hl']; subst. cbn [f_cumsum_from] in *. cbv zeta in *. set (a1 := rnd (acc + p)) in *. assert (I : rnd a1 = a1) by apply (r_idem rnd HR).
    assert (L : acc <= a1). { rewrite <- Ha. apply (r_mono rnd HR). qlra. }
    destruct i as [|i].
    + injection Hi as <-. destruct j as [|j]; [injection Hj as <-; apply Qcle_refl|]. eapply Qcle_trans; [exact L|]. eapply (IH a1 I Hl' 0%nat j a1 b); [lia|reflexivity|exact Hj].
    + destruct j as [|j]; [lia|]. apply (IH a1 I Hl' i j a b); [lia|exact Hi|exact Hj].
Qed.
Lemma f_cumsum_from_length l : forall acc, length (f_cumsum_from rnd acc l) = length l.
Proof. induction l as [|p l IH]; intro acc; [reflexivity|]. cbn [f_cumsum_from length]. now rewrite IH. Qed.
Lemma f_cumsum_length l : length (f_cumsum rnd l) = length l.
Proof. destruct l; [reflexivity|]. cbn [f_cumsum length]. now rewrite f_cumsum_from_length. Qed.
Lemma f_cumsum_mono l : Forall (machine rnd) l -> Forall (fun p => 0 <= p) l -> forall i j a b, (i <= j)%nat -> nth_error (f_cumsum rnd l) i = Some a -> nth_error (f_cumsum rnd l) j = Some b -> a <= b.
Proof.
  destruct l as [|p l]; intros M P i j a b Hij Hi Hj; [destruct i; discriminate Hi|]. inversion M as [|? ? Mp _]; inversion P as [|? ? _ Pl]; subst. cbn [f_cumsum] in *. eapply f_cumsum_from_mono; eauto.
Qed.
Lemma f_cumsum_nn l : Forall (machine rnd) l -> Forall (fun p => 0 <= p) l -> forall i a, nth_error (f_cumsum rnd l) i = Some a -> 0 <= a.
Proof.
  intros M P i a Hi. destruct l as [|p l]; [destruct i; discriminate Hi|]. eapply Qcle_trans; [|eapply (f_cumsum_mono _ M P 0%nat i p a); [lia|reflexivity|exact Hi]]. now inversion P.
Qed.
Lemma last_nth (l : list Qc) d : l <> [] -> nth_error l (length l - 1) = Some (last l d).
Proof.
  induction l as [|x l IH]; intro H; [congruence|]. destruct l as [|y l]; [reflexivity|]. cbn [length last]. replace (S (S (length l)) - 1)%nat with (S (length (y :: l) - 1)) by (cbn [length]; lia). cbn [nth_error]. apply IH. discriminate.
Qed.

(** ** The distribution function *)
Lemma b_pos : 0 < rnd buffer. Proof. apply (r_pos rnd HR). apply qlt_iff. reflexivity. Qed.
Theorem f_cdf_facts pdf : Forall (machine rnd) pdf -> Forall (fun p => 0 <= p) pdf ->
  length (f_cdf rnd pdf) = length pdf /\
  (forall i c, nth_error (f_cdf rnd pdf) i = Some c -> 0 < c /\ c <= 1 /\ rnd c = c) /\
  (forall i j c d, (i <= j)%nat -> nth_error (f_cdf rnd pdf) i = Some c -> nth_error (f_cdf rnd pdf) j = Some d -> c <= d).
Proof.
  intros M P. unfold f_cdf. cbv zeta. set (b := rnd buffer). set (raw := f_cumsum rnd pdf). set (tot := rnd (rnd (last raw 0 + b) + b)). pose proof b_pos as B. fold b in B.
  assert (LR : length raw = length pdf) by apply f_cumsum_length.
  assert (L0 : 0 <= last raw 0). { destruct raw as [|r0 raw'] eqn:Er; [apply Qcle_refl|]. eapply (f_cumsum_nn pdf M P (length raw - 1)). rewrite <- Er. apply last_nth. rewrite Er. discriminate. }
  assert (T1 : rnd (last raw 0 + b) <= tot). { unfold tot. rewrite <- (r_idem rnd HR) at 1. apply (r_mono rnd HR). qlra. }
  assert (T0 : 0 < tot). { eapply Qclt_le_trans; [|exact T1]. apply (r_pos rnd HR). qlra. }
  assert (N : tot <> 0) by now apply qpos_neq.
  assert (X : forall r r', r <= r' -> rnd (rnd (b + r) / tot) <= rnd (rnd (b + r') / tot)).
  { intros r r' H. apply (r_mono rnd HR). apply (qmul_cancel_le _ _ tot T0). rewrite !qdiv_mul by exact N. apply (r_mono rnd HR). qlra. }
  split; [now rewrite map_length|]. split.
  - intros i c Hc. rewrite nth_error_map in Hc. destruct (nth_error raw i) as [r|] eqn:Hr; [|discriminate Hc]. injection Hc as <-.
    assert (R0 : 0 <= r) by (eapply f_cumsum_nn; eassumption).
    assert (R1 : r <= last raw 0). { eapply (f_cumsum_mono pdf M P i (length raw - 1)); [|exact Hr|apply last_nth; intro Q; fold raw in Hr; rewrite Q in Hr; destruct i; discriminate Hr]. assert ((i < length raw)%nat) by (apply nth_error_Some; congruence). lia. }
    split; [|split].
    + apply (r_pos rnd HR). assert (Q : 0 < rnd (b + r)) by (apply (r_pos rnd HR); qlra). apply (qmul_cancel_lt _ _ tot T0). rewrite qdiv_mul by exact N. replace (0 * tot) with 0 by ring. exact Q.
    + rewrite <- (r_1 rnd HR). apply (r_mono rnd HR). apply (qmul_cancel_le _ _ tot T0). rewrite qdiv_mul by exact N. rewrite Qcmult_1_l. eapply Qcle_trans; [|exact T1]. apply (r_mono rnd HR). qlra.
    + apply (r_idem rnd HR).
  - intros i j c d Hij Hi Hj. rewrite nth_error_map in Hi, Hj. destruct (nth_error raw i) as [r|] eqn:Hr; [|discriminate Hi]. destruct (nth_error raw j) as [r'|] eqn:Hr'; [|discriminate Hj].
    injection Hi as <-. injection Hj as <-. apply X. eapply (f_cumsum_mono pdf M P i j); eassumption.
Qed.

(** ** Interpolation at the grid points *)
Lemma increasing_tl x g : increasing (x :: g) -> increasing g.
Proof. intros H i j u v Hij Hu Hv. apply (H (S i) (S j) u v); [lia|exact Hu|exact Hv]. Qed.
Lemma seg_grid g : forall ys i x y, increasing g -> length ys = length g -> Forall (machine rnd) ys -> nth_error g i = Some x -> nth_error ys i = Some y -> f_interp_seg rnd g ys x = y.
Proof.
  induction g as [|x1 g IH]; intros ys i x y Hg Hl Hm Hx Hy; [destruct i; discriminate Hx|]. destruct ys as [|y1 ys]; [discriminate Hl|]. inversion Hm as [|? ? M1 Hm']; subst.
  destruct g as [|x2 g].
  { destruct i as [|i]; [|destruct i; discriminate Hx]. injection Hx as <-. injection Hy as <-. reflexivity. }
  destruct ys as [|y2 ys]; [discriminate Hl|]. cbn [f_interp_seg]. destruct i as [|i].
  - injection Hx as <-. injection Hy as <-. assert (L : x1 < x2) by (apply (Hg 0%nat 1%nat); [lia|reflexivity|reflexivity]). rewrite (proj2 (qlt_iff _ _) L).
    replace (x1 - x1) with 0 by ring. rewrite (r_0 rnd HR). rewrite Qcmult_0_r, (r_0 rnd HR), Qcplus_0_l. exact M1.
  - assert (L : ~ x < x2). { intro Q. destruct i as [|i]; [injection Hx as <-; now apply Qclt_not_eq in Q|]. assert (x2 < x) by (apply (Hg 1%nat (S (S i))); [lia|reflexivity|exact Hx]). qlra. }
    destruct (x <? x2) eqn:E; [apply qlt_iff in E; contradiction|]. apply (IH (y2 :: ys) i); auto. now apply increasing_tl in Hg.
Qed.
Lemma interp_grid g ys i x y : increasing g -> length ys = length g -> Forall (machine rnd) ys -> nth_error g i = Some x -> nth_error ys i = Some y -> f_interp rnd g ys x = y.
Proof.
  intros Hg Hl Hm Hx Hy. unfold f_interp. destruct g as [|x0 g]; [destruct i; discriminate Hx|].
  assert (A : (x <? x0) = false). { destruct (x <? x0) eqn:E; [|reflexivity]. apply qlt_iff in E. exfalso. destruct i as [|i]; [injection Hx as <-; now apply Qclt_not_eq in E|]. assert (x0 < x) by (apply (Hg 0%nat (S i)); [lia|reflexivity|exact Hx]). qlra. }
  assert (B : (last (x0 :: g) x0 <? x) = false).
  { destruct (last (x0 :: g) x0 <? x) eqn:E; [|reflexivity]. apply qlt_iff in E. exfalso. assert (Q : nth_error (x0 :: g) (length (x0 :: g) - 1) = Some (last (x0 :: g) x0)) by (apply last_nth; discriminate).
    assert (Li : (i < length (x0 :: g))%nat) by (apply nth_error_Some; congruence). destruct (Nat.eq_dec i (length (x0 :: g) - 1)) as [->|D]; [rewrite Hx in Q; assert (Q' : x = last (x0 :: g) x0) by congruence; rewrite <- Q' in E; now apply Qclt_not_eq in E|].
    assert (x < last (x0 :: g) x0) by (eapply (Hg i); [|exact Hx|exact Q]; lia). qlra. }
  rewrite A, B. eapply seg_grid; eassumption.
Qed.
Theorem f_percentile_grid g pdf : increasing g -> length pdf = length g -> Forall (machine rnd) pdf -> Forall (fun p => 0 <= p) pdf ->
  (forall x, In x g -> 0 < f_percentile rnd g pdf x /\ f_percentile rnd g pdf x <= 1) /\
  (forall x x', In x g -> In x' g -> x <= x' -> f_percentile rnd g pdf x <= f_percentile rnd g pdf x').
Proof.
  intros Hg Hl M P. destruct (f_cdf_facts pdf M P) as (L & F & Mo).
  assert (Hm : Forall (machine rnd) (f_cdf rnd pdf)). { apply Forall_forall. intros c Hc. apply In_nth_error in Hc. destruct Hc as [i Hi]. now apply F in Hi. }
  assert (K : forall i x, nth_error g i = Some x -> exists c, nth_error (f_cdf rnd pdf) i = Some c /\ f_percentile rnd g pdf x = c).
  { intros i x Hx. assert (Hi : (i < length g)%nat) by (apply nth_error_Some; congruence). destruct (nth_error (f_cdf rnd pdf) i) as [c|] eqn:Hc; [|apply nth_error_None in Hc; lia]. exists c. split; [reflexivity|]. eapply interp_grid; eauto. lia. }
  split.
  - intros x Hx. apply In_nth_error in Hx. destruct Hx as [i Hi]. destruct (K i x Hi) as (c & Hc & ->). apply F in Hc. tauto.
  - intros x x' Hx Hx' Hle. apply In_nth_error in Hx. destruct Hx as [i Hi]. apply In_nth_error in Hx'. destruct Hx' as [j Hj]. destruct (K i x Hi) as (c & Hc & ->). destruct (K j x' Hj) as (d & Hd & ->).
    destruct (le_lt_dec i j) as [Q|Q]; [eapply Mo; eassumption|]. exfalso. assert (x' < x) by (eapply Hg; eassumption). qlra.
Qed.
(** Outside the grid. *)
Lemma last_elem {T} (l : list T) d : l <> [] -> In (last l d) l.
Proof. induction l as [|a [|c l] IH]; intro H; [now contradict H|now left|]. right. apply IH. discriminate. Qed.
Theorem f_percentile_outside g pdf x : g <> [] ->
  ((forall v, In v g -> x < v) -> qabs (f_percentile rnd g pdf x - qfrac 1 1000000) <= unit64 * qfrac 1 1000000) /\
  ((forall v, In v g -> v < x) -> qabs (f_percentile rnd g pdf x - qfrac 999999 1000000) <= qz 2 * unit64).
Proof.
  intro Hg. unfold f_percentile, f_interp. destruct g as [|x0 g]; [now contradict Hg|]. pose proof HR as (_ & _ & _ & _ & H5). split; intro H.
  - destruct (qlt_spec x x0) as [_|Q]; [|exfalso; pose proof (H x0 (or_introl eq_refl)); qlra]. specialize (H5 buffer). rewrite (qabs_of_pos buffer) in H5 by (apply qle_iff; reflexivity). exact H5.
  - destruct (qlt_spec x x0) as [Q|_]; [exfalso; pose proof (H x0 (or_introl eq_refl)); qlra|]. assert (NE : x0 :: g <> []) by discriminate. pose proof (H _ (last_elem (x0 :: g) x0 NE)) as L. destruct (qlt_spec (last (x0 :: g) x0) x) as [_|Q]; [|exfalso; qlra].
    pose proof (H5 buffer) as E1. pose proof (H5 (1 - rnd buffer)) as E2. rewrite (qabs_of_pos buffer) in E1 by (apply qle_iff; reflexivity). apply qabs_le in E1. destruct E1 as [E1 E1'].
    assert (U : 0 <= unit64) by (apply qle_iff; reflexivity). assert (K : unit64 * buffer <= buffer) by (apply qle_iff; reflexivity). assert (K2 : buffer + buffer <= 1) by (apply qle_iff; reflexivity).
    assert (P : 0 <= 1 - rnd buffer) by qlra. rewrite (qabs_of_pos _ P) in E2. apply qabs_le in E2. destruct E2 as [E2 E2']. apply qabs_le.
    assert (N : unit64 * (1 - rnd buffer) <= unit64 * 1) by (apply qmul_le_l; [exact U|qlra]). rewrite Qcmult_1_r in N.
    assert (D : unit64 * buffer + unit64 <= qz 2 * unit64) by (apply qle_iff; reflexivity).
    assert (Q0 : 1 - buffer = qfrac 999999 1000000) by (apply Qc_is_canon; reflexivity). rewrite <- Q0. clear Q0. split; qlra.
Qed.
End R.

Lemma absorbed : exists g pdf x x', increasing g /\ length pdf = length g /\ Forall (machine rnd64) pdf /\ Forall (fun p => 0 < p) pdf /\ In x g /\ In x' g /\ x < x' /\ f_percentile rnd64 g pdf x = f_percentile rnd64 g pdf x'.
Proof.
  exists [qz 0; qz 10], [qfrac 1 4; qfrac 1 (2 ^ 60)], (qz 0), (qz 10). repeat split.
  - intros i j u v Hij Hu Hv. destruct i as [|[|[|i]]]; [|destruct j as [|[|[|j]]]; try lia; discriminate Hv|discriminate Hu|discriminate Hu]. destruct j as [|[|[|j]]]; [lia| |discriminate Hv..]. injection Hu as <-. injection Hv as <-. apply qlt_iff. reflexivity.
  - repeat constructor; apply Qc_is_canon; vm_compute; reflexivity.
  - repeat constructor; apply qlt_iff; reflexivity.
  - now left.
  - right. now left.
Qed.
Lemma reversed : exists g pdf x0 x x', increasing g /\ length pdf = length g /\ Forall (machine rnd64) pdf /\ Forall (fun p => 0 < p) pdf /\ machine rnd64 x /\ In x0 g /\ In x' g /\ x0 < x /\ x < x' /\ f_percentile rnd64 g pdf x' < f_percentile rnd64 g pdf x.
Proof.
  exists [qz (-5); qz 0], [qfrac 1 64; qfrac 3 64], (qz (-5)), (qfrac (-1) (2 ^ 67)), (qz 0). repeat split.
  - intros i j u v Hij Hu Hv. destruct i as [|[|[|i]]]; [|destruct j as [|[|[|j]]]; try lia; discriminate Hv|discriminate Hu|discriminate Hu]. destruct j as [|[|[|j]]]; [lia| |discriminate Hv..]. injection Hu as <-. injection Hv as <-. apply qlt_iff. reflexivity.
  - repeat constructor; apply Qc_is_canon; vm_compute; reflexivity.
  - repeat constructor; apply qlt_iff; reflexivity.
  - now left.
  - right. now left.
Qed.
