(** Floating-point percentiles between grid points. *)
From Verif Require Import Model_rounding Model_float Spec_rounding Spec_element Proofs_num Proofs_round Proofs_float Proofs_float2 Proofs_float3 Proofs_float4.
#[local] Open Scope list_scope.
#[local] Open Scope Qc_scope.

Section Between.
Context (rnd : Qc -> Qc) (HR : rounding rnd).
Notation u := unit64.

Lemma step_up a b : 0 <= a -> a <= b -> rnd a <= b + u * b.
Proof. intros H1 H2. destruct (r_err_pos rnd HR a H1) as [_ K]. assert (u * a <= u * b) by (apply qmul_le_l; [apply Qclt_le_weak, unit_pos|exact H2]). qlra. Qed.
Lemma power_bound y : 0 <= y -> y <= 1 -> (1 + u) * ((1 + u) * ((1 + u) * ((1 + u) * y))) <= y + qz 5 * u.
Proof.
  intros H0 H1. assert (K : (1 + u) * ((1 + u) * ((1 + u) * (1 + u))) <= 1 + qz 5 * u) by (apply qle_iff; vm_compute; reflexivity).
  replace ((1 + u) * ((1 + u) * ((1 + u) * ((1 + u) * y)))) with (y * ((1 + u) * ((1 + u) * ((1 + u) * (1 + u))))) by ring.
  eapply Qcle_trans; [apply qmul_le_l; [exact H0|exact K]|]. replace (y * (1 + qz 5 * u)) with (y + qz 5 * u * y) by ring.
  assert (G : 0 <= qz 5 * u * (1 - y)). { apply qmul_nonneg; [apply qle_iff; vm_compute; reflexivity|qlra]. } replace (qz 5 * u * (1 - y)) with (qz 5 * u - qz 5 * u * y) in G by ring. qlra.
Qed.
Lemma one_segment x1 x2 y1 y2 x : x1 <= x -> x < x2 -> 0 <= y1 -> y1 <= y2 -> y2 <= 1 -> rnd y1 = y1 ->
  let s := rnd (rnd (rnd (rnd (y2 - y1) / rnd (x2 - x1)) * rnd (x - x1)) + y1) in y1 <= s /\ s <= y2 + qz 5 * u.
Proof.
  intros H1 H2 H3 H4 H5 H6. cbv zeta. pose proof unit_pos as U. pose proof unit_small as U4.
  set (D := rnd (x2 - x1)). assert (HD : 0 < D) by (apply (r_pos rnd HR); qlra).
  set (d := rnd (x - x1)). assert (Hd : 0 <= d) by (apply (r_nn rnd HR); qlra). assert (HdD : d <= D) by (apply (r_mono rnd HR); qlra).
  set (Y := rnd (y2 - y1)). assert (HY : 0 <= Y) by (apply (r_nn rnd HR); qlra). assert (HY2 : Y <= (1 + u) * (y2 - y1)). { pose proof (step_up (y2 - y1) (y2 - y1) ltac:(qlra) (Qcle_refl _)) as K. fold Y in K. replace ((1 + u) * (y2 - y1)) with (y2 - y1 + u * (y2 - y1)) by ring. exact K. }
  clearbody D d Y.
  assert (HQ : 0 <= Y / D). { unfold Qcdiv. apply qmul_nonneg; [exact HY|]. apply Qclt_le_weak. destruct (Qclt_le_dec 0 (/ D)) as [?|Q]; [assumption|]. exfalso. assert (Z1 : D * / D = 1) by (apply Qcmult_inv_r; intro Z; rewrite Z in HD; exact (Qclt_not_eq _ _ HD eq_refl)). assert (0 <= D * - / D) by (apply qmul_nonneg; qlra). replace (D * - / D) with (- (D * / D)) in H by ring. rewrite Z1 in H. qlra. }
  set (sl := rnd (Y / D)). assert (Hs0 : 0 <= sl) by (now apply (r_nn rnd HR)). assert (Hs1 : sl <= (1 + u) * (Y / D)). { pose proof (step_up (Y / D) (Y / D) HQ (Qcle_refl _)) as K. fold sl in K. replace ((1 + u) * (Y / D)) with (Y / D + u * (Y / D)) by ring. exact K. }
  clearbody sl.
  assert (P0 : 0 <= sl * d) by (now apply qmul_nonneg).
  assert (P1 : sl * d <= (1 + u) * Y).
  { eapply Qcle_trans; [apply qmul_le_l; [exact Hs0|exact HdD]|]. rewrite Qcmult_comm. eapply Qcle_trans; [apply qmul_le_l; [apply Qclt_le_weak; exact HD|exact Hs1]|].
    assert (Z : D * (Y / D) = Y) by (apply Qcmult_div_r; intro Z; rewrite Z in HD; exact (Qclt_not_eq _ _ HD eq_refl)). replace (D * ((1 + u) * (Y / D))) with ((1 + u) * (D * (Y / D))) by ring. rewrite Z. apply Qcle_refl. }
  set (q := rnd (sl * d)). assert (Q0 : 0 <= q) by (now apply (r_nn rnd HR)). assert (Q1 : q <= (1 + u) * ((1 + u) * Y)). { pose proof (step_up _ _ P0 P1) as K. fold q in K. eapply Qcle_trans; [exact K|]. replace ((1 + u) * ((1 + u) * Y)) with ((1 + u) * Y + u * ((1 + u) * Y)) by ring. apply Qcle_refl. }
  clearbody q. split.
  - rewrite <- H6 at 1. apply (r_mono rnd HR). qlra.
  - assert (Q2 : q + y1 <= (1 + u) * ((1 + u) * ((1 + u) * y2))).
    { assert (W : (1 + u) * ((1 + u) * Y) <= (1 + u) * ((1 + u) * ((1 + u) * (y2 - y1)))) by (apply qmul_le_l; [qlra|]; apply qmul_le_l; [qlra|exact HY2]).
      assert (V : y1 <= (1 + u) * ((1 + u) * ((1 + u) * y1))).
      { assert (G : forall v, 0 <= v -> v <= (1 + u) * v). { intros v Hv. assert (0 <= u * v) by (apply qmul_nonneg; qlra). replace ((1 + u) * v) with (v + u * v) by ring. qlra. }
        assert (G' : forall v, 0 <= v -> 0 <= (1 + u) * v) by (intros v Hv; apply qmul_nonneg; qlra).
        eapply Qcle_trans; [apply G, H3|]. eapply Qcle_trans; [apply G, G', H3|]. apply G, G', G', H3. }
      replace ((1 + u) * ((1 + u) * ((1 + u) * y2))) with ((1 + u) * ((1 + u) * ((1 + u) * (y2 - y1))) + (1 + u) * ((1 + u) * ((1 + u) * y1))) by ring. qlra. }
    pose proof (step_up (q + y1) _ ltac:(qlra) Q2) as K. eapply Qcle_trans; [exact K|]. eapply Qcle_trans; [|apply power_bound; qlra].
    replace ((1 + u) * ((1 + u) * ((1 + u) * ((1 + u) * y2)))) with ((1 + u) * ((1 + u) * ((1 + u) * y2)) + u * ((1 + u) * ((1 + u) * ((1 + u) * y2)))) by ring. apply Qcle_refl.
Qed.
Lemma seg_between g : forall ys x, increasing g -> length ys = length g -> Forall (machine rnd) ys -> Forall (fun y => 0 <= y /\ y <= 1) ys ->
  (forall i j c d, (i <= j)%nat -> nth_error ys i = Some c -> nth_error ys j = Some d -> c <= d) -> (forall x1, hd_error g = Some x1 -> x1 <= x) ->
  forall i v y, nth_error g i = Some v -> nth_error ys i = Some y ->
  (v <= x -> y <= f_interp_seg rnd g ys x) /\ (x <= v -> f_interp_seg rnd g ys x <= y + qz 5 * u).
Proof.
  assert (U5 : 0 <= qz 5 * u) by (apply qle_iff; vm_compute; reflexivity).
  induction g as [|x1 g IH]; intros ys x Hg Hl Hm Hr Hmo Hh i v y Hv Hy; [destruct i; discriminate Hv|]. destruct ys as [|y1 ys]; [discriminate Hl|].
  inversion Hm as [|? ? M1 Hm']; subst. inversion Hr as [|? ? R1 Hr']; subst. specialize (Hh x1 eq_refl).
  destruct g as [|x2 g].
  - destruct ys; [|discriminate Hl]. destruct i as [|i]; [|destruct i; discriminate Hv]. injection Hy as <-. cbn [f_interp_seg]. split; intros _; qlra.
  - destruct ys as [|y2 ys]; [discriminate Hl|]. inversion Hr' as [|? ? R2 _]; subst.
    assert (M12 : y1 <= y2) by (apply (Hmo 0%nat 1%nat); [lia|reflexivity|reflexivity]).
    assert (X12 : x1 < x2) by (apply (Hg 0%nat 1%nat); [lia|reflexivity|reflexivity]).
    change (f_interp_seg rnd (x1 :: x2 :: g) (y1 :: y2 :: ys) x) with (if x <? x2 then rnd (rnd (rnd (rnd (y2 - y1) / rnd (x2 - x1)) * rnd (x - x1)) + y1) else f_interp_seg rnd (x2 :: g) (y2 :: ys) x).
    destruct (qlt_spec x x2) as [L|L].
    + pose proof (one_segment x1 x2 y1 y2 x Hh L (proj1 R1) M12 (proj2 R2) M1) as K. cbv zeta in K. destruct K as [K1 K2]. destruct i as [|i].
      * injection Hv as <-. injection Hy as <-. split; [auto|]. intro Q. assert (x = x1) as -> by (apply Qcle_antisym; assumption).
        replace (x1 - x1) with 0 by ring. rewrite (r_0 rnd HR), Qcmult_0_r, (r_0 rnd HR), Qcplus_0_l, M1. qlra.
      * assert (V2 : x2 <= v). { destruct i as [|i]; [injection Hv as <-; apply Qcle_refl|]. apply Qclt_le_weak, (Hg 1%nat (S (S i))); [lia|reflexivity|exact Hv]. }
        assert (Y2 : y2 <= y) by (apply (Hmo 1%nat (S i)); [lia|reflexivity|exact Hy]). split; intro Q; qlra.
    + assert (IH' : forall i v y, nth_error (x2 :: g) i = Some v -> nth_error (y2 :: ys) i = Some y -> (v <= x -> y <= f_interp_seg rnd (x2 :: g) (y2 :: ys) x) /\ (x <= v -> f_interp_seg rnd (x2 :: g) (y2 :: ys) x <= y + qz 5 * u)).
      { apply IH; auto; [exact (increasing_tl _ _ Hg)|intros a b c d Hab Hc Hd; apply (Hmo (S a) (S b)); [lia|exact Hc|exact Hd]|]. intros ? Q. injection Q as <-. exact L. }
      destruct i as [|i]; [|exact (IH' i v y Hv Hy)]. injection Hv as <-. injection Hy as <-. split; [|intro Q; exfalso; qlra].
      intros _. destruct (IH' 0%nat x2 y2 eq_refl eq_refl) as [K _]. specialize (K L). qlra.
Qed.
Theorem f_percentile_between g pdf x v : increasing g -> length pdf = length g -> Forall (machine rnd) pdf -> Forall (fun p => 0 <= p) pdf ->
  (exists lo hi, In lo g /\ In hi g /\ lo <= x /\ x <= hi) -> In v g ->
  (v <= x -> f_percentile rnd g pdf v <= f_percentile rnd g pdf x) /\ (x <= v -> f_percentile rnd g pdf x <= f_percentile rnd g pdf v + qz 5 * u).
Proof.
  intros Hg Hl M P (lo & hi & L1 & L2 & L3 & L4) Hv. destruct (f_cdf_facts rnd HR pdf M P) as (LC & FC & MC). unfold f_percentile.
  assert (MF : Forall (machine rnd) (f_cdf rnd pdf)). { apply Forall_forall. intros c Hc. apply In_nth_error in Hc. destruct Hc as (i & Hi). apply (FC i c Hi). }
  assert (RF : Forall (fun y => 0 <= y /\ y <= 1) (f_cdf rnd pdf)). { apply Forall_forall. intros c Hc. apply In_nth_error in Hc. destruct Hc as (i & Hi). destruct (FC i c Hi) as (K1 & K2 & _). split; [now apply Qclt_le_weak|exact K2]. }
  apply In_nth_error in Hv. destruct Hv as (i & Hi). assert (Li : (i < length g)%nat) by (apply nth_error_Some; congruence).
  destruct (nth_error (f_cdf rnd pdf) i) as [y|] eqn:Ey; [|apply nth_error_None in Ey; lia].
  rewrite (interp_grid rnd HR g (f_cdf rnd pdf) i v y Hg ltac:(congruence) MF Hi Ey).
  destruct g as [|x0 g]; [destruct L1|]. unfold f_interp.
  assert (B : forall a, In a (x0 :: g) -> x0 <= a). { intros a [<-|Ha]; [apply Qcle_refl|]. apply In_nth_error in Ha. destruct Ha as (k & Hk). apply Qclt_le_weak, (Hg 0%nat (S k)); [lia|reflexivity|exact Hk]. }
  destruct (qlt_spec x x0) as [Q|Q]; [specialize (B lo L1); exfalso; qlra|].
  assert (T : hi <= last (x0 :: g) x0).
  { assert (NE : x0 :: g <> []) by discriminate. pose proof (last_nth (x0 :: g) x0 NE) as K. apply In_nth_error in L2. destruct L2 as (k & Hk). assert (k < length (x0 :: g))%nat by (apply nth_error_Some; congruence).
    destruct (Nat.eq_dec k (length (x0 :: g) - 1)) as [->|N]; [rewrite K in Hk; injection Hk as <-; apply Qcle_refl|]. apply Qclt_le_weak, (Hg k (length (x0 :: g) - 1)%nat); [lia|exact Hk|exact K]. }
  destruct (qlt_spec (last (x0 :: g) x0) x) as [Q'|Q']; [exfalso; qlra|].
  apply (seg_between (x0 :: g) (f_cdf rnd pdf) x Hg ltac:(congruence) MF RF MC ltac:(intros ? W; injection W as <-; exact Q) i v y Hi Ey).
Qed.
End Between.
