(** Percentiles: interpolated cumulative densities (C13, C14). *)
From Verif Require Export Proofs_element.

(** ** Cumulative sums *)
Lemma cumsum_from_length acc l : length (cumsum_from acc l) = length l.
Proof. revert acc. induction l; intro acc; cbn; congruence. Qed.
Lemma cumsum_from_ge acc l : Forall (fun v => 0 <= v) l -> Forall (fun r => acc <= r) (cumsum_from acc l).
Proof.
  revert acc. induction l as [|x r IH]; intros acc H; cbn [cumsum_from]; [constructor|].
  inversion H; subst. constructor; [qlra|]. eapply Forall_impl; [|apply IH; assumption].
  cbn. intros a Ha. qlra.
Qed.
Lemma cumsum_sorted acc l : Forall (fun v => 0 <= v) l -> StronglySorted Qcle (cumsum_from acc l).
Proof.
  revert acc. induction l as [|x r IH]; intros acc H; cbn [cumsum_from]; [constructor|].
  inversion H; subst. constructor; [now apply IH|]. now apply cumsum_from_ge.
Qed.
Lemma cumsum_from_gt acc l : Forall (fun v => 0 < v) l -> Forall (fun r => acc < r) (cumsum_from acc l).
Proof.
  revert acc. induction l as [|x r IH]; intros acc H; cbn [cumsum_from]; [constructor|].
  inversion H; subst. constructor; [qlra|]. eapply Forall_impl; [|apply IH; assumption].
  cbn. intros a Ha. qlra.
Qed.
Lemma cumsum_ssorted acc l : Forall (fun v => 0 < v) l -> StronglySorted Qclt (cumsum_from acc l).
Proof.
  revert acc. induction l as [|x r IH]; intros acc H; cbn [cumsum_from]; [constructor|].
  inversion H; subst. constructor; [now apply IH|]. now apply cumsum_from_gt.
Qed.
Lemma last_In {A} (l : list A) d : l <> [] -> In (last l d) l.
Proof.
  induction l as [|x r IH]; [congruence|]. intros _. destruct r as [|y r']; [now left|].
  right. apply IH. discriminate.
Qed.
Lemma last_ge l d v : StronglySorted Qcle l -> In v l -> v <= last l d.
Proof.
  induction 1 as [|x r H1 IH H2]; intro Hv; [destruct Hv|]. destruct r as [|y r'].
  - destruct Hv as [->|[]]. apply Qcle_refl.
  - change (last (x :: y :: r') d) with (last (y :: r') d). destruct Hv as [->|Hv]; [|now apply IH].
    rewrite Forall_forall in H2. apply H2, last_In. discriminate.
Qed.

Lemma buffer_pos : 0 < buffer. Proof. reflexivity. Qed.
Lemma buffer_half : buffer + buffer < 1. Proof. reflexivity. Qed.

Lemma map_ssorted {A} (R S : A -> A -> Prop) f l :
  (forall x y, R x y -> S (f x) (f y)) -> StronglySorted R l -> StronglySorted S (map f l).
Proof.
  intros Hf. induction 1 as [|x r H1 IH H2]; cbn; constructor; [exact IH|].
  rewrite Forall_map. eapply Forall_impl; [|exact H2]. intros y Hy. now apply Hf.
Qed.

Section Cdf.
  Variables (pdf : Qc -> Qc) (g : list Qc).
  Hypothesis Hne : g <> [].
  Hypothesis Hpdf : Forall (fun v => 0 <= pdf v) g.
  Let raw := np_cumsum (map pdf g).
  Let total := last raw 0 + buffer + buffer.

  Lemma pdf_map : Forall (fun v => 0 <= v) (map pdf g).
  Proof. rewrite Forall_map. exact Hpdf. Qed.
  Lemma raw_ne : raw <> [].
  Proof. unfold raw, np_cumsum. intro E. apply (f_equal (@length Qc)) in E. rewrite cumsum_from_length, map_length in E.
         destruct g; [congruence|discriminate]. Qed.
  Lemma raw_nonneg : Forall (fun r => 0 <= r) raw.
  Proof. apply cumsum_from_ge, pdf_map. Qed.
  Lemma raw_sorted : StronglySorted Qcle raw.
  Proof. apply cumsum_sorted, pdf_map. Qed.
  Lemma total_pos : 0 < total.
  Proof.
    pose proof raw_nonneg as H. rewrite Forall_forall in H. specialize (H _ (last_In raw 0 raw_ne)).
    pose proof buffer_pos. unfold total. qlra.
  Qed.
  Lemma cdf_length : length (cdf_of pdf g) = length g.
  Proof. unfold cdf_of, np_cumsum. now rewrite map_length, cumsum_from_length, map_length. Qed.
  Lemma cdf_range : Forall (fun c => 0 < c /\ c < 1) (cdf_of pdf g).
  Proof.
    unfold cdf_of. fold raw. fold total. rewrite Forall_map. rewrite Forall_forall. intros r Hr.
    pose proof total_pos as Ht. pose proof buffer_pos as Hb.
    pose proof raw_nonneg as Hn. rewrite Forall_forall in Hn. specialize (Hn _ Hr).
    pose proof (last_ge raw 0 r raw_sorted Hr) as Hl. split.
    - apply (qlt_div _ _ _ Ht). rewrite Qcmult_0_l. qlra.
    - apply (qdiv_lt _ _ _ Ht). rewrite Qcmult_1_l. unfold total. qlra.
  Qed.
  Lemma cdf_sorted : StronglySorted Qcle (cdf_of pdf g).
  Proof.
    unfold cdf_of. fold raw. fold total. eapply map_ssorted; [|exact raw_sorted].
    intros x y Hxy. cbn beta. pose proof total_pos as Ht. apply (qdiv_le _ _ _ Ht). rewrite qdiv_mul by (now apply qpos_neq). qlra.
  Qed.
  Lemma cdf_ssorted : Forall (fun v => 0 < pdf v) g -> StronglySorted Qclt (cdf_of pdf g).
  Proof.
    intro Hp. unfold cdf_of. fold raw. fold total. eapply map_ssorted; [|apply cumsum_ssorted; rewrite Forall_map; exact Hp].
    intros x y Hxy. cbn beta. pose proof total_pos as Ht. apply (qdiv_lt _ _ _ Ht). rewrite qdiv_mul by (now apply qpos_neq). qlra.
  Qed.
End Cdf.

(** ** Linear interpolation *)
Lemma segment_le x1 x2 y1 y2 x y : x1 < x2 -> y1 <= y2 -> x <= y ->
  y1 + (y2 - y1) / (x2 - x1) * (x - x1) <= y1 + (y2 - y1) / (x2 - x1) * (y - x1).
Proof.
  intros Hx Hy Hxy.
  assert (Hs : 0 <= (y2 - y1) / (x2 - x1)) by (apply qle_div; [qlra|rewrite Qcmult_0_l; qlra]).
  assert (H : (y2 - y1) / (x2 - x1) * (x - x1) <= (y2 - y1) / (x2 - x1) * (y - x1)) by (apply qmul_le_l; [exact Hs|qlra]).
  qlra.
Qed.
Lemma segment_lt x1 x2 y1 y2 x y : x1 < x2 -> y1 < y2 -> x < y ->
  y1 + (y2 - y1) / (x2 - x1) * (x - x1) < y1 + (y2 - y1) / (x2 - x1) * (y - x1).
Proof.
  intros Hx Hy Hxy.
  assert (Hs : 0 < (y2 - y1) / (x2 - x1)) by (apply qlt_div; [qlra|rewrite Qcmult_0_l; qlra]).
  assert (H : (y2 - y1) / (x2 - x1) * (x - x1) < (y2 - y1) / (x2 - x1) * (y - x1)) by (apply qmul_lt_l; [exact Hs|qlra]).
  qlra.
Qed.
Lemma segment_left x1 x2 y1 y2 : y1 + (y2 - y1) / (x2 - x1) * (x1 - x1) = y1.
Proof. ring. Qed.
Lemma segment_right x1 x2 y1 y2 : x1 < x2 -> y1 + (y2 - y1) / (x2 - x1) * (x2 - x1) = y2.
Proof. intro H. rewrite qdiv_mul; [ring|]. apply qpos_neq. qlra. Qed.

Lemma seg_cons2 x1 x2 xs y1 y2 ys x :
  interp_seg (x1 :: x2 :: xs) (y1 :: y2 :: ys) x =
  if x <=? x2 then y1 + (y2 - y1) / (x2 - x1) * (x - x1) else interp_seg (x2 :: xs) (y2 :: ys) x.
Proof. reflexivity. Qed.

Lemma last_indep {A} (l : list A) d d' : l <> [] -> last l d = last l d'.
Proof.
  induction l as [|a r IH]; [congruence|]. intros _. destruct r as [|b r]; [reflexivity|]. apply IH. discriminate.
Qed.

Lemma seg_bounds xs : forall ys x x0 y0, length ys = length xs ->
  StronglySorted Qclt xs -> StronglySorted Qcle ys ->
  hd_error xs = Some x0 -> hd_error ys = Some y0 -> x0 <= x -> x <= last xs x0 ->
  y0 <= interp_seg xs ys x /\ interp_seg xs ys x <= last ys y0.
Proof.
  induction xs as [|x1 xs IH]; intros ys x x0 y0 HL HX HY Hx0 Hy0 Hlo Hhi; [discriminate|].
  destruct ys as [|y1 ys]; [discriminate|]. cbn in Hx0, Hy0. injection Hx0 as <-. injection Hy0 as <-.
  destruct xs as [|x2 xs]; destruct ys as [|y2 ys]; try discriminate.
  - cbn. split; apply Qcle_refl.
  - inversion HX as [|? ? HX1 HX2]; inversion HY as [|? ? HY1 HY2]; subst.
    inversion HX2; inversion HY2; subst. rewrite seg_cons2.
    change (last (y1 :: y2 :: ys) y1) with (last (y2 :: ys) y1).
    change (last (x1 :: x2 :: xs) x1) with (last (x2 :: xs) x1) in Hhi.
    assert (Hly : y2 <= last (y2 :: ys) y1) by (apply last_ge; [exact HY1|now left]).
    destruct (qle_spec x x2) as [Hc|Hc].
    + pose proof (segment_le x1 x2 y1 y2 x1 x ltac:(assumption) ltac:(assumption) Hlo) as A1.
      pose proof (segment_le x1 x2 y1 y2 x x2 ltac:(assumption) ltac:(assumption) Hc) as A2.
      rewrite segment_left in A1. rewrite segment_right in A2 by assumption. split; [exact A1|].
      eapply Qcle_trans; [exact A2|exact Hly].
    + assert (Elx : last (x2 :: xs) x1 = last (x2 :: xs) x2) by (apply last_indep; discriminate).
      assert (Ely : last (y2 :: ys) y1 = last (y2 :: ys) y2) by (apply last_indep; discriminate).
      rewrite Elx in Hhi. rewrite Ely in *.
      destruct (IH (y2 :: ys) x x2 y2 ltac:(cbn in *; lia) HX1 HY1 eq_refl eq_refl ltac:(qlra) Hhi) as [B1 B2].
      split; [|exact B2]. eapply Qcle_trans; [|exact B1]. assumption.
Qed.

Lemma seg_mono xs : forall ys x y x0, length ys = length xs ->
  StronglySorted Qclt xs -> StronglySorted Qcle ys -> hd_error xs = Some x0 ->
  x0 <= x -> x <= y -> y <= last xs x0 -> interp_seg xs ys x <= interp_seg xs ys y.
Proof.
  induction xs as [|x1 xs IH]; intros ys x y x0 HL HX HY Hx0 Hlo Hxy Hhi; [discriminate|].
  destruct ys as [|y1 ys]; [discriminate|]. cbn in Hx0. injection Hx0 as <-.
  destruct xs as [|x2 xs]; destruct ys as [|y2 ys]; try discriminate; [apply Qcle_refl|].
  inversion HX as [|? ? HX1 HX2]; inversion HY as [|? ? HY1 HY2]; subst.
  inversion HX2; inversion HY2; subst. rewrite !seg_cons2.
  change (last (x1 :: x2 :: xs) x1) with (last (x2 :: xs) x1) in Hhi.
  rewrite (last_indep _ _ x2) in Hhi by discriminate.
  destruct (qle_spec x x2) as [Hc|Hc]; destruct (qle_spec y x2) as [Hd|Hd].
  - now apply segment_le.
  - pose proof (segment_le x1 x2 y1 y2 x x2 ltac:(assumption) ltac:(assumption) Hc) as A2.
    rewrite segment_right in A2 by assumption.
    destruct (seg_bounds (x2 :: xs) (y2 :: ys) y x2 y2 ltac:(cbn in *; lia) HX1 HY1 eq_refl eq_refl ltac:(qlra) Hhi) as [B1 _].
    eapply Qcle_trans; [exact A2|exact B1].
  - exfalso. qlra.
  - apply (IH (y2 :: ys) x y x2); auto; try qlra; cbn in *; try lia.
Qed.

Lemma seg_gt_first xs : forall ys x x0 y0, length ys = length xs ->
  StronglySorted Qclt xs -> StronglySorted Qclt ys ->
  hd_error xs = Some x0 -> hd_error ys = Some y0 -> x0 < x -> x <= last xs x0 -> y0 < interp_seg xs ys x.
Proof.
  induction xs as [|x1 xs IH]; intros ys x x0 y0 HL HX HY Hx0 Hy0 Hlo Hhi; [discriminate|].
  destruct ys as [|y1 ys]; [discriminate|]. cbn in Hx0, Hy0. injection Hx0 as <-. injection Hy0 as <-.
  destruct xs as [|x2 xs]; destruct ys as [|y2 ys]; try discriminate.
  - exfalso. cbn in Hhi. qlra.
  - inversion HX as [|? ? HX1 HX2]; inversion HY as [|? ? HY1 HY2]; subst.
    inversion HX2; inversion HY2; subst. rewrite seg_cons2.
    change (last (x1 :: x2 :: xs) x1) with (last (x2 :: xs) x1) in Hhi.
    rewrite (last_indep _ _ x2) in Hhi by discriminate.
    destruct (qle_spec x x2) as [Hc|Hc].
    + pose proof (segment_lt x1 x2 y1 y2 x1 x ltac:(assumption) ltac:(assumption) Hlo) as A1.
      rewrite segment_left in A1. exact A1.
    + eapply Qclt_trans; [eassumption|]. apply (IH (y2 :: ys) x x2 y2); auto; cbn in *; lia.
Qed.
Lemma ssorted_weaken l : StronglySorted Qclt l -> StronglySorted Qcle l.
Proof.
  induction 1 as [|x r H1 IH H2]; constructor; [exact IH|]. eapply Forall_impl; [|exact H2].
  intros a Ha. now apply Qclt_le_weak.
Qed.
Lemma seg_smono xs : forall ys x y x0, length ys = length xs ->
  StronglySorted Qclt xs -> StronglySorted Qclt ys -> hd_error xs = Some x0 ->
  x0 <= x -> x < y -> y <= last xs x0 -> interp_seg xs ys x < interp_seg xs ys y.
Proof.
  induction xs as [|x1 xs IH]; intros ys x y x0 HL HX HY Hx0 Hlo Hxy Hhi; [discriminate|].
  destruct ys as [|y1 ys]; [discriminate|]. cbn in Hx0. injection Hx0 as <-.
  destruct xs as [|x2 xs]; destruct ys as [|y2 ys]; try discriminate; [exfalso; cbn in Hhi; qlra|].
  inversion HX as [|? ? HX1 HX2]; inversion HY as [|? ? HY1 HY2]; subst.
  inversion HX2; inversion HY2; subst. rewrite !seg_cons2.
  change (last (x1 :: x2 :: xs) x1) with (last (x2 :: xs) x1) in Hhi.
  rewrite (last_indep _ _ x2) in Hhi by discriminate.
  destruct (qle_spec x x2) as [Hc|Hc]; destruct (qle_spec y x2) as [Hd|Hd].
  - now apply segment_lt.
  - pose proof (segment_le x1 x2 y1 y2 x x2 ltac:(assumption) ltac:(now apply Qclt_le_weak) Hc) as A2.
    rewrite segment_right in A2 by assumption.
    pose proof (seg_gt_first (x2 :: xs) (y2 :: ys) y x2 y2 ltac:(cbn in *; lia) HX1 HY1 eq_refl eq_refl Hd Hhi) as B1.
    eapply Qcle_lt_trans; [exact A2|exact B1].
  - exfalso. qlra.
  - apply (IH (y2 :: ys) x y x2); auto; try qlra; cbn in *; try lia.
Qed.

(** ** interp *)
Lemma interp_range pdf g x : g <> [] -> StronglySorted Qclt g -> Forall (fun v => 0 <= pdf v) g ->
  0 < interp g (cdf_of pdf g) x /\ interp g (cdf_of pdf g) x < 1.
Proof.
  intros Hne HS Hp. pose proof buffer_pos as Hb. pose proof buffer_half as Hh.
  unfold interp. destruct g as [|x0 r] eqn:Eg; [congruence|]. rewrite <- Eg in *.
  destruct (qlt_spec x x0) as [H1|H1]; [split; qlra|].
  destruct (qlt_spec (last g x0) x) as [H2|H2]; [split; qlra|].
  pose proof (cdf_length pdf g) as HL. pose proof (cdf_range pdf g Hne Hp) as HR. pose proof (cdf_sorted pdf g Hne Hp) as HC.
  destruct (cdf_of pdf g) as [|y0 ys] eqn:Ec; [rewrite Eg in HL; discriminate|]. rewrite <- Ec in *.
  destruct (seg_bounds g (cdf_of pdf g) x x0 y0) as [B1 B2]; auto; [now rewrite Eg|now rewrite Ec|].
  rewrite Forall_forall in HR.
  assert (R0 : In y0 (cdf_of pdf g)) by (rewrite Ec; now left).
  assert (Rl : In (last (cdf_of pdf g) y0) (cdf_of pdf g)) by (apply last_In; rewrite Ec; discriminate).
  apply HR in R0, Rl. destruct R0, Rl. split; qlra.
Qed.
Lemma within_bounds g x x0 r : g = x0 :: r -> StronglySorted Qclt g -> within g x -> x0 <= x /\ x <= last g x0.
Proof.
  intros Eg HS (lo & hi & Hlo & Hhi & H1 & H2). split.
  - rewrite Eg in Hlo, HS. inversion HS; subst. destruct Hlo as [<-|Hlo]; [exact H1|].
    match goal with H : Forall _ _ |- _ => rewrite Forall_forall in H; specialize (H _ Hlo) end. qlra.
  - eapply Qcle_trans; [exact H2|]. apply last_ge; [now apply ssorted_weaken|exact Hhi].
Qed.
Lemma interp_mono pdf g x y : g <> [] -> StronglySorted Qclt g -> Forall (fun v => 0 <= pdf v) g ->
  within g x -> within g y -> x <= y -> interp g (cdf_of pdf g) x <= interp g (cdf_of pdf g) y.
Proof.
  intros Hne HS Hp Hx Hy Hxy. unfold interp. destruct g as [|x0 r] eqn:Eg; [congruence|]. rewrite <- Eg in *.
  destruct (within_bounds _ _ _ _ Eg HS Hx) as [X1 X2]. destruct (within_bounds _ _ _ _ Eg HS Hy) as [Y1 Y2].
  destruct (qlt_spec x x0); [exfalso; qlra|]. destruct (qlt_spec (last g x0) x); [exfalso; qlra|].
  destruct (qlt_spec y x0); [exfalso; qlra|]. destruct (qlt_spec (last g x0) y); [exfalso; qlra|].
  apply (seg_mono g (cdf_of pdf g) x y x0); auto; [apply cdf_length|now apply cdf_sorted|now rewrite Eg].
Qed.
Lemma interp_smono pdf g x y : g <> [] -> StronglySorted Qclt g -> Forall (fun v => 0 < pdf v) g ->
  within g x -> within g y -> x < y -> interp g (cdf_of pdf g) x < interp g (cdf_of pdf g) y.
Proof.
  intros Hne HS Hp Hx Hy Hxy. unfold interp. destruct g as [|x0 r] eqn:Eg; [congruence|]. rewrite <- Eg in *.
  destruct (within_bounds _ _ _ _ Eg HS Hx) as [X1 X2]. destruct (within_bounds _ _ _ _ Eg HS Hy) as [Y1 Y2].
  destruct (qlt_spec x x0); [exfalso; qlra|]. destruct (qlt_spec (last g x0) x); [exfalso; qlra|].
  destruct (qlt_spec y x0); [exfalso; qlra|]. destruct (qlt_spec (last g x0) y); [exfalso; qlra|].
  assert (Hp' : Forall (fun v => 0 <= pdf v) g) by (eapply Forall_impl; [|exact Hp]; intros a Ha; now apply Qclt_le_weak).
  apply (seg_smono g (cdf_of pdf g) x y x0); auto; [apply cdf_length|now apply cdf_ssorted|now rewrite Eg].
Qed.
