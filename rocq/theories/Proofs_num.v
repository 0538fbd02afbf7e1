(** Lemmas about the numeric toolkit. *)
From Coq Require Export Permutation Sorted.
From Verif Require Export Num.

Lemma Qc_le_this x y : x <= y <-> (this x <= this y)%Q.
Proof. reflexivity. Qed.
Lemma Qc_lt_this x y : x < y <-> (this x < this y)%Q.
Proof. reflexivity. Qed.

Lemma qabs_le x t : qabs x <= t <-> - t <= x /\ x <= t.
Proof.
  unfold qabs. destruct (qle_spec 0 x) as [H|H]; (split; [intro H1; split; qlra|intros [H1 H2]; qlra]).
Qed.
Lemma qabs_nonneg x : 0 <= qabs x.
Proof. unfold qabs. destruct (qle_spec 0 x); qlra. Qed.

(** ** Integers inside the rationals *)
Lemma qz_le a b : qz a <= qz b <-> (a <= b)%Z.
Proof. rewrite Qc_le_this, !this_qz, <- Zle_Qle. reflexivity. Qed.
Lemma qz_lt a b : qz a < qz b <-> (a < b)%Z.
Proof. rewrite Qc_lt_this, !this_qz, <- Zlt_Qlt. reflexivity. Qed.
Lemma qz_inj a b : qz a = qz b <-> a = b.
Proof. rewrite Qc_eq_this, !this_qz. apply inject_Z_injective. Qed.
Lemma qz_plus a b : qz (a + b) = qz a + qz b.
Proof. apply Qc_eq_this. rewrite this_plus, !this_qz, inject_Z_plus. reflexivity. Qed.
Lemma qz_mult a b : qz (a * b) = qz a * qz b.
Proof. apply Qc_eq_this. rewrite this_mult, !this_qz, inject_Z_mult. reflexivity. Qed.
Lemma qz_opp a : qz (- a) = - qz a.
Proof. apply Qc_eq_this. rewrite this_opp, !this_qz, inject_Z_opp. reflexivity. Qed.
Lemma qz_minus a b : qz (a - b) = qz a - qz b.
Proof. unfold Z.sub, Qcminus. now rewrite qz_plus, qz_opp. Qed.
Lemma qz_0 : qz 0 = 0. Proof. apply Qc_is_canon. reflexivity. Qed.
Lemma qz_1 : qz 1 = 1. Proof. apply Qc_is_canon. reflexivity. Qed.

Lemma qfloor_le x : qz (qfloor x) <= x.
Proof. rewrite Qc_le_this, this_qz. apply Qfloor_le. Qed.
Lemma qfloor_lt x : x < qz (qfloor x) + 1.
Proof.
  rewrite Qc_lt_this, this_plus, this_qz. change (this 1) with 1%Q.
  pose proof (Qlt_floor x) as H. unfold qfloor. rewrite inject_Z_plus in H. exact H.
Qed.
Lemma qceil_ge x : x <= qz (qceil x).
Proof. rewrite Qc_le_this, this_qz. apply Qle_ceiling. Qed.
Lemma qceil_lt x : qz (qceil x) - 1 < x.
Proof.
  rewrite Qc_lt_this, this_minus, this_qz. change (this 1) with 1%Q.
  pose proof (Qceiling_lt x) as H. unfold qceil, Z.sub in *. rewrite inject_Z_plus in H.
  eapply Qle_lt_trans; [|exact H]. unfold Qminus. apply Qle_refl.
Qed.
Lemma qfloor_qz z : qfloor (qz z) = z.
Proof.
  pose proof (qfloor_le (qz z)) as H1. pose proof (qfloor_lt (qz z)) as H2.
  rewrite <- qz_1, <- qz_plus in H2. rewrite qz_le in H1. rewrite qz_lt in H2. lia.
Qed.
Lemma qceil_qz z : qceil (qz z) = z.
Proof.
  pose proof (qceil_ge (qz z)) as H1. pose proof (qceil_lt (qz z)) as H2.
  rewrite <- qz_1, <- qz_minus in H2. rewrite qz_le in H1. rewrite qz_lt in H2. lia.
Qed.
Lemma qtrunc_qz z : qtrunc (qz z) = z.
Proof. unfold qtrunc. destruct (qle _ _); [apply qfloor_qz|apply qceil_qz]. Qed.
Lemma is_integer_iff x : is_integer x = true <-> exists z, x = qz z.
Proof.
  unfold is_integer. rewrite qeq_iff. split; intro H.
  - eexists; exact H.
  - destruct H as [z ->]. now rewrite qfloor_qz.
Qed.
Lemma qfloor_mono x y : x <= y -> (qfloor x <= qfloor y)%Z.
Proof. intro H. apply Qfloor_resp_le. exact H. Qed.
Lemma qceil_mono x y : x <= y -> (qceil x <= qceil y)%Z.
Proof. intro H. apply Qceiling_resp_le. exact H. Qed.

(** ** Multiplication and division *)
Lemma qmul_le_r x y z : 0 <= z -> x <= y -> x * z <= y * z.
Proof. intros Hz H. apply Qcmult_le_compat_r; assumption. Qed.
Lemma qmul_lt_r x y z : 0 < z -> x < y -> x * z < y * z.
Proof. intros Hz H. apply Qcmult_lt_compat_r; assumption. Qed.
Lemma qmul_le_l x y z : 0 <= z -> x <= y -> z * x <= z * y.
Proof. rewrite (Qcmult_comm z x), (Qcmult_comm z y). apply qmul_le_r. Qed.
Lemma qmul_lt_l x y z : 0 < z -> x < y -> z * x < z * y.
Proof. rewrite (Qcmult_comm z x), (Qcmult_comm z y). apply qmul_lt_r. Qed.
Lemma qmul_pos x y : 0 < x -> 0 < y -> 0 < x * y.
Proof. intros Hx Hy. pose proof (qmul_lt_r 0 x y Hy Hx) as H. rewrite Qcmult_0_l in H. exact H. Qed.
Lemma qmul_nonneg x y : 0 <= x -> 0 <= y -> 0 <= x * y.
Proof. intros Hx Hy. pose proof (qmul_le_r 0 x y Hy Hx) as H. rewrite Qcmult_0_l in H. exact H. Qed.
Lemma qdiv_mul x y : y <> 0 -> x / y * y = x.
Proof. intro H. unfold Qcdiv. rewrite <- Qcmult_assoc, Qcmult_inv_l by exact H. apply Qcmult_1_r. Qed.
Lemma qmul_cancel_lt x y z : 0 < z -> x * z < y * z -> x < y.
Proof. intros Hz H. apply Qcnot_le_lt. intro H'. apply (qmul_le_r _ _ z) in H'; [qlra|qlra]. Qed.
Lemma qmul_cancel_le x y z : 0 < z -> x * z <= y * z -> x <= y.
Proof. intros Hz H. apply Qcnot_lt_le. intro H'. apply (qmul_lt_r _ _ z) in H'; qlra. Qed.
Lemma qmul_cancel x y z : z <> 0 -> x * z = y * z -> x = y.
Proof. intros Hz H. rewrite <- (Qcmult_1_r x), <- (Qcmult_1_r y), <- (Qcmult_inv_r z Hz), !Qcmult_assoc, H. reflexivity. Qed.
Lemma qpos_neq x : 0 < x -> x <> 0.
Proof. intros H ->. apply Qclt_not_eq in H. congruence. Qed.
Lemma qdiv_lt x y z : 0 < y -> (x / y < z <-> x < z * y).
Proof.
  intro Hy. pose proof (qpos_neq _ Hy) as Hn. split; intro H.
  - apply (qmul_lt_r _ _ y Hy) in H. rewrite qdiv_mul in H by exact Hn. exact H.
  - apply (qmul_cancel_lt _ _ y Hy). rewrite qdiv_mul by exact Hn. exact H.
Qed.
Lemma qdiv_le x y z : 0 < y -> (x / y <= z <-> x <= z * y).
Proof.
  intro Hy. pose proof (qpos_neq _ Hy) as Hn. split; intro H.
  - apply (qmul_le_r _ _ y) in H; [|qlra]. rewrite qdiv_mul in H by exact Hn. exact H.
  - apply (qmul_cancel_le _ _ y Hy). rewrite qdiv_mul by exact Hn. exact H.
Qed.
Lemma qlt_div x y z : 0 < y -> (z < x / y <-> z * y < x).
Proof.
  intro Hy. pose proof (qpos_neq _ Hy) as Hn. split; intro H.
  - apply (qmul_lt_r _ _ y Hy) in H. rewrite qdiv_mul in H by exact Hn. exact H.
  - apply (qmul_cancel_lt _ _ y Hy). rewrite qdiv_mul by exact Hn. exact H.
Qed.
Lemma qle_div x y z : 0 < y -> (z <= x / y <-> z * y <= x).
Proof.
  intro Hy. pose proof (qpos_neq _ Hy) as Hn. split; intro H.
  - apply (qmul_le_r _ _ y) in H; [|qlra]. rewrite qdiv_mul in H by exact Hn. exact H.
  - apply (qmul_cancel_le _ _ y Hy). rewrite qdiv_mul by exact Hn. exact H.
Qed.

(** ** Lists *)
Lemma qmem_iff x l : qmem x l = true <-> In x l.
Proof.
  unfold qmem. rewrite existsb_exists. split.
  - intros (y & Hy & E). qbool. now subst.
  - intro H. exists x. split; [exact H|]. now apply qeq_iff.
Qed.
Lemma all_distinct_iff l : all_distinct l = true <-> NoDup l.
Proof.
  induction l as [|x r IH]; cbn [all_distinct].
  - split; [constructor|reflexivity].
  - rewrite andb_true_iff, negb_true_iff, IH, <- not_true_iff_false, qmem_iff. split.
    + intros [H1 H2]. now constructor.
    + intro H. inversion H; subst. tauto.
Qed.
Lemma nondecr_iff l : nondecr l = true <-> Sorted Qcle l.
Proof.
  induction l as [|x r IH]; [split; [constructor|reflexivity]|].
  destruct r as [|y r']; [split; [repeat constructor|reflexivity]|].
  cbn [nondecr] in *. rewrite andb_true_iff, IH, qle_iff. split.
  - intros [H1 H2]. constructor; [exact H2|]. constructor. exact H1.
  - intro H. inversion H as [|? ? H2 H3]; subst. inversion H3; subst. tauto.
Qed.

Lemma qinsert_perm x l : Permutation (qinsert x l) (x :: l).
Proof.
  induction l as [|y r IH]; cbn [qinsert]; [reflexivity|].
  destruct (qle x y); [reflexivity|]. rewrite IH. apply perm_swap.
Qed.
Lemma qsort_perm l : Permutation (qsort l) l.
Proof. induction l as [|x r IH]; cbn [qsort]; [reflexivity|]. rewrite qinsert_perm. now constructor. Qed.
Lemma qinsert_sorted x l : StronglySorted Qcle l -> StronglySorted Qcle (qinsert x l).
Proof.
  induction l as [|y r IH]; cbn [qinsert]; intro H.
  - repeat constructor.
  - inversion H as [|? ? H1 H2]; subst. destruct (qle_spec x y).
    + constructor; [exact H|]. constructor; [assumption|].
      eapply Forall_impl; [|exact H2]. intros z Hz. qlra.
    + constructor; [now apply IH|]. rewrite qinsert_perm. constructor; [qlra|exact H2].
Qed.
Lemma qsort_sorted l : StronglySorted Qcle (qsort l).
Proof. induction l as [|x r IH]; cbn [qsort]; [constructor|now apply qinsert_sorted]. Qed.
Lemma qsort_length l : length (qsort l) = length l.
Proof. apply Permutation_length, qsort_perm. Qed.

Lemma StronglySorted_filter {A} (R : A -> A -> Prop) f l : StronglySorted R l -> StronglySorted R (filter f l).
Proof.
  induction l as [|x r IH]; cbn [filter]; intro H; [constructor|].
  inversion H as [|? ? H1 H2]; subst. destruct (f x); [|now apply IH].
  constructor; [now apply IH|]. rewrite Forall_forall in *. intros y Hy. apply filter_In in Hy. now apply H2.
Qed.
Lemma StronglySorted_nth {A} (R : A -> A -> Prop) l i j a b :
  StronglySorted R l -> (i < j)%nat -> nth_error l i = Some a -> nth_error l j = Some b -> R a b.
Proof.
  revert i j. induction l as [|x r IH]; intros i j H Hij Hi Hj; [destruct i; discriminate|].
  inversion H as [|? ? H1 H2]; subst. destruct j as [|j]; [lia|]. destruct i as [|i]; cbn in Hi, Hj.
  - injection Hi as <-. apply nth_error_In in Hj. rewrite Forall_forall in H2. now apply H2.
  - apply (IH i j); auto; lia.
Qed.
Lemma ssorted_lt_NoDup l : StronglySorted Qclt l -> NoDup l.
Proof.
  induction 1 as [|x r H1 IH H2]; constructor; [|exact IH].
  intro Hin. rewrite Forall_forall in H2. specialize (H2 _ Hin). qlra.
Qed.

Lemma nth_error_ext_local {A} (l1 l2 : list A) : (forall i, nth_error l1 i = nth_error l2 i) -> l1 = l2.
Proof.
  revert l2. induction l1 as [|x r IH]; intros [|y r2] H; [reflexivity|specialize (H 0%nat); discriminate..|].
  f_equal; [specialize (H 0%nat); cbn in H; congruence|]. apply IH. intro i. apply (H (S i)).
Qed.

(** ** np.arange *)
Lemma arange_nth start stop step i v :
  nth_error (np_arange start stop step) i = Some v ->
  v = start + qz (Z.of_nat i) * step.
Proof.
  unfold np_arange. rewrite nth_error_map. intro H.
  destruct (nth_error (seq _ _) i) as [j|] eqn:E; [|discriminate]. cbn in H. injection H as <-.
  assert (Hi : (i < length (seq 0 (Z.to_nat (qceil ((stop - start) / step)))))%nat)
    by (apply nth_error_Some; congruence).
  rewrite seq_length in Hi. apply (nth_error_nth _ _ 0%nat) in E.
  rewrite seq_nth in E by exact Hi. cbn in E. now subst.
Qed.
Lemma arange_In start stop step v : 0 < step ->
  (In v (np_arange start stop step) <-> exists i : nat, v = start + qz (Z.of_nat i) * step /\ v < stop).
Proof.
  intro Hs. unfold np_arange. rewrite in_map_iff. split.
  - intros (i & <- & Hi). exists i. split; [reflexivity|]. apply in_seq in Hi.
    assert (Hz : (Z.of_nat i <= qceil ((stop - start) / step) - 1)%Z) by lia.
    rewrite <- qz_le in Hz. rewrite qz_minus, qz_1 in Hz. pose proof (qceil_lt ((stop - start) / step)).
    assert (H' : qz (Z.of_nat i) < (stop - start) / step) by qlra.
    apply (qlt_div _ _ _ Hs) in H'. qlra.
  - intros (i & -> & Hlt). exists i. split; [reflexivity|]. apply in_seq.
    assert (H' : qz (Z.of_nat i) < (stop - start) / step).
    { apply (qlt_div _ _ _ Hs). qlra. }
    pose proof (qceil_ge ((stop - start) / step)).
    assert (Hz : qz (Z.of_nat i) < qz (qceil ((stop - start) / step))) by qlra.
    rewrite qz_lt in Hz. lia.
Qed.
Lemma ssorted_map_seq (f : nat -> Qc) :
  (forall i j, (i < j)%nat -> f i < f j) -> forall n k, StronglySorted Qclt (map f (seq k n)).
Proof.
  intros Hf n. induction n as [|n IH]; intro k; cbn [seq map]; constructor; [apply IH|].
  rewrite Forall_forall. intros v Hv. apply in_map_iff in Hv. destruct Hv as (i & <- & Hi).
  apply in_seq in Hi. apply Hf. lia.
Qed.
Lemma arange_sorted start stop step : 0 < step -> StronglySorted Qclt (np_arange start stop step).
Proof.
  intro Hs. unfold np_arange. apply ssorted_map_seq. intros i j Hij.
  assert (Hz : qz (Z.of_nat i) < qz (Z.of_nat j)) by (apply qz_lt; lia).
  apply (qmul_lt_r _ _ step Hs) in Hz. qlra.
Qed.
Lemma arange_nonempty start stop step : 0 < step -> start < stop ->
  nth_error (np_arange start stop step) 0 = Some start.
Proof.
  intros Hs Hlt. unfold np_arange. rewrite nth_error_map.
  assert (H' : 0 < (stop - start) / step) by (apply (qlt_div _ _ _ Hs); rewrite Qcmult_0_l; qlra).
  pose proof (qceil_ge ((stop - start) / step)).
  assert (Hz : qz 0 < qz (qceil ((stop - start) / step))) by (rewrite qz_0; qlra).
  rewrite qz_lt in Hz. destruct (Z.to_nat _) as [|n] eqn:E; [lia|]. cbn.
  f_equal. rewrite qz_0. ring.
Qed.

(** ** np.insert at the searchsorted position *)
Lemma insert_In {A} (l : list A) pos x v : In v (np_insert l pos x) <-> v = x \/ In v l.
Proof.
  unfold np_insert. rewrite in_app_iff. cbn [In]. rewrite <- (firstn_skipn pos l) at 3.
  rewrite in_app_iff. intuition.
Qed.
Lemma searchsorted_split l x : StronglySorted Qclt l ->
  firstn (searchsorted l x) l = filter (fun y => y <? x) l /\
  skipn (searchsorted l x) l = filter (fun y => x <=? y) l.
Proof.
  unfold searchsorted. induction 1 as [|y r H1 IH H2]; [split; reflexivity|].
  cbn [filter]. destruct (qlt_spec y x) as [Hl|Hl].
  - cbn [length firstn skipn]. destruct (qle_spec x y); [qlra|]. destruct IH as [-> ->]. split; reflexivity.
  - assert (E : filter (fun y0 => y0 <? x) r = []).
    { clear IH. induction H2 as [|z r' Hz H2 IH2]; [reflexivity|]. cbn [filter].
      destruct (qlt_spec z x); [exfalso; qlra|]. apply IH2. now inversion H1. }
    rewrite E. cbn [length firstn skipn]. split; [reflexivity|].
    destruct (qle_spec x y); [|qlra]. f_equal. clear IH E.
    induction H2 as [|z r' Hz H2 IH2]; [reflexivity|]. cbn [filter].
    destruct (qle_spec x z); [|exfalso; qlra]. f_equal. apply IH2. now inversion H1.
Qed.
Lemma ssorted_app {A} (R : A -> A -> Prop) l1 l2 :
  StronglySorted R l1 -> StronglySorted R l2 -> (forall a b, In a l1 -> In b l2 -> R a b) ->
  StronglySorted R (l1 ++ l2).
Proof.
  induction 1 as [|x r H1 IH H2]; intros Hs Hr; [exact Hs|]. cbn [app]. constructor.
  - apply IH; [exact Hs|]. intros a b Ha Hb. apply Hr; [now right|exact Hb].
  - rewrite Forall_forall in *. intros y Hy. apply in_app_iff in Hy. destruct Hy as [Hy|Hy].
    + now apply H2.
    + apply Hr; [now left|exact Hy].
Qed.
Lemma insert_sorted l x : StronglySorted Qclt l -> ~ In x l ->
  StronglySorted Qclt (np_insert l (searchsorted l x) x).
Proof.
  intros H Hx. unfold np_insert. destruct (searchsorted_split l x H) as [-> ->].
  apply ssorted_app.
  - now apply StronglySorted_filter.
  - constructor; [now apply StronglySorted_filter|]. rewrite Forall_forall. intros y Hy.
    apply filter_In in Hy. destruct Hy as [Hy E]. qbool.
    destruct (Qc_eq_dec x y); [now subst|]. destruct (Qclt_le_dec x y) as [H'|H']; [exact H'|].
    exfalso. apply n. apply Qcle_antisym; assumption.
  - intros a b Ha [Hb|Hb]; apply filter_In in Ha; destruct Ha as [_ Ha]; qbool.
    + now subst.
    + apply filter_In in Hb. destruct Hb as [_ Hb]. qbool. qlra.
Qed.

(** ** Sums *)
Lemma qsum_app a b : qsum (a ++ b) = qsum a + qsum b.
Proof. induction a as [|x r IH]; cbn [qsum app]; [ring|rewrite IH; ring]. Qed.
Lemma qsum_nonneg l : Forall (fun x => 0 <= x) l -> 0 <= qsum l.
Proof. induction 1; cbn [qsum]; qlra. Qed.
Lemma qsum_le l1 l2 : Forall2 Qcle l1 l2 -> qsum l1 <= qsum l2.
Proof. induction 1; cbn [qsum]; qlra. Qed.

(** ** Minimum, maximum *)
Lemma np_min_spec l m : np_min l = Some m -> In m l /\ forall v, In v l -> m <= v.
Proof.
  destruct l as [|x r]; [discriminate|]. cbn. intro H. injection H as <-.
  induction r as [|y r IH]; cbn [qminl].
  - split; [now left|]. intros v [->|[]]. qlra.
  - destruct IH as [IH1 IH2]. unfold qmin. destruct (qle_spec y (qminl r x)) as [Hl|Hl].
    + split; [right; now left|]. intros v [->|[->|Hv]].
      * specialize (IH2 v (or_introl eq_refl)). qlra.
      * qlra.
      * specialize (IH2 v (or_intror Hv)). qlra.
    + split; [destruct IH1 as [E|Hi]; [now left|right; now right]|].
      intros v [->|[->|Hv]]; [apply IH2; now left|qlra|apply IH2; now right].
Qed.
Lemma np_max_spec l m : np_max l = Some m -> In m l /\ forall v, In v l -> v <= m.
Proof.
  destruct l as [|x r]; [discriminate|]. cbn. intro H. injection H as <-.
  induction r as [|y r IH]; cbn [qmaxl].
  - split; [now left|]. intros v [->|[]]. qlra.
  - destruct IH as [IH1 IH2]. unfold qmax. destruct (qle_spec y (qmaxl r x)) as [Hl|Hl].
    + split; [destruct IH1 as [E|Hi]; [now left|right; now right]|].
      intros v [->|[->|Hv]]; [apply IH2; now left|qlra|apply IH2; now right].
    + split; [right; now left|]. intros v [->|[->|Hv]].
      * specialize (IH2 v (or_introl eq_refl)). qlra.
      * qlra.
      * specialize (IH2 v (or_intror Hv)). qlra.
Qed.
