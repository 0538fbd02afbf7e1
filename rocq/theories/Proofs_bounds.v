(** Bounds, percentiles of the data, variable types (C01-C03, C11). *)
From Verif Require Export Spec_element.

Ltac inv H := inversion H; subst; clear H.

(** ** bind *)
Lemma bind_ok {A B} (r : res A) (f : A -> res B) b : bind r f = Ok b -> exists a, r = Ok a /\ f a = Ok b.
Proof. destruct r as [a|e]; cbn; [eauto|discriminate]. Qed.
Lemma passert_ok b u : passert b = Ok u -> b = true.
Proof. unfold passert. destruct b; [reflexivity|discriminate]. Qed.
Ltac inv_bind H :=
  let a := fresh "r" in let Ha := fresh "Hr" in
  apply bind_ok in H; destruct H as (a & Ha & H).

Tactic Notation "bnd" hyp(H) "as" simple_intropattern(a) ident(Ha) :=
  apply bind_ok in H; destruct H as (a & Ha & H).

(** ** Variable types *)
Lemma is_bit_bool v : ((v =? 0) || (v =? 1)) = true <-> is_bit v.
Proof. rewrite orb_true_iff, !qeq_iff. reflexivity. Qed.
Lemma forallb_bits l : forallb (fun v => (v =? 0) || (v =? 1)) l = true <-> Forall is_bit l.
Proof. rewrite forallb_forall, Forall_forall. split; intros H v Hv; apply is_bit_bool; auto. Qed.
Lemma forallb_ints l : forallb is_integer l = true <-> Forall is_int l.
Proof. rewrite forallb_forall, Forall_forall. split; intros H v Hv; apply is_integer_iff, H, Hv. Qed.
Lemma is_bit_int v : is_bit v -> is_int v.
Proof. intros [->| ->]; [exists 0%Z|exists 1%Z]; [now rewrite qz_0|now rewrite qz_1]. Qed.

Lemma dvt_bool l : determine_variable_type l = TBool <-> bool_column l.
Proof.
  unfold determine_variable_type, bool_column. rewrite <- forallb_bits.
  destruct (forallb is_integer l) eqn:E1, (forallb (fun v => (v =? 0) || (v =? 1)) l) eqn:E2; split; try discriminate; try reflexivity.
  intros _. apply forallb_bits in E2. apply not_true_iff_false in E1. exfalso. apply E1.
  apply forallb_ints. eapply Forall_impl; [|exact E2]. apply is_bit_int.
Qed.
Lemma dvt_int l : determine_variable_type l = TInt <-> int_column l.
Proof.
  unfold determine_variable_type, int_column. rewrite <- forallb_bits, <- forallb_ints.
  destruct (forallb is_integer l), (forallb (fun v => (v =? 0) || (v =? 1)) l); split; try discriminate; try reflexivity; intuition congruence.
Qed.
Lemma dvt_float l : determine_variable_type l = TFloat <-> ~ bool_column l /\ ~ int_column l.
Proof.
  rewrite <- dvt_bool, <- dvt_int. destruct (determine_variable_type l); intuition congruence.
Qed.

(** ** np.percentile *)
Lemma sorted_perm_unique s1 s2 : StronglySorted Qcle s1 -> StronglySorted Qcle s2 -> Permutation s1 s2 -> s1 = s2.
Proof.
  revert s2. induction s1 as [|x r IH]; intros s2 H1 H2 HP.
  - now apply Permutation_nil in HP.
  - destruct s2 as [|y r2]; [now apply Permutation_sym, Permutation_nil in HP|].
    inversion H1 as [|? ? H1a H1b]; inversion H2 as [|? ? H2a H2b]; subst.
    assert (Exy : x = y).
    { apply Qcle_antisym.
      - assert (Hy : In y (x :: r)) by (apply (Permutation_in _ (Permutation_sym HP)); now left).
        destruct Hy as [->|Hy]; [apply Qcle_refl|]. rewrite Forall_forall in H1b. auto.
      - assert (Hx : In x (y :: r2)) by (apply (Permutation_in _ HP); now left).
        destruct Hx as [->|Hx]; [apply Qcle_refl|]. rewrite Forall_forall in H2b. auto. }
    subst y. f_equal. apply IH; auto. now apply Permutation_cons_inv in HP.
Qed.

Lemma hundred_pos : 0 < qz 100. Proof. reflexivity. Qed.


Lemma Some_inj {A} (a b : A) : Some a = Some b -> a = b.
Proof. congruence. Qed.

(** The interpolated value at relative position [q] of a sorted list. *)
Definition at_position (s : list Qc) (q p : Qc) : Prop :=
  exists (i : nat) (f lo : Qc),
    0 <= f /\ f < 1 /\ q / qz 100 * (qz (Z.of_nat (length s)) - 1) = qz (Z.of_nat i) + f /\
    nth_error s i = Some lo /\
    ((f = 0 /\ p = lo) \/ (exists hi, nth_error s (S i) = Some hi /\ p = lo + f * (hi - lo))).

Lemma position_range (n : nat) q : (0 < n)%nat -> 0 <= q -> q <= qz 100 ->
  0 <= q / qz 100 * (qz (Z.of_nat n) - 1) /\ q / qz 100 * (qz (Z.of_nat n) - 1) <= qz (Z.of_nat n) - 1.
Proof.
  intros Hn H0 H1.
  assert (Hn' : 0 <= qz (Z.of_nat n) - 1).
  { assert (H : qz 1 <= qz (Z.of_nat n)) by (apply qz_le; lia). rewrite qz_1 in H. qlra. }
  assert (Hq0 : 0 <= q / qz 100) by (apply (qle_div _ _ _ hundred_pos); rewrite Qcmult_0_l; exact H0).
  assert (Hq1 : q / qz 100 <= 1) by (apply (qdiv_le _ _ _ hundred_pos); rewrite Qcmult_1_l; exact H1).
  split.
  - now apply qmul_nonneg.
  - pose proof (qmul_le_r _ _ _ Hn' Hq1) as H. rewrite Qcmult_1_l in H. exact H.
Qed.

Lemma np_percentile_spec values q p : 0 <= q -> q <= qz 100 -> np_percentile values q = Some p -> is_percentile values q p.
Proof.
  intros Hq0 Hq1. unfold np_percentile.
  assert (HP := qsort_perm values). assert (HS := qsort_sorted values).
  revert HP HS. generalize (qsort values) as s. intros s HP HS H.
  destruct s as [|v0 r] eqn:Es; [discriminate|]. rewrite <- Es in *.
  assert (Hlen : (0 < length s)%nat) by (rewrite Es; cbn; lia). clear Es r.
  cbv zeta in H. apply Some_inj in H. rename H into Hp.
  replace (qz (Z.of_nat (length s) - 1)) with (qz (Z.of_nat (length s)) - 1) in Hp
    by (rewrite qz_minus, qz_1; reflexivity).
  destruct (position_range (length s) q Hlen Hq0 Hq1) as [Hp0 Hp1].
  set (pos := q / qz 100 * (qz (Z.of_nat (length s)) - 1)) in *.
  pose proof (qfloor_le pos) as Hf1. pose proof (qfloor_lt pos) as Hf2.
  assert (Hfz : (0 <= qfloor pos)%Z).
  { assert (H : qz (-1) < qz (qfloor pos)) by (change (qz (-1)) with (- (1)); qlra). rewrite qz_lt in H. lia. }
  assert (Hfn : (qfloor pos <= Z.of_nat (length s) - 1)%Z).
  { rewrite <- qz_le, qz_minus, qz_1. qlra. }
  set (i := Z.to_nat (qfloor pos)) in *.
  assert (Hi : (i < length s)%nat) by lia.
  assert (Ei : qz (Z.of_nat i) = qz (qfloor pos)) by (f_equal; lia).
  exists s, i, (pos - qz (qfloor pos)), (nth i s v0).
  split; [exact HP|]. split; [exact HS|]. split; [qlra|]. split; [qlra|]. split; [rewrite Ei; fold pos; ring|].
  split; [now apply nth_error_nth'|].
  destruct (Nat.lt_ge_cases (S i) (length s)) as [HSi|HSi].
  - right. exists (nth (S i) s (nth i s v0)). split; [now apply nth_error_nth'|]. now symmetry.
  - left.
    assert (Hz : (qfloor pos = Z.of_nat (length s) - 1)%Z) by lia.
    assert (Hq : qz (qfloor pos) = qz (Z.of_nat (length s)) - 1) by (rewrite Hz, qz_minus, qz_1; reflexivity).
    split; [apply Qcle_antisym; qlra|].
    rewrite <- Hp, (nth_overflow s (nth i s v0) HSi). ring.
Qed.
Lemma np_percentile_total values q : values <> [] -> exists p, np_percentile values q = Some p.
Proof.
  intro H. unfold np_percentile. pose proof (qsort_length values) as HL.
  destruct (qsort values) as [|v r]; [destruct values; [congruence|discriminate]|]. eauto.
Qed.

Lemma is_percentile_at values q p : is_percentile values q p <-> at_position (qsort values) q p.
Proof.
  split.
  - intros (s & i & f & lo & HP & HS & H).
    assert (E : s = qsort values).
    { apply sorted_perm_unique; [exact HS|apply qsort_sorted|]. now rewrite qsort_perm. }
    subst s. exists i, f, lo. exact H.
  - intros (i & f & lo & H). exists (qsort values), i, f, lo.
    split; [apply qsort_perm|]. split; [apply qsort_sorted|]. exact H.
Qed.

Lemma qz_nat_sandwich (i j : nat) (f g : Qc) : 0 <= f -> g < 1 ->
  qz (Z.of_nat i) + f <= qz (Z.of_nat j) + g -> (i <= j)%nat.
Proof.
  intros Hf Hg H. assert (Hlt : qz (Z.of_nat i) < qz (Z.of_nat j + 1)) by (rewrite qz_plus, qz_1; qlra).
  rewrite qz_lt in Hlt. lia.
Qed.

Lemma ssorted_nth_le s i j a b : StronglySorted Qcle s -> (i <= j)%nat ->
  nth_error s i = Some a -> nth_error s j = Some b -> a <= b.
Proof.
  intros HS Hij Ha Hb. destruct (Nat.eq_dec i j) as [->|Hn].
  - rewrite Ha in Hb. injection Hb as ->. apply Qcle_refl.
  - eapply StronglySorted_nth; [exact HS| |exact Ha|exact Hb]. lia.
Qed.

Lemma at_position_mono s q1 q2 p1 p2 : StronglySorted Qcle s -> q1 <= q2 -> (0 < length s)%nat ->
  at_position s q1 p1 -> at_position s q2 p2 -> p1 <= p2.
Proof.
  intros HS Hq Hlen (i & f & lo & Hf0 & Hf1 & Hi & Hlo & Hp1) (j & g & lo2 & Hg0 & Hg1 & Hj & Hlo2 & Hp2).
  assert (Hpos : qz (Z.of_nat i) + f <= qz (Z.of_nat j) + g).
  { rewrite <- Hi, <- Hj. apply qmul_le_r.
    - assert (H : qz 1 <= qz (Z.of_nat (length s))) by (apply qz_le; lia). rewrite qz_1 in H. qlra.
    - apply (qdiv_le _ _ _ hundred_pos). rewrite qdiv_mul; [exact Hq|]. apply qpos_neq, hundred_pos. }
  pose proof (qz_nat_sandwich _ _ _ _ Hf0 Hg1 Hpos) as Hij.
  assert (Hlow2 : lo2 <= p2).
  { destruct Hp2 as [[_ ->]|(hi2 & Hhi2 & ->)]; [apply Qcle_refl|].
    pose proof (ssorted_nth_le s j (S j) _ _ HS ltac:(lia) Hlo2 Hhi2) as Hle.
    assert (0 <= g * (hi2 - lo2)) by (apply qmul_nonneg; [exact Hg0|qlra]). qlra. }
  destruct (Nat.eq_dec i j) as [->|Hne].
  - rewrite Hlo in Hlo2. injection Hlo2 as <-.
    assert (Hfg : f <= g) by qlra.
    destruct Hp1 as [[-> ->]|(hi1 & Hhi1 & ->)]; [exact Hlow2|].
    destruct Hp2 as [[-> ->]|(hi2 & Hhi2 & ->)].
    + assert (f = 0) by (apply Qcle_antisym; assumption). subst f. rewrite Qcmult_0_l. qlra.
    + rewrite Hhi1 in Hhi2. injection Hhi2 as <-.
      pose proof (ssorted_nth_le s j (S j) _ _ HS ltac:(lia) Hlo Hhi1) as Hle.
      assert (f * (hi1 - lo) <= g * (hi1 - lo)) by (apply qmul_le_r; [qlra|exact Hfg]). qlra.
  - assert (Hup : exists k b, (k <= j)%nat /\ nth_error s k = Some b /\ p1 <= b).
    { destruct Hp1 as [[_ ->]|(hi1 & Hhi1 & ->)].
      - exists i, lo. split; [lia|]. split; [exact Hlo|apply Qcle_refl].
      - exists (S i), hi1. split; [lia|]. split; [exact Hhi1|].
        pose proof (ssorted_nth_le s i (S i) _ _ HS ltac:(lia) Hlo Hhi1) as Hle.
        assert (f * (hi1 - lo) <= 1 * (hi1 - lo)) by (apply qmul_le_r; qlra). qlra. }
    destruct Hup as (k & b & Hk & Hb & Hle).
    pose proof (ssorted_nth_le s k j _ _ HS Hk Hb Hlo2). qlra.
Qed.

Lemma at_position_bounds s q p : StronglySorted Qcle s -> at_position s q p ->
  (exists a, In a s /\ a <= p) /\ (exists b, In b s /\ p <= b).
Proof.
  intros HS (i & f & lo & Hf0 & Hf1 & Hi & Hlo & [[-> ->]|(hi & Hhi & ->)]).
  - apply nth_error_In in Hlo. split; exists lo; (split; [exact Hlo|apply Qcle_refl]).
  - pose proof (ssorted_nth_le s i (S i) _ _ HS ltac:(lia) Hlo Hhi) as Hle.
    split.
    + exists lo. split; [now apply nth_error_In in Hlo|].
      assert (0 <= f * (hi - lo)) by (apply qmul_nonneg; [exact Hf0|qlra]). qlra.
    + exists hi. split; [now apply nth_error_In in Hhi|].
      assert (f * (hi - lo) <= 1 * (hi - lo)) by (apply qmul_le_r; qlra). qlra.
Qed.

Lemma percentile_nonempty values q p : is_percentile values q p -> (0 < length (qsort values))%nat.
Proof.
  intro H. apply is_percentile_at in H. destruct H as (i & f & lo & _ & _ & _ & H & _).
  apply nth_error_Some_length in H || (assert (i < length (qsort values))%nat by (apply nth_error_Some; congruence)); lia.
Qed.
Lemma percentile_mono values q1 q2 p1 p2 : q1 <= q2 ->
  is_percentile values q1 p1 -> is_percentile values q2 p2 -> p1 <= p2.
Proof.
  intros Hq H1 H2. pose proof (percentile_nonempty _ _ _ H1) as Hn. apply is_percentile_at in H1, H2.
  eapply at_position_mono; [apply qsort_sorted|exact Hq|exact Hn|exact H1|exact H2].
Qed.
Lemma percentile_unique values q p1 p2 : is_percentile values q p1 -> is_percentile values q p2 -> p1 = p2.
Proof. intros H1 H2. apply Qcle_antisym; eapply percentile_mono; eauto; apply Qcle_refl. Qed.
Lemma percentile_range values q p : is_percentile values q p ->
  forall mn mx, is_minimum values mn -> is_maximum values mx -> mn <= p /\ p <= mx.
Proof.
  intros H mn mx [_ Hmn] [_ Hmx]. apply is_percentile_at in H.
  destruct (at_position_bounds _ _ _ (qsort_sorted values) H) as [(a & Ha & Hap) (b & Hb & Hpb)].
  apply (Permutation_in _ (qsort_perm values)) in Ha, Hb.
  specialize (Hmn _ Ha). specialize (Hmx _ Hb). split; qlra.
Qed.
Lemma percentile_0 values p : is_percentile values 0 p -> is_minimum values p.
Proof.
  intro H. pose proof (percentile_nonempty _ _ _ H) as Hn. apply is_percentile_at in H.
  destruct H as (i & f & lo & Hf0 & Hf1 & Hi & Hlo & Hp).
  assert (E : 0 / qz 100 * (qz (Z.of_nat (length (qsort values))) - 1) = 0) by (unfold Qcdiv; ring).
  rewrite E in Hi.
  assert (Hi0 : i = 0%nat).
  { assert (H : qz (Z.of_nat i) <= qz 0) by (rewrite qz_0; qlra). rewrite qz_le in H. lia. }
  subst i. cbn [Z.of_nat] in Hi. rewrite qz_0 in Hi. assert (f = 0) by qlra. subst f.
  assert (Elo : p = lo).
  { destruct Hp as [[_ ->]|(hi & _ & ->)]; [reflexivity|ring]. }
  subst p. split.
  - apply nth_error_In in Hlo. apply (Permutation_in _ (qsort_perm values) Hlo).
  - intros v Hv. apply (Permutation_in _ (Permutation_sym (qsort_perm values))) in Hv.
    apply In_nth_error in Hv. destruct Hv as (k & Hk).
    eapply ssorted_nth_le; [apply qsort_sorted| |exact Hlo|exact Hk]. lia.
Qed.
Lemma percentile_100 values p : is_percentile values (qz 100) p -> is_maximum values p.
Proof.
  intro H. pose proof (percentile_nonempty _ _ _ H) as Hn. apply is_percentile_at in H.
  destruct H as (i & f & lo & Hf0 & Hf1 & Hi & Hlo & Hp).
  assert (E : qz 100 / qz 100 = 1) by (apply Qcmult_inv_r; apply qpos_neq, hundred_pos).
  rewrite E, Qcmult_1_l in Hi.
  assert (Hil : (i < length (qsort values))%nat) by (apply nth_error_Some; congruence).
  assert (Hi0 : S i = length (qsort values)).
  { assert (H : qz (Z.of_nat (length (qsort values))) < qz (Z.of_nat i + 2)).
    { rewrite qz_plus. change (qz 2) with (1 + 1). qlra. }
    rewrite qz_lt in H. lia. }
  assert (f = 0).
  { rewrite <- Hi0 in Hi. replace (Z.of_nat (S i)) with (Z.of_nat i + 1)%Z in Hi by lia.
    rewrite qz_plus, qz_1 in Hi. qlra. }
  subst f.
  assert (Elo : p = lo).
  { destruct Hp as [[_ ->]|(hi & _ & ->)]; [reflexivity|ring]. }
  subst p. split.
  - apply nth_error_In in Hlo. apply (Permutation_in _ (qsort_perm values) Hlo).
  - intros v Hv. apply (Permutation_in _ (Permutation_sym (qsort_perm values))) in Hv.
    apply In_nth_error in Hv. destruct Hv as (k & Hk).
    assert (Hkl : (k < length (qsort values))%nat) by (apply nth_error_Some; congruence).
    eapply ssorted_nth_le; [apply qsort_sorted| |exact Hk|exact Hlo]. lia.
Qed.

(** ** Bound arguments *)
Lemma percentile_arg_ok v q : percentile_arg v = Ok q -> py_number v q /\ 0 <= q /\ q <= qz 100.
Proof.
  unfold percentile_arg. intro H.
  assert (K : forall f, match f with Fin q0 => let! _ := passert ((0 <=? q0) && (q0 <=? qz 100)) in Ok q0
                        | _ => Err AssertionError end = Ok q -> f = Fin q /\ 0 <= q /\ q <= qz 100).
  { intros f Hf. destruct f as [q0| | |]; try discriminate. inv_bind Hf. injection Hf as <-.
    apply passert_ok in Hr. apply andb_true_iff in Hr. destruct Hr. qbool. auto. }
  destruct v as [|b|z|f|z|s|l|l|l|t]; try discriminate; cbn in H.
  - apply (K (Fin (if b then 1 else 0))) in H. destruct H as (E & H). injection E as <-. split; [reflexivity|exact H].
  - apply (K (Fin (qz z))) in H. destruct H as (E & H). injection E as <-. split; [reflexivity|exact H].
  - apply K in H. destruct H as (-> & H). split; [reflexivity|exact H].
  - destruct l as [|f [|? ?]]; try discriminate. apply K in H. destruct H as (-> & H).
    split; [reflexivity|exact H].
Qed.
Lemma absolute_arg_ok v d q : absolute_arg v d = Ok q -> py_number v q \/ (v = PNone /\ d = Some q).
Proof.
  unfold absolute_arg. intro H.
  destruct v as [|b|z|f|z|s|l|l|l|t]; try discriminate; cbn in H.
  - right. split; [reflexivity|]. destruct d; cbn in H; [|discriminate]. now injection H as ->.
  - left. now injection H as <-.
  - left. now injection H as <-.
  - left. destruct f; try discriminate. now injection H as <-.
  - left. destruct l as [|f [|? ?]]; try discriminate. destruct f; try discriminate. now injection H as <-.
Qed.

(** [t] is one of the accepted spellings of a bound type. *)
Definition spelled (v : pyval) (t : btype) : Prop :=
  match t with
  | Absolute => v = PStr "a" \/ v = PStr "absolute"
  | Percentile => v = PStr "p" \/ v = PStr "percentile"
  end.
Lemma parse_btype_ok v t : parse_btype v = Ok t -> spelled v t.
Proof.
  destruct v as [| | | | |s| | | |]; try discriminate. cbn.
  destruct (String.eqb s "a") eqn:E1; [apply String.eqb_eq in E1; subst; cbn; intro H; injection H as <-; now left|].
  destruct (String.eqb s "absolute") eqn:E2; [apply String.eqb_eq in E2; subst; cbn; intro H; injection H as <-; now right|].
  cbn [orb].
  destruct (String.eqb s "p") eqn:E3; [apply String.eqb_eq in E3; subst; cbn; intro H; injection H as <-; now left|].
  destruct (String.eqb s "percentile") eqn:E4; [apply String.eqb_eq in E4; subst; cbn; intro H; injection H as <-; now right|].
  discriminate.
Qed.

Lemma rounded_down_spec values l :
  rounded_down values l (match determine_variable_type values with TInt => qz (qfloor l) | _ => l end).
Proof.
  split; intro H.
  - apply dvt_int in H. rewrite H. split; [eexists; reflexivity|]. split; [apply qfloor_le|apply qfloor_lt].
  - rewrite <- dvt_int in H. destruct (determine_variable_type values); congruence.
Qed.
Lemma rounded_up_spec values l :
  rounded_up values l (match determine_variable_type values with TInt => qz (qceil l) | _ => l end).
Proof.
  split; intro H.
  - apply dvt_int in H. rewrite H. split; [eexists; reflexivity|]. split; [apply qceil_ge|apply qceil_lt].
  - rewrite <- dvt_int in H. destruct (determine_variable_type values); congruence.
Qed.

(** The stored bounds: the requested interval, rounded outwards for integer features. *)
Lemma mk_bound_spec values lb ub tv b : mk_bound values lb ub tv = Ok b ->
  spelled tv (b_type b) /\ b_lb b <= b_ub b /\
  exists l u, requests values lb ub (b_type b) l u /\ l <= u /\
    rounded_down values l (b_lb b) /\ rounded_up values u (b_ub b) /\
    (b_type b = Percentile -> py_number lb (b_qlb b) /\ py_number ub (b_qub b) /\
       is_percentile values (b_qlb b) l /\ is_percentile values (b_qub b) u /\
       0 <= b_qlb b /\ b_qlb b <= qz 100 /\ 0 <= b_qub b /\ b_qub b <= qz 100).
Proof.
  unfold mk_bound. intro H. bnd H as t Hr. bnd H as [[[l u] ql] qu] Hr0.
  apply parse_btype_ok in Hr. bnd H as tt0 Hr1. apply passert_ok in Hr1. qbool.
  assert (Eb : b = {| b_type := t;
                     b_lb := match determine_variable_type values with TInt => qz (qfloor l) | _ => l end;
                     b_ub := match determine_variable_type values with TInt => qz (qceil u) | _ => u end;
                     b_qlb := ql; b_qub := qu |})
    by (destruct (determine_variable_type values); injection H as <-; reflexivity).
  subst b. cbn [b_type b_lb b_ub b_qlb b_qub].
  split; [exact Hr|]. split.
  { destruct (determine_variable_type values); try assumption.
    pose proof (qfloor_le l). pose proof (qceil_ge u). qlra. }
  exists l, u.
  assert (Hreq : requests values lb ub t l u /\ (t = Percentile -> py_number lb ql /\ py_number ub qu /\
     is_percentile values ql l /\ is_percentile values qu u /\ 0 <= ql /\ ql <= qz 100 /\ 0 <= qu /\ qu <= qz 100)).
  { destruct t.
    - bnd Hr0 as a1 Hr2. bnd Hr0 as a2 Hr3. injection Hr0 as <- <- <- <-.
      apply absolute_arg_ok in Hr2, Hr3. split; [|discriminate]. split.
      + destruct Hr2 as [H2|[H2 H2']]; [now left|right]. split; [exact H2|]. now apply np_min_spec.
      + destruct Hr3 as [H2|[H2 H2']]; [now left|right]. split; [exact H2|]. now apply np_max_spec.
    - bnd Hr0 as a1 H1. bnd Hr0 as a2 H2. bnd Hr0 as p1 H3. bnd Hr0 as p2 H4. injection Hr0 as <- <- <- <-.
      apply percentile_arg_ok in H1, H2. destruct H1 as (N1 & B1 & B2), H2 as (N2 & B3 & B4).
      destruct (np_percentile values a1) as [p1'|] eqn:P1; [|discriminate].
      destruct (np_percentile values a2) as [p2'|] eqn:P2; [|discriminate].
      cbn in H3, H4. injection H3 as ->. injection H4 as ->.
      apply np_percentile_spec in P1, P2; auto.
      split; [exists a1, a2; intuition|]. intuition. }
  destruct Hreq as [Hreq Hpct].
  split; [exact Hreq|]. split; [assumption|].
  split; [apply rounded_down_spec|]. split; [apply rounded_up_spec|]. exact Hpct.
Qed.
