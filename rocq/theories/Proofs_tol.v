(** Solver answers that are right up to a tolerance: rounding them gives choices of one option per feature. *)
From Verif Require Import Proofs_num Proofs_props_element Proofs_props_actionset Spec_tolerance Proofs_mip Proofs_info Proofs_vec Proofs_build Proofs_enum.
#[local] Open Scope list_scope.
#[local] Open Scope Qc_scope.

(** ** Sums of nearby numbers *)
Lemma mul_le_l d a b : 0 <= d -> a <= b -> d * a <= d * b.
Proof. intros H1 H2. rewrite (Qcmult_comm d a), (Qcmult_comm d b). now apply Qcmult_le_compat_r. Qed.
Lemma qabs_mul a b : qabs (a * b) = qabs a * qabs b.
Proof.
  unfold qabs. destruct (qle_spec 0 a) as [Ha|Ha], (qle_spec 0 b) as [Hb|Hb].
  - assert (0 <= a * b) by (rewrite <- (Qcmult_0_l b); now apply Qcmult_le_compat_r). destruct (qle_spec 0 (a * b)); [ring|qlra].
  - assert (a * b <= 0) by (assert (0 <= a * (- b)) by (rewrite <- (Qcmult_0_l (- b)); apply Qcmult_le_compat_r; qlra); replace (a * b) with (- (a * - b)) by ring; qlra).
    destruct (qle_spec 0 (a * b)); [replace (a * b) with 0 by (apply Qcle_antisym; qlra); assert (a * - b = - (a * b)) by ring; assert (Z0 : a * b = 0) by (apply Qcle_antisym; qlra); replace (a * - b) with (- (a * b)) by ring; rewrite Z0; ring|ring].
  - assert (a * b <= 0) by (assert (0 <= (- a) * b) by (rewrite <- (Qcmult_0_l b); apply Qcmult_le_compat_r; qlra); replace (a * b) with (- (- a * b)) by ring; qlra).
    destruct (qle_spec 0 (a * b)); [assert (Z0 : a * b = 0) by (apply Qcle_antisym; qlra); replace (- a * b) with (- (a * b)) by ring; rewrite Z0; ring|ring].
  - assert (0 <= a * b) by (replace (a * b) with ((- a) * (- b)) by ring; rewrite <- (Qcmult_0_l (- b)); apply Qcmult_le_compat_r; qlra). destruct (qle_spec 0 (a * b)); [ring|qlra].
Qed.
Lemma qabs_plus a b : qabs (a + b) <= qabs a + qabs b.
Proof. unfold qabs. destruct (qle_spec 0 a), (qle_spec 0 b), (qle_spec 0 (a + b)); qlra. Qed.
Lemma eval_near s r d e : (forall c v, In (c, v) e -> qabs (s v - r v) <= d) ->
  qabs (eval s e - eval r e) <= d * qsum (map (fun p => qabs (fst p)) e).
Proof.
  induction e as [|[c v] e IH]; intro H.
  - rewrite !eval_nil. cbn [map qsum]. apply qabs_le. split; qlra.
  - rewrite !eval_cons. cbn [map qsum fst]. specialize (IH ltac:(intros; eapply H; right; eassumption)).
    specialize (H c v (or_introl eq_refl)).
    replace (c * s v + eval s e - (c * r v + eval r e)) with (c * (s v - r v) + (eval s e - eval r e)) by ring.
    pose proof (qabs_plus (c * (s v - r v)) (eval s e - eval r e)) as K. rewrite qabs_mul in K.
    assert (qabs c * qabs (s v - r v) <= qabs c * d) by (apply mul_le_l; [apply qabs_nonneg|exact H]).
    replace (d * (qabs c + qsum (map (fun p => qabs (fst p)) e))) with (qabs c * d + d * qsum (map (fun p => qabs (fst p)) e)) by ring. qlra.
Qed.

(** ** Nearly binary numbers *)
Definition half : Qc := qfrac 1 2.
Definition rnd (q : Qc) : Qc := if half <=? q then 1 else 0.
Definition nearly_bit (d q : Qc) : Prop := qabs q <= d \/ qabs (q - 1) <= d.
Lemma rnd_bit q : bit (rnd q).
Proof. unfold rnd. destruct (half <=? q); [now right|now left]. Qed.
Lemma two_halves : half + half = 1.
Proof. apply Qc_is_canon. reflexivity. Qed.
Lemma rnd_near d q : d < half -> nearly_bit d q -> qabs (q - rnd q) <= d.
Proof.
  intros Hd H. pose proof two_halves as T. unfold rnd. destruct (qle_spec half q) as [L|L], H as [H|H]; try exact H.
  - apply qabs_le in H; destruct H as [H H0]. exfalso. qlra.
  - apply qabs_le in H; destruct H as [H H0]. apply qabs_le. split; qlra.
  - apply qabs_le in H; destruct H as [H H0]. exfalso. qlra.
Qed.
Lemma bits_qz l : Forall bit l -> exists z, qsum l = qz z.
Proof.
  induction 1 as [|q l Hq HF (z & Hz)]; [exists 0%Z; reflexivity|]. cbn [qsum]. rewrite Hz.
  destruct Hq as [->| ->]; [exists z; ring|exists (1 + z)%Z; now rewrite qz_plus].
Qed.
Lemma qz_near z z' e : e < 1 -> qz z - e <= qz z' -> (z <= z')%Z.
Proof.
  intros He H. destruct (Z_le_gt_dec z z') as [L|G]; [exact L|exfalso]. assert (K : qz (z' + 1) <= qz z) by (apply qz_le; lia).
  rewrite qz_plus in K. change (qz 1) with 1 in K. qlra.
Qed.
Lemma ones_sum {A} (l : list A) : qsum (map (fun _ => 1) l) = qz (Z.of_nat (length l)).
Proof. induction l as [|a l IH]; [reflexivity|]. cbn [map qsum length]. rewrite IH, Nat2Z.inj_succ, <- Z.add_1_l, qz_plus. reflexivity. Qed.

(** ** Choices near a point *)
Definition near_agree (d : Qc) (infos : list info) (s : assignment) (ch : choice) : Prop :=
  ch_ok infos ch /\ forall i, In i infos ->
    (forall k, (k < nopt i)%nat -> qabs (s (VU (i_idx i) k) - hot (ch (i_idx i)) k) <= d) /\
    qabs (s (VA (i_idx i)) - act i (ch (i_idx i))) <= d + d * qsum (map qabs (i_actions i)).
Definition ch_near (infos : list info) (s : assignment) : choice := ch_of infos (fun v => rnd (s v)).
Definition fine_infos (d : Qc) (infos : list info) : Prop := 0 <= d /\ forall i, In i infos -> d * qz (1 + Z.of_nat (nopt i)) < 1.

Lemma fine_half d infos i : wf_infos infos -> fine_infos d infos -> In i infos -> d < half.
Proof.
  intros HW [H0 H] Hi. specialize (H i Hi). pose proof (wi_len _ (wfi' infos HW i Hi)) as L. pose proof two_halves as T.
  assert (K : d * qz 2 <= d * qz (1 + Z.of_nat (nopt i))) by (apply mul_le_l; [exact H0|apply qz_le; lia]).
  destruct (qle_spec half d) as [G|G]; [|exact G]. exfalso. assert (qz 2 = 1 + 1) by reflexivity. assert (d * qz 2 = d + d) by (rewrite H1; ring). qlra.
Qed.
Lemma sum_abs_ones e : (forall c v, In (c, v) e -> c = 1 \/ c = - (1)) -> qsum (map (fun p : Qc * mvar => qabs (fst p)) e) = qz (Z.of_nat (length e)).
Proof.
  intro H. rewrite <- ones_sum. f_equal. apply map_ext_in. intros [c v] Hin. destruct (H c v Hin) as [->| ->]; reflexivity.
Qed.

Section Round.
Context (bk : backend) (ct : cost_type) (infos : list info) (W : wf_infos infos) (d : Qc) (HD : fine_infos d infos).

Lemma tol_agree m s : shape bk ct infos m -> meets_within d m s -> near_agree d infos s (ch_near infos s).
Proof.
  intros SH (HV & HR & _). rewrite Forall_forall in HV, HR.
  assert (HN : forall i k, In i infos -> (k < nopt i)%nat -> qabs (s (VU (i_idx i) k) - rnd (s (VU (i_idx i) k))) <= d).
  { intros i k Hi Hk. apply rnd_near; [eapply fine_half; eauto|]. destruct (sh_u _ _ _ _ SH i k Hi Hk) as (b & Hd). destruct (HV _ Hd) as (Hb & _). exact (Hb eq_refl). }
  assert (K : forall i, In i infos -> exists c, (c < nopt i)%nat /\ forall k, (k < nopt i)%nat -> rnd (s (VU (i_idx i) k)) = hot c k).
  { intros i Hi. destruct (bits_sum1 (map (fun v => rnd (s v)) (uvars i))) as (c & Hc & Hk).
    - rewrite Forall_forall. intros q Hq. apply in_map_iff in Hq. destruct Hq as (v & <- & _). apply rnd_bit.
    - assert (HP : row_within d s (pick_row i)) by (apply HR, (sh_struct _ _ _ _ SH i); [exact Hi|right; now left]).
      destruct HP as [P1 P2]. specialize (P1 1 eq_refl). specialize (P2 1 eq_refl). cbn [pick_row row_eq r_terms] in P1, P2.
      pose proof (eval_near s (fun v => rnd (s v)) d (sum_of (uvars i))) as EN. rewrite sum_abs_ones in EN.
      2:{ intros c v Hin. unfold sum_of in Hin. apply in_map_iff in Hin. destruct Hin as (v' & E1 & _). apply pair_equal_spec in E1. left. symmetry. apply E1. }
      assert (EL : length (sum_of (uvars i)) = nopt i) by (unfold sum_of, uvars, nopt; now rewrite !map_length, seq_length). rewrite EL in EN.
      assert (EN' : qabs (eval s (sum_of (uvars i)) - eval (fun v => rnd (s v)) (sum_of (uvars i))) <= d * qz (Z.of_nat (nopt i))).
      { apply EN. intros c v Hin. unfold sum_of in Hin. apply in_map_iff in Hin. destruct Hin as (v' & E1 & Hv). apply pair_equal_spec in E1. destruct E1 as [_ <-].
        unfold uvars in Hv. apply in_map_iff in Hv. destruct Hv as (k & <- & Hk). apply in_seq in Hk. apply HN; [exact Hi|unfold nopt; lia]. }
      apply qabs_le in EN'. rewrite (eval_sum_of (fun v => rnd (s v))) in EN'. destruct EN' as [EN1 EN2].
      destruct (bits_qz (map (fun v => rnd (s v)) (uvars i))) as (z & Hz).
      { rewrite Forall_forall. intros q Hq. apply in_map_iff in Hq. destruct Hq as (v & <- & _). apply rnd_bit. }
      rewrite Hz in *. pose proof (proj2 HD i Hi) as F. rewrite qz_plus in F. change (qz 1) with 1 in F.
      assert (F' : d * (1 + qz (Z.of_nat (nopt i))) = d + d * qz (Z.of_nat (nopt i))) by ring.
      assert (z = 1)%Z; [|subst z; reflexivity].
      assert (1 <= z)%Z by (apply (qz_near _ _ (d + d * qz (Z.of_nat (nopt i)))); change (qz 1) with 1; qlra).
      assert (z <= 1)%Z by (apply (qz_near _ _ (d + d * qz (Z.of_nat (nopt i)))); change (qz 1) with 1; qlra). lia.
    - unfold uvars in Hc, Hk. rewrite !map_length, seq_length in *. exists c. split; [exact Hc|]. intros k Hk'.
      specialize (Hk k). unfold nopt in Hk'. rewrite (proj2 (Nat.ltb_lt _ _) Hk') in Hk. rewrite <- Hk.
      rewrite map_map. rewrite (nth_indep _ 0 (rnd (s (VU (i_idx i) 0)))) by (now rewrite map_length, seq_length).
      rewrite (map_nth (fun k => rnd (s (VU (i_idx i) k)))). now rewrite seq_nth. }
  assert (C : forall i, In i infos -> (ch_near infos s (i_idx i) < nopt i)%nat /\
             forall k, (k < nopt i)%nat -> rnd (s (VU (i_idx i) k)) = hot (ch_near infos s (i_idx i)) k).
  { intros i Hi. destruct (K i Hi) as (c & Hc & Hk). unfold ch_near, ch_of. rewrite (info_at_In _ _ (proj2 W) Hi).
    rewrite (find_hot c) by assumption. auto. }
  split; [intros i Hi; apply (C i Hi)|]. intros i Hi. destruct (C i Hi) as [Hc Hu].
  assert (HN' : forall k, (k < nopt i)%nat -> qabs (s (VU (i_idx i) k) - hot (ch_near infos s (i_idx i)) k) <= d).
  { intros k Hk. rewrite <- Hu by exact Hk. now apply HN. }
  split; [exact HN'|].
  assert (HS : row_within d s (set_row bk i)) by (apply HR, (sh_struct _ _ _ _ SH i); [exact Hi|now left]).
  pose proof (wfi' infos W i Hi) as Wi. set (c := ch_near infos s (i_idx i)) in *.
  pose proof (eval_near s (assign infos (fun _ => c)) d (combine (i_actions i) (uvars i))) as EN.
  assert (E0 : eval (assign infos (fun _ => c)) (combine (i_actions i) (uvars i)) = act i c).
  { unfold uvars. rewrite (eval_hot _ (i_idx i) (i_actions i) 0 c) by reflexivity.
    cbn [Nat.leb andb plus]. unfold nopt in Hc. rewrite (proj2 (Nat.ltb_lt _ _) Hc). now rewrite Nat.sub_0_r. }
  assert (E1 : qsum (map (fun p : Qc * mvar => qabs (fst p)) (combine (i_actions i) (uvars i))) = qsum (map qabs (i_actions i))).
  { f_equal. rewrite <- (map_map fst qabs). f_equal. assert (LU : length (i_actions i) = length (uvars i)) by (unfold uvars; now rewrite map_length, seq_length).
    revert LU. generalize (uvars i). generalize (i_actions i). induction l as [|q l IH]; intros [|v vs] LU; try discriminate LU; [reflexivity|]. cbn [combine map fst]. f_equal. apply IH. now injection LU. }
  rewrite E0, E1 in EN. specialize (EN ltac:(intros q v Hin; apply in_combine_r in Hin; unfold uvars in Hin; apply in_map_iff in Hin; destruct Hin as (k & <- & Hk); apply in_seq in Hk; cbn [assign]; apply HN'; unfold nopt; lia)).
  apply qabs_le in EN. destruct EN as [EN1 EN2]. destruct HS as [S1 S2]. apply qabs_le. destruct bk; specialize (S1 0 eq_refl); specialize (S2 0 eq_refl); cbn [set_row row_eq r_terms] in S1, S2.
  - rewrite eval_cons in S1, S2. split; qlra.
  - rewrite eval_app, eval_cons, eval_nil in S1, S2. split; qlra.
Qed.

(** Rows that count indicators. *)
Definition counting (N : nat) (r : row) : Prop :=
  (length (r_terms r) <= N)%nat /\
  (forall c v, In (c, v) (r_terms r) -> (c = 1 \/ c = - (1)) /\ exists i k, In i infos /\ (k < nopt i)%nat /\ v = VU (i_idx i) k) /\
  (forall b, r_lo r = Some b -> exists z, b = qz z) /\ (forall b, r_hi r = Some b -> exists z, b = qz z).
Lemma eval_count_int ch e : (forall c v, In (c, v) e -> (c = 1 \/ c = - (1)) /\ exists i k, In i infos /\ (k < nopt i)%nat /\ v = VU (i_idx i) k) ->
  exists z, eval (assign infos ch) e = qz z.
Proof.
  induction e as [|[c v] e IH]; intro H; [exists 0%Z; reflexivity|]. destruct IH as (z & Hz); [intros; eapply H; right; eassumption|].
  rewrite eval_cons, Hz. destruct (H c v (or_introl eq_refl)) as [Hc (i & k & _ & _ & ->)]. cbn [assign].
  destruct (hot_bit (ch (i_idx i)) k) as [->| ->]; [exists z; ring|]. destruct Hc as [->| ->]; [exists (1 + z)%Z|exists (-1 + z)%Z]; rewrite qz_plus; [change (qz 1) with 1|change (qz (-1)) with (- (1))]; ring.
Qed.
Lemma counting_ok s ch N r : near_agree d infos s ch -> d * qz (1 + Z.of_nat N) < 1 -> counting N r -> row_within d s r -> row_ok (assign infos ch) r = true.
Proof.
  intros [HC HA] HN (L & HT & HL & HH) [R1 R2]. destruct (eval_count_int ch _ HT) as (z & Hz).
  pose proof (eval_near s (assign infos ch) d (r_terms r)) as EN. rewrite sum_abs_ones in EN by (intros c v Hin; apply (HT c v Hin)). rewrite Hz in EN.
  specialize (EN ltac:(intros c v Hin; destruct (HT c v Hin) as [_ (i & k & Hi & Hk & ->)]; cbn [assign]; now apply HA)).
  apply qabs_le in EN. destruct EN as [EN1 EN2]. assert (D : d * qz (Z.of_nat (length (r_terms r))) <= d * qz (Z.of_nat N)) by (apply mul_le_l; [apply HD|apply qz_le; lia]).
  rewrite qz_plus in HN. change (qz 1) with 1 in HN. assert (F' : d * (1 + qz (Z.of_nat N)) = d + d * qz (Z.of_nat N)) by ring.
  unfold row_ok. rewrite Hz. apply andb_true_iff. split.
  - destruct (r_lo r) as [b|] eqn:E; [|reflexivity]. destruct (HL b eq_refl) as (zb & ->). specialize (R1 _ eq_refl). apply qle_iff, qz_le.
    apply (qz_near _ _ (d + d * qz (Z.of_nat N))); qlra.
  - destruct (r_hi r) as [b|] eqn:E; [|reflexivity]. destruct (HH b eq_refl) as (zb & ->). specialize (R2 _ eq_refl). apply qle_iff, qz_le.
    apply (qz_near _ _ (d + d * qz (Z.of_nat N))); qlra.
Qed.
End Round.
