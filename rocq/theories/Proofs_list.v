(** The list of items a new flipset gets (C126). *)
From Verif Require Import Proofs_props_element Proofs_props_actionset Spec_list Spec_minimal Proofs_mip Proofs_info Proofs_vec Proofs_build Proofs_enum Proofs_session Proofs_recourse Proofs_subset Proofs_exchange Proofs_concrete Proofs_builder Proofs_builder2 Proofs_builder3 Proofs_builder4 Proofs_builder5 Proofs_builder6 Proofs_builder7 Proofs_builder8 Proofs_flipset Proofs_flipset2 Proofs_flipset3 Proofs_agree Proofs_minimal.
#[local] Open Scope list_scope.
#[local] Open Scope Qc_scope.

Lemma number_at : forall (l : list Qc) s j v, nth_error l j = Some v -> nth_error (combine (seq s (length l)) l) j = Some ((s + j)%nat, v).
Proof. induction l as [|u l IH]; intros s [|j] v H; cbn in *; try discriminate H; [injection H as ->; f_equal; f_equal; lia|]. rewrite (IH (S s) j v H). f_equal. f_equal. lia. Qed.
(** ** The part of a way that helps *)
Section Trim.
Context (E : env) (A : action_set) (w x : list Qc) (t : Qc) (HE : ok_env E) (HA : wf_aset E A) (Hw : length w = as_len A) (Hx : length x = as_len A).

Definition keeps (j : nat) (wj aj : Qc) : bool :=
  match nth_error (as_names A) j with Some nm => smem nm (constrained_names E (as_cons A)) | None => false end ||
  (if (0 <? as_y A)%Z then 0 <? wj * aj else wj * aj <? 0).
Definition trim (a : list Qc) : list Qc := map (fun p => if keeps (fst p) (nth (fst p) w 0) (snd p) then snd p else 0) (combine (seq 0 (length a)) a).
Lemma trim_len a : length (trim a) = length a.
Proof. unfold trim. rewrite map_length, combine_length, seq_length. lia. Qed.
Lemma trim_at a j aj wj : nth_error a j = Some aj -> nth_error w j = Some wj -> nth_error (trim a) j = Some (if keeps j wj aj then aj else 0).
Proof.
  intros Ha Hwj. unfold trim. rewrite nth_error_map.
  assert (K : nth_error (combine (seq 0 (length a)) a) j = Some (j, aj)).
  { exact (number_at a 0%nat j aj Ha). }
  rewrite K. cbn. now rewrite (nth_error_nth _ _ 0 Hwj).
Qed.
Lemma keeps_spec j wj aj : keeps j wj aj = true <-> constrained_at A j \/ attains (as_y A) (wj * aj).
Proof.
  unfold keeps, attains. rewrite orb_true_iff. destruct (nth_error (as_names A) j) as [nm|] eqn:En.
  - rewrite smem_iff. rewrite <- (constrained_iff E A j nm HE HA En). destruct (0 <? as_y A)%Z; rewrite qlt_iff; reflexivity.
  - split; intros [H|H]; try discriminate H.
    + right. destruct (0 <? as_y A)%Z; apply qlt_iff in H; exact H.
    + destruct (constrained_lt E A j HA H) as (nm & K). congruence.
    + right. destruct (0 <? as_y A)%Z; apply qlt_iff; exact H.
Qed.
Lemma w_at a j aj : permitted_action A x a -> nth_error a j = Some aj -> exists wj, nth_error w j = Some wj.
Proof. intros [L _] Ha. destruct (nth_error w j) as [wj|] eqn:Ew; [eauto|]. apply nth_error_None in Ew. assert (j < length a)%nat by (apply nth_error_Some; congruence). lia. Qed.
Lemma trim_permitted a : permitted_action A x a -> permitted_action A x (trim a).
Proof.
  intro HP. pose proof HP as [L P]. split; [now rewrite trim_len|]. intros j e xj aj' He Hxj Ha'.
  assert (Lj : (j < length a)%nat) by (rewrite <- trim_len; apply nth_error_Some; congruence).
  destruct (nth_error a j) as [aj|] eqn:Ha; [|apply nth_error_None in Ha; lia]. destruct (w_at a j aj HP Ha) as (wj & Hwj).
  rewrite (trim_at a j aj wj Ha Hwj) in Ha'. injection Ha' as <-. destruct (keeps j wj aj); [exact (P j e xj aj He Hxj Ha)|]. left. ring.
Qed.
Lemma trim_changes a j : permitted_action A x a -> changes (trim a) j -> changes a j.
Proof.
  intros HP (aj' & Ha' & N). assert (Lj : (j < length a)%nat) by (rewrite <- trim_len; apply nth_error_Some; congruence).
  destruct (nth_error a j) as [aj|] eqn:Ha; [|apply nth_error_None in Ha; lia]. destruct (w_at a j aj HP Ha) as (wj & Hwj).
  rewrite (trim_at a j aj wj Ha Hwj) in Ha'. injection Ha' as <-. destruct (keeps j wj aj); [exists aj; auto|congruence].
Qed.
Lemma trim_worthwhile a : permitted_action A x a -> worthwhile A w (trim a).
Proof.
  intros HP j wj aj' Hwj Ha' N. assert (Lj : (j < length a)%nat) by (rewrite <- trim_len; apply nth_error_Some; congruence).
  destruct (nth_error a j) as [aj|] eqn:Ha; [|apply nth_error_None in Ha; lia].
  rewrite (trim_at a j aj wj Ha Hwj) in Ha'. injection Ha' as <-. destruct (keeps j wj aj) eqn:Ek; [now apply keeps_spec|congruence].
Qed.
Lemma vadd_nth u v j p q : nth_error u j = Some p -> nth_error v j = Some q -> nth_error (vadd u v) j = Some (p + q).
Proof. revert v j. induction u as [|a u IH]; intros [|b v] [|j] H1 H2; cbn in *; try discriminate H1; try discriminate H2; [injection H1 as ->; injection H2 as ->; reflexivity|eauto]. Qed.
Lemma vadd_at u v j r : length v = length u -> nth_error (vadd u v) j = Some r -> exists p q, nth_error u j = Some p /\ nth_error v j = Some q /\ r = p + q.
Proof. revert v j. induction u as [|a u IH]; intros [|b v] [|j] HL H1; cbn in *; try discriminate H1; try discriminate HL; [injection H1 as <-; eauto|]. apply (IH v j); [lia|exact H1]. Qed.
Lemma vadd_length u v : length v = length u -> length (vadd u v) = length u.
Proof. revert v. induction u as [|a u IH]; intros [|b v] HL; cbn in *; try discriminate HL; [reflexivity|]. f_equal. apply IH. lia. Qed.
Lemma trim_side a : permitted_action A x a -> on_side (as_y A) (score w t (vadd x a)) -> on_side (as_y A) (score w t (vadd x (trim a))).
Proof.
  intros HP. pose proof HP as [L _]. unfold on_side, score. intro H.
  assert (Q : forall j c u v, nth_error w j = Some c -> nth_error (vadd x a) j = Some u -> nth_error (vadd x (trim a)) j = Some v -> harmful (as_y A) (c * u - c * v)).
  { intros j c u v Hc Hu Hv. destruct (vadd_at x a j u) as (p & q & Hp & Hq & ->); [congruence|exact Hu|].
    rewrite (vadd_nth x (trim a) j p _ Hp (trim_at a j q c Hq Hc)) in Hv. injection Hv as <-. destruct (keeps j c q) eqn:Ek.
    - unfold harmful. replace (c * (p + q) - c * (p + q)) with 0 by ring. destruct (0 <? as_y A)%Z; apply Qcle_refl.
    - replace (c * (p + q) - c * (p + 0)) with (c * q) by ring. unfold keeps in Ek. apply orb_false_iff in Ek. destruct Ek as [_ Ek]. unfold harmful. destruct (0 <? as_y A)%Z; qbool; exact Ek. }
  assert (L1 : length (vadd x a) = length w) by (rewrite vadd_length; congruence). assert (L2 : length (vadd x (trim a)) = length w) by (rewrite vadd_length; rewrite ?trim_len; congruence).
  unfold harmful in Q. destruct (0 <? as_y A)%Z.
  - assert (K : dot w (vadd x a) <= dot w (vadd x (trim a))). { apply dot_le; auto. intros j c u v Hc Hu Hv. specialize (Q j c u v Hc Hu Hv). qlra. }
    qlra.
  - assert (K : dot w (vadd x (trim a)) <= dot w (vadd x a)). { apply dot_le; auto. intros j c v u Hc Hv Hu. specialize (Q j c u v Hc Hu Hv). qlra. }
    qlra.
Qed.
Lemma trim_compliant a : permitted_action A x a -> compliant A x a -> compliant A x (trim a).
Proof.
  intros HP HC id c Hst. pose proof HP as [L _]. specialize (HC id c Hst). replace (n_on (vadd x (trim a)) (c_indices c)) with (n_on (vadd x a) (c_indices c)); [exact HC|].
  unfold n_on. f_equal. apply filter_ext_in. intros j Hj. f_equal. f_equal.
  assert (CA : constrained_at A j) by (exists id, c; auto).
  destruct (nth_error a j) as [aj|] eqn:Ha.
  - destruct (w_at a j aj HP Ha) as (wj & Hwj). assert (Lj : (j < length x)%nat) by (rewrite Hx, <- Hw; apply nth_error_Some; congruence).
    destruct (nth_error x j) as [xj|] eqn:Exj; [|apply nth_error_None in Exj; lia].
    rewrite (nth_error_nth _ _ 0 (vadd_nth _ _ _ _ _ Exj Ha)). rewrite (nth_error_nth _ _ 0 (vadd_nth _ _ _ _ _ Exj (trim_at a j aj wj Ha Hwj))).
    assert (K : keeps j wj aj = true) by (apply keeps_spec; now left). now rewrite K.
  - apply nth_error_None in Ha. rewrite !nth_overflow; [reflexivity|rewrite vadd_length; rewrite ?trim_len; lia|rewrite vadd_length; lia].
Qed.
Lemma trim_costs ct a cs : density E -> log_ok E ct -> regular E A x -> permitted_action A x a -> action_costs E ct A x a cs ->
  exists cs', action_costs E ct A x (trim a) cs' /\ qsum cs' <= qsum cs.
Proof.
  intros HD HL [HR _] HP [Lc HC]. pose proof HP as [L P].
  assert (LE : length (as_elems A) = as_len A) by (eapply wf_len, HA).
  exists (map (fun p => if nth (fst p) (trim a) 0 =? 0 then 0 else snd p) (combine (seq 0 (length cs)) cs)).
  assert (Q : forall j c, nth_error cs j = Some c -> nth_error (map (fun p => if nth (fst p) (trim a) 0 =? 0 then 0 else snd p) (combine (seq 0 (length cs)) cs)) j = Some (if nth j (trim a) 0 =? 0 then 0 else c)).
  { intros j c Hc. rewrite nth_error_map.
    rewrite (number_at cs 0%nat j c Hc). reflexivity. }
  assert (LQ : length (map (fun p => if nth (fst p) (trim a) 0 =? 0 then 0 else snd p) (combine (seq 0 (length cs)) cs)) = length cs) by (rewrite map_length, combine_length, seq_length; lia).
  split.
  - split; [rewrite LQ, trim_len; exact Lc|]. intros j e xj aj' c' He Hxj Ha' Hc'.
    assert (Lj : (j < length a)%nat) by (rewrite <- trim_len; apply nth_error_Some; congruence).
    destruct (nth_error a j) as [aj|] eqn:Ha; [|apply nth_error_None in Ha; lia]. destruct (nth_error cs j) as [c|] eqn:Ec; [|apply nth_error_None in Ec; lia].
    rewrite (Q j c Ec) in Hc'. injection Hc' as <-. rewrite (nth_error_nth _ _ 0 Ha'). destruct (w_at a j aj HP Ha) as (wj & Hwj). rewrite (trim_at a j aj wj Ha Hwj) in Ha'.
    injection Ha' as <-. destruct (keeps j wj aj); [|left; split; [reflexivity|]; destruct (qeq_spec 0 0); [reflexivity|congruence]].
    destruct (qeq_spec aj 0) as [->|N]; [left; auto|]. destruct (HC j e xj aj c He Hxj Ha Ec) as [[? _]|[_ K]]; [contradiction|]. right. auto.
  - apply Proofs_exchange.qsum_le; [exact LQ|]. intros j u v Hu Hv. rewrite (Q j v Hv) in Hu. injection Hu as <-. destruct (nth j (trim a) 0 =? 0); [|apply Qcle_refl].
    assert (Lj : (j < length cs)%nat) by (apply nth_error_Some; congruence).
    destruct (nth_error a j) as [aj|] eqn:Ha; [|apply nth_error_None in Ha; lia]. destruct (nth_error x j) as [xj|] eqn:Hxj; [|apply nth_error_None in Hxj; lia].
    destruct (nth_error (as_elems A) j) as [e|] eqn:He; [|apply nth_error_None in He; lia].
    destruct (HC j e xj aj v He Hxj Ha Hv) as [[_ ->]|[N K]]; [apply Qcle_refl|]. 
    assert (RE : elem_reachable E e) by (destruct HA as (_ & _ & H3 & _); rewrite Forall_forall in H3; apply H3; eapply nth_error_In, He).
    destruct (strict_price E ct e xj (xj + aj) RE) as (c & K1 & K2); auto; [intros pdf u; apply HD|exact (HR j e xj He Hxj)|exact (P j e xj aj He Hxj Ha)| |].
    + intro E0. apply N. replace aj with (xj + aj - xj) by ring. rewrite E0. ring.
    + rewrite (move_cost_fun _ _ _ _ _ _ _ K K1). now apply Qclt_le_weak.
Qed.
End Trim.
