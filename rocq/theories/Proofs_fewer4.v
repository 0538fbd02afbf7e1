(** C137: the narrowed question is accepted for the same individuals. *)
From Verif Require Import Proofs_props_element Proofs_props_actionset Spec_fewer Spec_settable Proofs_actionset Proofs_session Proofs_builder Proofs_builder2 Proofs_subset Proofs_columns Proofs_columns4 Proofs_idle2 Proofs_idle3 Proofs_assign4 Proofs_assign5 Proofs_fewer.
#[local] Open Scope list_scope.
#[local] Open Scope Qc_scope.

Section Accept.
Context (p : list nat) (b b' : builder) (x x' : list Qc) (HR : narrowed p b x b' x') (U : unconstrained (bd_A b)) (U' : unconstrained (bd_A b')).
Let RE : rearranged p (as_elems (bd_A b)) (as_elems (bd_A b')). Proof. apply HR. Qed.
Let RW : rearranged p (bd_w b) (bd_w b'). Proof. apply HR. Qed.
Let RX : rearranged p x x'. Proof. apply HR. Qed.
Let Hy : as_y (bd_A b') = as_y (bd_A b). Proof. apply HR. Qed.
Lemma acc_part k j : nth_error p k = Some j -> (takes_part (bd_A b') (bd_w b') x' k <-> takes_part (bd_A b) (bd_w b) x j).
Proof.
  intro Hk. unfold takes_part. rewrite (rearranged_nth _ _ _ _ _ RE Hk), (rearranged_nth _ _ _ _ _ RW Hk), (rearranged_nth _ _ _ _ _ RX Hk), Hy.
  split; intros (e & wj & xj & v & H1 & H2 & H3 & H4 & H5 & H6 & [H7|H7]); exists e, wj, xj, v; (repeat (split; [assumption|])); auto.
  - destruct (unconstrained_at _ _ U' H7).
  - destruct (unconstrained_at _ _ U H7).
Qed.
Lemma acc_handled k j : nth_error p k = Some j -> (handled (bd_A b') (bd_w b') x' k <-> handled (bd_A b) (bd_w b) x j).
Proof.
  intro Hk. unfold handled. rewrite (rearranged_nth _ _ _ _ _ RE Hk), (rearranged_nth _ _ _ _ _ RW Hk), (rearranged_nth _ _ _ _ _ RX Hk).
  split; intros (e & wj & xj & H1 & H2 & H3 & H4 & _); exists e, wj, xj; (repeat (split; [assumption|])); intro Q; [destruct (unconstrained_at _ _ U Q)|destruct (unconstrained_at _ _ U' Q)].
Qed.
Lemma acc_in j : takes_part (bd_A b) (bd_w b) x j -> exists k, nth_error p k = Some j.
Proof.
  intro H. destruct (in_dec Nat.eq_dec j p) as [I|I]; [now apply In_nth_error|]. exfalso. revert H. pose proof HR as (_ & _ & _ & _ & _ & HF & _ & _ & _ & _ & _ & _ & HC). destruct (HF j I) as [Q|Q]; [now apply fixed_idle|]. apply ignored_idle. split; [exact Q|]. intro K. exact (I (HC j K)).
Qed.
Lemma acc_in' k : takes_part (bd_A b') (bd_w b') x' k -> exists j, nth_error p k = Some j.
Proof. intros (e & _ & _ & _ & He & _). destruct (rearranged_at _ _ _ _ _ RE He) as (j & Hj & _). eauto. Qed.
Lemma acc_settable : settable (bd_A b) (bd_w b) x <-> settable (bd_A b') (bd_w b') x'.
Proof.
  assert (ND : NoDup p) by apply HR. split; intros (H1 & part & H2 & H3 & _); split.
  - intros k Hk. destruct (acc_in' k Hk) as (j & Hj). apply (acc_handled k j Hj), H1, (acc_part k j Hj), Hk.
  - exists (filter (fun k => match nth_error p k with Some j => inb part j | None => false end) (seq 0 (length p))). split; [apply NoDup_filter, seq_NoDup|]. split.
    + intro k. rewrite filter_In, in_seq. split.
      * intros [_ Q]. destruct (nth_error p k) as [j|] eqn:Hj; [|discriminate Q]. apply (acc_part k j Hj), H3, inb_iff, Q.
      * intro Q. destruct (acc_in' k Q) as (j & Hj). assert (nth_error p k <> None) as L by congruence. apply nth_error_Some in L. split; [lia|]. rewrite Hj. apply inb_iff, H3, (acc_part k j Hj), Q.
    + intros j Q. destruct (unconstrained_at _ _ U' Q).
  - intros j Hj. destruct (acc_in j Hj) as (k & Hk). apply (acc_handled k j Hk), H1, (acc_part k j Hk), Hj.
  - exists (filter (fun j => existsb (fun k => match nth_error p k with Some i => Nat.eqb i j | None => false end) part) p). split; [apply NoDup_filter, ND|]. split.
    + intro j. rewrite filter_In, existsb_exists. split.
      * intros (_ & k & Ik & Q). destruct (nth_error p k) as [i|] eqn:Hi; [|discriminate Q]. apply Nat.eqb_eq in Q. subst i. apply (acc_part k j Hi), H3, Ik.
      * intro Q. destruct (acc_in j Q) as (k & Hk). split; [eapply nth_error_In; exact Hk|]. exists k. split; [apply H3, (acc_part k j Hk), Q|]. rewrite Hk. apply Nat.eqb_refl.
    + intros j Q. destruct (unconstrained_at _ _ U Q).
Qed.
End Accept.
Lemma fewer_accepted E sv sv' p b b' x x' : ok_env E -> density E -> builder_reachable E sv b -> builder_reachable E sv' b' -> log_ok E (bd_cost b) -> flips_match (bd_A b) (bd_w b) ->
  length x = length (bd_w b) -> answers E (bd_A b) -> regular E (bd_A b) x -> narrowed p b x b' x' -> unconstrained (bd_A b) -> unconstrained (bd_A b') ->
  (snd (set_x E b x) = Ok tt <-> snd (set_x E b' x') = Ok tt).
Proof.
  intros HE HD R R' HL F LX HA HG HR U U'. pose proof HR as (_ & RN & RE & RW & RX & _ & _ & Hy & Hc & _).
  assert (F' : flips_match (bd_A b') (bd_w b')).
  { destruct F as [FL F]. split; [rewrite (rearranged_len _ _ _ RW), (rearranged_len _ _ _ RE); reflexivity|]. intros k e c He Hk. destruct (rearranged_at _ _ _ _ _ RE He) as (j & Hj & He'). rewrite (rearranged_nth _ _ _ _ _ RW Hj) in Hk. rewrite Hy. eauto. }
  assert (HA' : answers E (bd_A b')) by (intros k e v He; destruct (rearranged_at _ _ _ _ _ RE He) as (j & Hj & He'); exact (HA j e v He')).
  rewrite (assign_iff E sv b x HE HD R HL F LX HA HG).
  rewrite (assign_iff E sv' b' x' HE HD R' ltac:(now rewrite Hc) F' ltac:(rewrite (rearranged_len _ _ _ RX), (rearranged_len _ _ _ RW); reflexivity) HA' (nar_regular E p b b' x x' HR HG)).
  rewrite <- (acc_settable p b b' x x' HR U U'), Hc. split; intros [H1 [H2|[j H2]]]; (split; [exact H1|]); auto; right.
  - destruct (acc_in p b b' x x' HR j H2) as (k & Hk). exists k. now apply (acc_part p b b' x x' HR U U' k j Hk).
  - destruct (acc_in' p b b' x x' HR j H2) as (i & Hi). exists i. now apply (acc_part p b b' x x' HR U U' j i Hi).
Qed.
