(** The builder's check, characterised. *)
From Verif Require Import Proofs_props_element Proofs_props_actionset Proofs_num Spec_recourse Model_check Proofs_recourse Proofs_mip Proofs_check.
#[local] Open Scope list_scope.
#[local] Open Scope Qc_scope.

Lemma small_iff v : isclose0 v = true <-> qabs v <= qfrac 1 100000000.
Proof. unfold isclose0. rewrite qle_iff. reflexivity. Qed.
Lemma check_clean b x s : bd_x b = Some x -> length x = length (s_actions s) -> length (s_costs s) = length (s_actions s) -> s_actions s <> [] ->
  (check_solution b (Some s) = Ok [] <->
   (Z.max (bd_min b) 1 <= Z.of_nat (length (filter (fun v => negb (isclose0 v)) (s_actions s))) <= bd_max b)%Z /\
   qsign (score (bd_w b) (bd_t b) x) <> qsign (score (bd_w b) (bd_t b) (vadd x (s_actions s))) /\
   (forall j aj cj, nth_error (s_actions s) j = Some aj -> nth_error (s_costs s) j = Some cj ->
      if isclose0 aj then qabs cj <= qfrac 1 100000000 else In j (bd_actionable b) /\ 0 < cj) /\
   match bd_cost b with
   | CTotal => qabs (s_cost s - qsum (s_costs s)) <= qfrac 1 100000000 + qfrac 1 100000 * qabs (qsum (s_costs s))
   | CMax => forall m, largest (s_costs s) m -> qabs (s_cost s - m) <= qfrac 1 100000000 + qfrac 1 10000 * qabs m
   | CLocal => True
   end).
Proof.
  intros Hx Lx Lc Ne. unfold check_solution. cbv zeta. rewrite positions_length. set (n := length (filter _ _)).
  rewrite Hx. cbn [of_option bind]. rewrite Lx, Nat.eqb_refl. change (bd_prediction b ?u) with (qsign (score (bd_w b) (bd_t b) u)).
  assert (W1 : forallb (fun j => existsb (Nat.eqb j) (bd_actionable b)) (positions (fun v => negb (isclose0 v)) (s_actions s)) = true <->
    forall j aj, nth_error (s_actions s) j = Some aj -> isclose0 aj = false -> In j (bd_actionable b)).
  { rewrite forallb_forall. split.
    - intros H j aj Ha Hz. specialize (H j ltac:(apply positions_In; exists aj; now rewrite Hz)). apply existsb_exists in H. destruct H as (k & Hk & Q). apply Nat.eqb_eq in Q. now subst k.
    - intros H j Hj. apply positions_In in Hj. destruct Hj as (aj & Ha & Hz). apply negb_true_iff in Hz. apply existsb_exists. exists j. split; [eauto|apply Nat.eqb_refl]. }
  assert (W2 : costs_agree s (positions (fun v => negb (isclose0 v)) (s_actions s)) (positions isclose0 (s_actions s)) = true <->
    forall j aj cj, nth_error (s_actions s) j = Some aj -> nth_error (s_costs s) j = Some cj -> if isclose0 aj then qabs cj <= qfrac 1 100000000 else 0 < cj).
  { unfold costs_agree. rewrite andb_true_iff, !forallb_forall. split.
    - intros [H1 H2] j aj cj Ha Hc. destruct (isclose0 aj) eqn:Hz.
      + apply small_iff. apply H2. apply in_map_iff. exists j. split; [exact (nth_error_nth _ _ 0 Hc)|]. apply positions_In. eauto.
      + specialize (H1 cj). assert (G : 0 <? cj = true); [|now qbool]. apply H1. apply in_map_iff. exists j. split; [exact (nth_error_nth _ _ 0 Hc)|]. apply positions_In. exists aj. now rewrite Hz.
    - intro H. split; intros c Hc; apply in_map_iff in Hc; destruct Hc as (j & <- & Hj); apply positions_In in Hj; destruct Hj as (aj & Ha & Hz);
        (assert (Lj : (j < length (s_costs s))%nat) by (rewrite Lc; apply nth_error_Some; congruence));
        pose proof (nth_error_nth' (s_costs s) 0 Lj) as Hc; specialize (H j aj _ Ha Hc).
      + apply negb_true_iff in Hz. rewrite Hz in H. now qbool.
      + rewrite Hz in H. now apply small_iff. }
  assert (W3 : total_warning (bd_cost b) s = [] <-> match bd_cost b with
   | CTotal => qabs (s_cost s - qsum (s_costs s)) <= qfrac 1 100000000 + qfrac 1 100000 * qabs (qsum (s_costs s))
   | CMax => forall m, largest (s_costs s) m -> qabs (s_cost s - m) <= qfrac 1 100000000 + qfrac 1 10000 * qabs m
   | CLocal => True
   end).
  { unfold total_warning, close. change atol with (qfrac 1 100000000). destruct (bd_cost b).
    - match goal with |- (if ?t then _ else _) = _ <-> _ => destruct t eqn:Q end; qbool; split; auto; try (intro K; discriminate K). intro K. exfalso. qlra.
    - tauto.
    - destruct (s_costs s) as [|c r] eqn:Ec; [exfalso; apply Ne; destruct (s_actions s); [reflexivity|discriminate Lc]|].
      assert (LM : forall m, largest (c :: r) m <-> m = qmaxl r c).
      { assert (G : largest (c :: r) (qmaxl r c)).
        { split; [destruct (qmaxl_In r c) as [Gm|Gm]; [rewrite Gm; now left|now right]|]. intros v [<-|Hv]; [apply (proj1 (qmaxl_ge r c))|apply (proj2 (qmaxl_ge r c)); exact Hv]. }
        intro m. split; [|intros ->; exact G]. intros [M1 M2]. apply Qcle_antisym; [now apply G|apply M2, G]. }
      match goal with |- (if ?t then _ else _) = _ <-> _ => destruct t eqn:Q end; qbool; split; intro K.
      + intros m Hm. apply LM in Hm. now subst m.
      + reflexivity.
      + discriminate K.
      + exfalso. specialize (K _ (proj2 (LM _) eq_refl)). qlra. }
  split.
  - intro H. bnd H as u1 H1. apply passert_ok in H1. apply Z.leb_le in H1. bnd H as u2 H2. apply passert_ok in H2. apply andb_true_iff in H2. destruct H2 as [H2 H3]. apply Z.leb_le in H2, H3.
    split; [lia|]. cbn [bind] in H. bnd H as w2 H5. injection H as H. apply app_eq_nil in H. destruct H as [V1 H]. apply app_eq_nil in H. destruct H as [V2 V3]. subst w2. split.
    + destruct (Z.eqb_spec (qsign (score (bd_w b) (bd_t b) x)) (qsign (score (bd_w b) (bd_t b) (vadd x (s_actions s))))) as [Q|Q]; [|exact Q]. cbn [negb] in H5. bnd H5 as u6 H6. discriminate H5.
    + destruct (forallb _ _) in V1, W1; [|discriminate V1]. destruct (costs_agree _ _ _) in V3, W2; [|discriminate V3]. split; [|now apply W3].
      intros j aj cj Ha Hc. pose proof (proj1 W1 eq_refl j aj Ha) as K1. pose proof (proj1 W2 eq_refl j aj cj Ha Hc) as K2. destruct (isclose0 aj); auto.
  - intros (H1 & H2 & H3 & H4). rewrite (proj2 (Z.leb_le 1 _)) by lia. cbn [passert bind]. rewrite (proj2 (Z.leb_le (bd_min b) _)), (proj2 (Z.leb_le _ (bd_max b))) by lia. cbn [andb passert bind].
    rewrite (proj2 (Z.eqb_neq _ _) H2). cbn [negb bind]. rewrite (proj2 W1), (proj2 W2).
    + cbn [app]. f_equal. now apply W3.
    + intros j aj cj Ha Hc. specialize (H3 j aj cj Ha Hc). destruct (isclose0 aj); [exact H3|apply H3].
    + intros j aj Ha Hz. assert (Lj : (j < length (s_costs s))%nat) by (rewrite Lc; apply nth_error_Some; congruence).
      specialize (H3 j aj _ Ha (nth_error_nth' (s_costs s) 0 Lj)). rewrite Hz in H3. apply H3.
Qed.
