(** Exactly which tables can be audited. *)
From Verif Require Import Proofs_props_element Proofs_props_actionset Spec_recourse Spec_settable Proofs_mip Proofs_info Proofs_vec Proofs_build Proofs_enum Proofs_session Proofs_recourse Proofs_exchange Proofs_far Proofs_concrete Proofs_builder Proofs_builder2 Proofs_builder3 Proofs_builder4 Proofs_builder5 Proofs_scen Proofs_scen2 Proofs_builder6 Proofs_builder7 Proofs_builder8 Proofs_assign Spec_audit Proofs_audit Proofs_audit2 Proofs_audit3 Proofs_audit4 Proofs_assign2 Proofs_constrained Proofs_assign3 Proofs_assign4.
#[local] Open Scope list_scope.
#[local] Open Scope Qc_scope.

Lemma sbf_part A A' w x j : same_but_flips A A' -> (takes_part A' w x j <-> takes_part A w x j).
Proof.
  intro S. pose proof S as (_ & _ & Ey & _). split.
  - intros (e' & wj & xj & v & H1 & H2 & H3 & H4 & H5 & H6 & H7). destruct (sbf_elem _ _ _ _ S H1) as (e & f & He & ->). exists e, wj, xj, v. rewrite <- (sbf_constrained _ _ j S). rewrite Ey in H7. auto 10.
  - intros (e & wj & xj & v & H1 & H2 & H3 & H4 & H5 & H6 & H7). destruct (sbf_elem' _ _ _ _ S H1) as (f & He). exists (with_flip e f), wj, xj, v. rewrite (sbf_constrained _ _ j S), Ey. auto 10.
Qed.
Lemma sbf_handled A A' w x j : same_but_flips A A' -> (handled A' w x j <-> handled A w x j).
Proof.
  intro S. split.
  - intros (e' & wj & xj & H1 & H2 & H3 & H4 & H5). destruct (sbf_elem _ _ _ _ S H1) as (e & f & He & ->). exists e, wj, xj. rewrite <- (sbf_constrained _ _ j S). auto.
  - intros (e & wj & xj & H1 & H2 & H3 & H4 & H5). destruct (sbf_elem' _ _ _ _ S H1) as (f & He). exists (with_flip e f), wj, xj. rewrite (sbf_constrained _ _ j S). auto.
Qed.
Lemma sbf_settable A A' w x : same_but_flips A A' -> (settable A' w x <-> settable A w x).
Proof.
  intro S. unfold settable. split; intros (H1 & part & H2 & H3 & H4); (split; [intros j Hj; apply (sbf_handled _ _ _ _ _ S), H1, (sbf_part _ _ _ _ _ S), Hj|]); exists part; (split; [exact H2|]); (split; [intro j; rewrite H3; (apply (sbf_part _ _ w x j S) || (symmetry; apply (sbf_part _ _ w x j S)))|]); intros j Hj; apply H4, (sbf_constrained _ _ j S), Hj.
Qed.
Lemma loop_sets E sv b l b' out : audit_loop E sv b l = (b', Ok out) -> forall p, In p l -> exists c, same_problem b c /\ snd (set_x E c (snd p)) = Ok tt.
Proof.
  revert b b' out. induction l as [|[i u] l IH]; intros b b' out H p Hp; [destruct Hp|]. cbn [audit_loop] in H. pose proof (same_set_x E b u) as S1. destruct Hp as [<-|Hp].
  - exists b. split; [apply same_refl|]. cbn [snd]. destruct (set_x E b u) as [c0 [[]|e]]; [reflexivity|discriminate H].
  - destruct (set_x E b u) as [c0 [[]|e]]; [|discriminate H]. cbn [fst] in S1. destruct (fit sv c0) as [[c1 s]|] eqn:Hf; [|discriminate H]. pose proof (fit_keeps _ _ _ _ Hf) as S2.
    destruct (audit_loop E sv c1 l) as [b3 [o|e]] eqn:Hl; [|discriminate H]. destruct (IH _ _ _ Hl p Hp) as (c & S3 & K). exists c. split; [|exact K]. eapply same_problem_trans; [exact S1|]. eapply same_problem_trans; eauto.
Qed.
Lemma audit_iff {I} E sv k A w t b (X : list (I * list Qc)) y : ok_env E -> sound_solver sv -> density E -> aset_reachable E A -> answers E A ->
  auditor_used E sv k A w t b -> label y -> (forall p, In p X -> length (snd p) = as_len A) ->
  (forall p, In p X -> ~ has_outcome y (score w t (snd p)) -> regular E A (snd p)) ->
  ((exists b' out, audit E sv b (table_of X) y = (b', Ok out)) <->
   (exists p, In p X /\ ~ has_outcome y (score w t (snd p))) /\ forall p, In p X -> ~ has_outcome y (score w t (snd p)) -> settable A w (snd p)).
Proof.
  intros HE HS HD HR HAns Hus HY HX HXr. destruct (used_fresh _ _ _ _ _ _ _ HR Hus) as (HB & F & HFl). pose proof (fr_sbf _ _ _ _ _ _ _ F) as SB.
  pose proof (fr_w _ _ _ _ _ _ _ F) as Ew. pose proof (fr_t _ _ _ _ _ _ _ F) as Et. pose proof (fr_len _ _ _ _ _ _ _ F) as El. pose proof (fr_cost _ _ _ _ _ _ _ F) as Ec.
  assert (HL : forall p, In p X -> length (snd p) = length (bd_w b)) by (intros p Hp; pose proof (HX p Hp); congruence).
  assert (DEN : forall p : I * list Qc, to_audit (bd_w b) (bd_t b) y (snd p) = true <-> ~ has_outcome y (score w t (snd p))).
  { intro p. rewrite <- to_audit_iff, Ew, Et. destruct (to_audit w t y (snd p)); split; auto; discriminate. }
  (* what the builder says of one row *)
  assert (ONE : forall b' (p : I * list Qc), builder_reachable E sv b' -> same_problem b b' -> In p X -> ~ has_outcome y (score w t (snd p)) -> (snd (set_x E b' (snd p)) = Ok tt <-> settable A w (snd p))).
  { intros b' p HB' (P1 & P2 & P3 & P4 & P5 & P6 & P7) Hp Hn.
    rewrite (assign_iff E sv b' (snd p)); auto; try rewrite P5; try rewrite P4; try rewrite P2; auto.
    - rewrite Ew, (sbf_settable _ _ _ _ SB), Ec. tauto.
    - rewrite Ec. intro Q. discriminate Q.
    - now rewrite Ew.
    - eapply sbf_answers; eauto.
    - eapply sbf_regular; eauto. }
  split.
  - intros (b' & out & H). destruct X as [|p0 X0] eqn:EX; [discriminate H|]. rewrite <- EX in *. assert (HN : X <> []) by (rewrite EX; discriminate). clear EX p0 X0.
    rewrite (audit_table E sv b X y HN HL HY) in H. destruct (audit_loop E sv b (todo_of b y (map snd X))) as [b1 [o|e]] eqn:Hlo; [|discriminate H].
    split.
    + destruct (todo_of b y (map snd X)) as [|[i u] l] eqn:T; [cbn in Hlo; injection Hlo as <- <-; discriminate H|].
      assert (Q : In (i, u) (todo_of b y (map snd X))) by (rewrite T; now left). apply todo_In in Q. destruct Q as [Q1 Q2]. apply nth_error_In, unique_rows_In, in_map_iff in Q1. destruct Q1 as (p & <- & Hp). exists p. split; [exact Hp|]. now apply DEN.
    + intros p Hp Hn. assert (Q : In (row_pos (snd p) (unique_rows (map snd X)), snd p) (todo_of b y (map snd X))).
      { apply todo_In. split; [apply row_pos_nth, unique_rows_In, in_map, Hp|now apply DEN]. }
      destruct (loop_sets _ _ _ _ _ _ Hlo _ Q) as (c & SP & K). cbn [snd] in K. pose proof (proj1 (c41_assign E b c (snd p) SP)) as C1. rewrite <- C1 in K.
      apply (ONE b p HB (same_refl b) Hp Hn). exact K.
  - intros ((p0 & Hp0 & Hn0) & HSt). destruct (loop_total E sv b (todo_of b y (map snd X)) HE HS HB) as (b' & out & Hlo).
    { intros b' [i u] HB' SP Hin. cbn [snd]. apply todo_In in Hin. destruct Hin as [Hin Hta]. apply nth_error_In, unique_rows_In, in_map_iff in Hin. destruct Hin as (p & <- & Hp). apply DEN in Hta. apply (ONE b' p); auto. }
    assert (HN : X <> []) by (intros ->; destruct Hp0).
    rewrite (audit_table E sv b X y HN HL HY), Hlo. destruct out as [|q out]; [|eauto].
    exfalso. apply (todo_nonempty b y (map snd X) (snd p0)); [apply in_map_iff; eauto|now apply DEN|]. apply audit_loop_fst in Hlo. destruct (todo_of b y (map snd X)); [reflexivity|discriminate Hlo].
Qed.

Lemma settable_case : exists b x, (forall sv, builder_reachable env0 sv b) /\ bd_cost b = CMax /\ flips_match (bd_A b) (bd_w b) /\
  length x = length (bd_w b) /\ answers env0 (bd_A b) /\ regular env0 (bd_A b) x /\ ~ unconstrained (bd_A b) /\ settable (bd_A b) (bd_w b) x.
Proof.
  destruct (c64_con_case CMax) as (b & x & c & H1 & H2 & H3 & H4 & H5 & H6 & H7 & H8 & H9 & H10 & H11 & H12). exists b, x. split; [exact H1|]. split; [exact H2|]. split; [exact H7|]. split; [exact H8|]. split; [exact H9|]. split; [exact H10|].
  assert (HL : log_ok env0 (bd_cost b)) by (rewrite H2; intro Q; discriminate Q).
  split.
  - intro U. unfold unconstrained in U. unfold stored in H3. rewrite U in H3. discriminate H3.
  - pose (sv := (fun _ _ => SUnknown) : solver).
    apply (proj1 (assign_iff env0 sv b x env0_ok env0_density (H1 sv) HL H7 H8 H9 H10)). apply (assign_total env0 sv b x env0_ok env0_density (H1 sv) HL H5 H6 H7 H8 H9 H10 H11). now left.
Qed.
Lemma unsettable_case : exists b x, (forall sv, builder_reachable env0 sv b) /\ bd_cost b = CMax /\ flips_match (bd_A b) (bd_w b) /\
  length x = length (bd_w b) /\ answers env0 (bd_A b) /\ regular env0 (bd_A b) x /\ tiny_free (bd_w b) /\ ~ settable (bd_A b) (bd_w b) x.
Proof.
  destruct c64_both_ways as (b & x & H1 & H2 & H3 & H4 & H5 & H6 & H7 & H8 & H9 & H10 & H11 & H12). exists b, x. split; [exact H1|]. split; [exact H2|]. split; [exact H4|]. split; [exact H6|]. split; [exact H7|]. split; [exact H8|]. split; [exact H9|].
  assert (HL : log_ok env0 (bd_cost b)) by (rewrite H2; intro Q; discriminate Q).
  intro Hs. pose (sv := (fun _ _ => SUnknown) : solver).
  pose proof (proj2 (assign_iff env0 sv b x env0_ok env0_density (H1 sv) HL H4 H6 H7 H8) (conj Hs (or_introl H2))) as K. rewrite H12 in K. discriminate K.
Qed.
