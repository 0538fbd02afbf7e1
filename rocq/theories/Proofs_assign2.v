(** Audits of regular individuals succeed; with a stateless solver a row's result depends on nothing but the row. *)
From Verif Require Import Proofs_props_element Proofs_props_actionset Spec_recourse Proofs_mip Proofs_info Proofs_vec Proofs_build Proofs_enum Proofs_session Proofs_recourse Proofs_exchange Proofs_far Proofs_concrete Proofs_builder Proofs_builder2 Proofs_builder3 Proofs_builder4 Proofs_builder5 Proofs_scen Proofs_scen2 Proofs_builder6 Proofs_builder7 Proofs_builder8 Proofs_assign Spec_audit Proofs_audit Proofs_audit2 Proofs_audit3 Proofs_audit4.
#[local] Open Scope list_scope.
#[local] Open Scope Qc_scope.

Lemma fit_keeps sv b b1 r : fit sv b = Ok (b1, r) -> same_problem b b1.
Proof. unfold fit, solve_mip, get_solution. destruct (bd_mip b); [|discriminate]. cbn. intro H. injection H as <- <-. repeat split. Qed.
(** ** Totality *)
Lemma loop_total E sv b l : ok_env E -> sound_solver sv -> builder_reachable E sv b ->
  (forall b' p, builder_reachable E sv b' -> same_problem b b' -> In p l -> snd (set_x E b' (snd p)) = Ok tt) ->
  exists b' out, audit_loop E sv b l = (b', Ok out).
Proof.
  intros HE HS HB H. enough (G : forall c, builder_reachable E sv c -> same_problem b c -> exists b' out, audit_loop E sv c l = (b', Ok out)) by (apply G; [exact HB|apply same_refl]).
  induction l as [|[i u] l IH]; intros c HC SP; cbn [audit_loop]; [eauto|].
  pose proof (H c (i, u) HC SP (or_introl eq_refl)) as K. cbn [snd] in K. pose proof (same_set_x E c u) as S1. pose proof (reach_set_x E sv c u HC) as R1.
  destruct (set_x E c u) as [c0 r] eqn:EX. cbn [fst snd] in K, S1, R1. subst r. assert (HA : assigned E sv c u c0) by (split; assumption).
  destruct (fit_total E sv c u c0 HE HS HA) as (c1 & s & Hf). rewrite Hf.
  assert (S2 : same_problem c0 c1) by (eapply fit_keeps; exact Hf).
  destruct (IH (fun b' p R S I => H b' p R S (or_intror I)) c1) as (b' & out & ->); [eapply reach_fit; eauto|eapply same_problem_trans; [exact SP|eapply same_problem_trans; eauto]|]. eauto.
Qed.
Lemma todo_nonempty b y rows r : In r rows -> to_audit (bd_w b) (bd_t b) y r = true -> todo_of b y rows <> [].
Proof.
  intros Hr Ht Q. assert (K : In (row_pos r (unique_rows rows), r) (todo_of b y rows)) by (apply todo_In; split; [apply row_pos_nth, unique_rows_In, Hr|exact Ht]). rewrite Q in K. destruct K.
Qed.
Lemma sbf_answers E A A' : same_but_flips A A' -> answers E A -> answers E A'.
Proof. intros S H j e v He. destruct (sbf_elem _ _ _ _ S He) as (e0 & f & He0 & ->). exact (H j e0 v He0). Qed.
Lemma audit_total {I} E sv k A w t b (X : list (I * list Qc)) y : ok_env E -> sound_solver sv -> density E -> aset_reachable E A -> answers E A ->
  auditor_used E sv k A w t b -> tiny_free w -> label y -> (forall p, In p X -> length (snd p) = as_len A) -> (forall p, In p X -> ~ has_outcome y (score w t (snd p)) -> regular E A (snd p) /\ in_line A w (snd p) /\ one_way A (snd p)) ->
  (exists p, In p X /\ ~ has_outcome y (score w t (snd p))) -> exists b' out, audit E sv b (table_of X) y = (b', Ok out).
Proof.
  intros HE HS HD HR HAns Hus HT HY HX HXr (p0 & Hp0 & Hn0). destruct (used_fresh _ _ _ _ _ _ _ HR Hus) as (HB & F & HFl). pose proof (fr_sbf _ _ _ _ _ _ _ F) as SB.
  pose proof (fr_w _ _ _ _ _ _ _ F) as Ew. pose proof (fr_t _ _ _ _ _ _ _ F) as Et. pose proof (fr_len _ _ _ _ _ _ _ F) as El. pose proof (fr_cost _ _ _ _ _ _ _ F) as Ec.
  assert (HL : forall p, In p X -> length (snd p) = length (bd_w b)) by (intros p Hp; pose proof (HX p Hp); congruence).
  destruct (loop_total E sv b (todo_of b y (map snd X)) HE HS HB) as (b' & out & Hlo).
  { intros b' [i u] HB' (P1 & P2 & P3 & P4 & P5 & P6 & P7) Hin. cbn [snd]. apply todo_In in Hin. destruct Hin as [Hin Hta]. apply nth_error_In, unique_rows_In, in_map_iff in Hin. destruct Hin as (p & <- & Hp).
    assert (RX : regular E A (snd p) /\ in_line A w (snd p) /\ one_way A (snd p)). { apply HXr; [exact Hp|]. intro Q. apply to_audit_iff in Q. rewrite <- Ew, <- Et in Q. congruence. } destruct RX as (RX1 & RX2 & RX3).
    apply (assign_total E sv b' (snd p)); auto; try rewrite P5; try rewrite P4; try rewrite P2; auto.
    - rewrite Ec. intro Q. discriminate Q.
    - rewrite Ew. eapply sbf_in_line; eauto.
    - eapply sbf_one_way; eauto.
    - now rewrite Ew.
    - eapply sbf_answers; eauto.
    - eapply sbf_regular; eauto.
    - now rewrite Ew. }
  assert (HN : X <> []) by (intros ->; destruct Hp0).
  rewrite (audit_table E sv b X y HN HL HY), Hlo. destruct out as [|q out]; [|eauto].
  exfalso. apply (todo_nonempty b y (map snd X) (snd p0)); [apply in_map_iff; eauto| |].
  - destruct (to_audit (bd_w b) (bd_t b) y (snd p0)) eqn:Q; [reflexivity|]. exfalso. apply Hn0, to_audit_iff. now rewrite <- Ew, <- Et.
  - apply audit_loop_fst in Hlo. destruct (todo_of b y (map snd X)); [reflexivity|discriminate Hlo].
Qed.

(** ** Independence *)
Definition one E sv b (u : list Qc) : res (bool * fl) :=
  match set_x E b u with
  | (_, Err e) => Err e
  | (b1, Ok _) => match fit sv b1 with Err e => Err e | Ok (_, s) => Ok (verdict_of s) end
  end.
Lemma one_same E sv b b' u : stateless sv -> same_problem b b' -> one E sv b u = one E sv b' u.
Proof.
  intros HSt HP. destruct (c41_assign E b b' u HP) as [H1 H2]. pose proof (same_set_x E b u) as S1. pose proof (same_set_x E b' u) as S2. unfold one.
  destruct (set_x E b u) as [c r]. destruct (set_x E b' u) as [c' r']. cbn [fst snd] in *. subst r'. destruct r as [[]|e]; [|reflexivity].
  assert (T : twin c c'). { split; [|symmetry; auto]. eapply same_problem_trans; [apply same_problem_sym, S1|]. eapply same_problem_trans; [exact HP|exact S2]. }
  pose proof (twin_fit sv c c' HSt T) as K. destruct (fit sv c) as [[d s]|]; destruct (fit sv c') as [[d' s']|]; try contradiction K; [destruct K as (-> & _); reflexivity|now rewrite K].
Qed.
Lemma loop_one E sv b l : stateless sv -> forall c, same_problem b c -> snd (audit_loop E sv c l) = mapM (fun p => let! v := one E sv b (snd p) in Ok (fst p, v)) l.
Proof.
  intro HSt. induction l as [|[i u] l IH]; intros c SP; cbn [audit_loop mapM]; [reflexivity|]. cbn [fst snd]. rewrite (one_same E sv b c u HSt SP). unfold one at 1.
  pose proof (same_set_x E c u) as S1. destruct (set_x E c u) as [c0 [[]|e]]; cbn [fst] in S1; [|reflexivity].
  destruct (fit sv c0) as [[c1 s]|e] eqn:Hf; [|reflexivity]. cbn [bind].
  assert (S2 : same_problem c0 c1) by (eapply fit_keeps; exact Hf).
  rewrite <- (IH c1); [|eapply same_problem_trans; [exact SP|eapply same_problem_trans; eauto]].
  destruct (audit_loop E sv c1 l) as [c2 [out|e]]; reflexivity.
Qed.
Definition row_result E sv b y (r : list Qc) : audit_entry :=
  if to_audit (bd_w b) (bd_t b) y r then match one E sv b r with Ok v => Some v | Err _ => None end else None.
Lemma lookup_nodup i v out : NoDup (map fst out) -> In (i, v) out -> lookup_idx i out = Some v.
Proof.
  induction out as [|[j u] out IH]; intros HN Hin; [destruct Hin|]. inversion HN as [|? ? N1 N2]; subst. cbn [lookup_idx]. destruct Hin as [Q|Hin].
  - injection Q as -> ->. now rewrite Nat.eqb_refl.
  - destruct (Nat.eqb_spec i j) as [->|]; [|auto]. exfalso. apply N1. apply in_map_iff. now exists (j, v).
Qed.
Lemma todo_nodup b y rows : NoDup (map fst (todo_of b y rows)).
Proof.
  unfold todo_of. set (U := unique_rows rows). clearbody U. generalize 0%nat. induction U as [|u U IH]; intro s; cbn [length seq combine filter]; [constructor|].
  destruct (to_audit _ _ _ _); cbn [map fst]; [|apply IH]. constructor; [|apply IH]. intro H. apply in_map_iff in H. destruct H as ([i v] & Q & H). cbn in Q. subst i. apply filter_In in H. destruct H as [H _]. apply in_combine_l, in_seq in H. lia.
Qed.
Lemma result_one E sv b y rows b' out r : stateless sv -> audit_loop E sv b (todo_of b y rows) = (b', Ok out) -> In r rows -> result_of rows out r = row_result E sv b y r.
Proof.
  intros HSt HL Hr. unfold row_result. destruct (to_audit (bd_w b) (bd_t b) y r) eqn:Ht; [|apply (result_none E sv b y rows b' out r HL Hr); exact Ht].
  assert (Hin : In (row_pos r (unique_rows rows), r) (todo_of b y rows)) by (apply todo_In; split; [apply row_pos_nth, unique_rows_In, Hr|exact Ht]).
  pose proof (loop_one E sv b (todo_of b y rows) HSt b (same_refl b)) as K. rewrite HL in K. cbn [snd] in K. symmetry in K. apply mapM_ok in K.
  assert (NDo : NoDup (map fst out)) by (rewrite (audit_loop_fst E sv _ _ _ _ HL); apply todo_nodup).
  apply In_nth_error in Hin. destruct Hin as (n & Hn). apply Forall2_nth in K. destruct K as [LL K].
  destruct (nth_error out n) as [q|] eqn:Eq; [|apply nth_error_None in Eq; assert (nth_error (todo_of b y rows) n <> None) as N by congruence; apply nth_error_Some in N; lia].
  specialize (K _ _ _ Hn Eq). cbn [fst snd] in K. destruct (one E sv b r) as [v|]; [|discriminate K]. cbn [bind] in K. injection K as <-. unfold result_of. apply lookup_nodup; [exact NDo|]. eapply nth_error_In, Eq.
Qed.
Lemma audit_rows {I J} E sv b b' (X : list (I * list Qc)) (X' : list (J * list Qc)) y b1 out : stateless sv -> same_problem b b' ->
  audit E sv b (table_of X) y = (b1, Ok out) -> (forall r, In r (map snd X') -> In r (map snd X)) -> (exists p, In p X' /\ ~ has_outcome y (score (bd_w b) (bd_t b) (snd p))) ->
  out = map (fun p => (fst p, row_result E sv b y (snd p))) X /\
  exists b1', audit E sv b' (table_of X') y = (b1', Ok (map (fun p => (fst p, row_result E sv b y (snd p))) X')).
Proof.
  intros HSt SP HA Hsub (p0 & Hp0 & Hn0). apply audit_ok in HA. destruct HA as (X0 & EX & HX0 & HLen & HY & o & Hlo & Hne & ->). apply table_inj in EX. subst X0. split.
  { apply map_ext_in. intros p Hp. f_equal. eapply result_one; [exact HSt|exact Hlo|apply in_map_iff; eauto]. }
  assert (SPw : bd_w b' = bd_w b /\ bd_t b' = bd_t b) by now apply same_problem_wt. destruct SPw as [Ew Et].
  assert (HLen' : forall p, In p X' -> length (snd p) = length (bd_w b')).
  { intros p Hp. assert (Hs : In (snd p) (map snd X)) by (apply Hsub, in_map_iff; eauto). apply in_map_iff in Hs. destruct Hs as (q & Eq & Hq). rewrite <- Eq, Ew. now apply HLen. }
  rewrite (audit_table E sv b' X' y); [|intros ->; destruct Hp0|exact HLen'|exact HY].
  pose proof (loop_one E sv b (todo_of b' y (map snd X')) HSt b' SP) as K.
  assert (KT : exists o', mapM (fun p => let! v := one E sv b (snd p) in Ok (fst p, v)) (todo_of b' y (map snd X')) = Ok o').
  { apply mapM_total. intros [i u] Hin. apply todo_In in Hin. destruct Hin as [H1 H2]. apply nth_error_In, unique_rows_In, Hsub in H1. rewrite Ew, Et in H2.
    pose proof (loop_one E sv b (todo_of b y (map snd X)) HSt b (same_refl b)) as M. rewrite Hlo in M. cbn [snd] in M. symmetry in M. apply mapM_ok in M.
    assert (Hin' : In (row_pos u (unique_rows (map snd X)), u) (todo_of b y (map snd X))) by (apply todo_In; split; [apply row_pos_nth, unique_rows_In, H1|exact H2]).
    apply In_nth_error in Hin'. destruct Hin' as (n & Hn). apply Forall2_nth in M. destruct M as [LL M].
    destruct (nth_error o n) as [q|] eqn:Eq; [|apply nth_error_None in Eq; assert (nth_error (todo_of b y (map snd X)) n <> None) as N by congruence; apply nth_error_Some in N; lia].
    specialize (M _ _ _ Hn Eq). cbn [fst snd] in M |- *. destruct (one E sv b u) as [v|]; [|discriminate M]. cbn [bind]. eauto. }
  destruct KT as (o' & KT). rewrite KT in K. destruct (audit_loop E sv b' (todo_of b' y (map snd X'))) as [b1' r] eqn:Hlo'. cbn [snd] in K. subst r. exists b1'.
  destruct o' as [|q o'].
  - exfalso. apply (todo_nonempty b' y (map snd X') (snd p0)); [apply in_map_iff; eauto| |].
    + destruct (to_audit (bd_w b') (bd_t b') y (snd p0)) eqn:Q; [reflexivity|]. exfalso. apply Hn0, to_audit_iff. now rewrite <- Ew, <- Et.
    + apply audit_loop_fst in Hlo'. destruct (todo_of b' y (map snd X')); [reflexivity|discriminate Hlo'].
  - do 2 f_equal. apply map_ext_in. intros p Hp. f_equal. rewrite (result_one E sv b' y _ _ _ _ HSt Hlo'); [|apply in_map_iff; eauto]. unfold row_result. rewrite Ew, Et, (one_same E sv b b' _ HSt SP). reflexivity.
Qed.
Lemma used_unique E sv k A w t b b' : auditor_used E sv k A w t b -> auditor_used E sv k A w t b' -> aset_reachable E A -> same_problem b b'.
Proof.
  intros (b0 & ops & H1 & H2 & ->) (b0' & ops' & H1' & H2' & ->) HR.
  assert (b0' = b0). { destruct (auditor_parts _ _ _ _ _ _ H1) as (A1 & P1 & P2). destruct (auditor_parts _ _ _ _ _ _ H1') as (A1' & P1' & P2'). assert (A1' = A1) by congruence. subst. congruence. } subst b0'.
  pose proof (created_reach E sv _ _ _ _ _ HR H1) as HB. destruct (used_same E sv b0 ops H2 HB) as [_ S1]. destruct (used_same E sv b0 ops' H2' HB) as [_ S2].
  eapply same_problem_trans; [apply same_problem_sym, S1|exact S2].
Qed.
Lemma c66 {I} E sv k A w t b (X : list (I * list Qc)) y b1 out : stateless sv -> aset_reachable E A -> auditor_used E sv k A w t b -> audit E sv b (table_of X) y = (b1, Ok out) ->
  exists g, out = map (fun p => (fst p, g (snd p))) X /\
    forall J b' (X' : list (J * list Qc)), auditor_used E sv k A w t b' -> (forall r, In r (map snd X') -> In r (map snd X)) -> (exists p, In p X' /\ ~ has_outcome y (score w t (snd p))) ->
      exists b1', audit E sv b' (table_of X') y = (b1', Ok (map (fun p => (fst p, g (snd p))) X')).
Proof.
  intros HSt HR Hus HA. exists (row_result E sv b y). destruct (auditor_wt E sv k A w t b (used_reachable _ _ _ _ _ _ _ Hus)) as [Ew Et].
  split.
  - pose proof HA as HA0. apply audit_ok in HA. destruct HA as (X0 & EX & HX0 & HLen & HY & o & Hlo & Hne & ->). apply table_inj in EX. subst X0.
    apply map_ext_in. intros p Hp. f_equal. eapply result_one; [exact HSt|exact Hlo|apply in_map_iff; eauto].
  - intros J b' X' Hus' Hsub Hex. apply (audit_rows E sv b b' X X' y b1 out HSt (used_unique _ _ _ _ _ _ _ _ Hus Hus' HR) HA Hsub). now rewrite Ew, Et.
Qed.
