(** Audits: verdicts and costs. *)
From Verif Require Import Proofs_props_element Proofs_props_actionset Spec_recourse Proofs_mip Proofs_info Proofs_vec Proofs_build Proofs_enum Proofs_session Proofs_recourse Proofs_exchange Proofs_far Proofs_concrete Proofs_builder Proofs_builder2 Proofs_builder3 Proofs_builder4 Proofs_builder5 Proofs_scen Proofs_scen2 Proofs_builder6 Proofs_builder7 Proofs_builder8 Proofs_flipset Proofs_flipset3.
From Verif Require Import Spec_audit Proofs_audit Proofs_audit2.
#[local] Open Scope list_scope.
#[local] Open Scope Qc_scope.

Lemma F2_impl {A B} (P Q : A -> B -> Prop) l m : (forall a b, P a b -> Q a b) -> Forall2 P l m -> Forall2 Q l m.
Proof. intros H. induction 1; constructor; auto. Qed.
(** Each verdict stems from a successful assignment on a builder for the same problem. *)
Definition judged E sv b (u : list Qc) (v : bool * fl) : Prop :=
  exists bi b0 b1 s, same_problem b bi /\ assigned E sv bi u b0 /\ fit sv b0 = Ok (b1, s) /\ v = verdict_of s.
Lemma reach_set_x E sv b x : builder_reachable E sv b -> builder_reachable E sv (fst (set_x E b x)).
Proof. intro H. exact (reach_step E sv b (BSetX x) H). Qed.
Lemma reach_fit E sv b b1 r : builder_reachable E sv b -> fit sv b = Ok (b1, r) -> builder_reachable E sv b1.
Proof. intros H F. pose proof (reach_step E sv b BFit H) as K. cbn in K. now rewrite F in K. Qed.
Lemma same_refl b : same_problem b b.
Proof. repeat split. Qed.
Lemma loop_each E sv l : forall b b' out, builder_reachable E sv b -> audit_loop E sv b l = (b', Ok out) ->
  Forall2 (fun p q => fst q = fst p /\ judged E sv b (snd p) (snd q)) l out.
Proof.
  induction l as [|[i u] l IH]; intros b b' out HR H; cbn in H; [injection H as _ <-; constructor|]. pose proof (same_set_x E b u) as S1. pose proof (reach_set_x E sv b u HR) as R1.
  destruct (set_x E b u) as [b1 [v|e]] eqn:Hx; cbn [fst] in *; [|discriminate H]. destruct v. destruct (fit sv b1) as [[b2 s]|e] eqn:F; [|discriminate H].
  destruct (audit_loop E sv b2 l) as [b3 [o|e]] eqn:L; [|discriminate H]. injection H as <- <-. assert (S2 : same_problem b1 b2) by (eapply session_same; eapply ses_fit; [exact F|constructor]).
  constructor.
  - split; [reflexivity|]. exists b, b1, b2, s. split; [apply same_refl|]. split; [split; assumption|]. split; [exact F|reflexivity].
  - specialize (IH b2 b3 o (reach_fit _ _ _ _ _ R1 F) L). eapply F2_impl; [|exact IH]. intros p q [H1 (bi & c0 & c1 & s' & K1 & K2)]. split; [exact H1|]. exists bi, c0, c1, s'. split; [|exact K2].
    eapply same_problem_trans; [exact S1|]. eapply same_problem_trans; [exact S2|exact K1].
Qed.
Lemma loop_reach E sv l : forall b b' r, builder_reachable E sv b -> audit_loop E sv b l = (b', r) -> builder_reachable E sv b'.
Proof.
  induction l as [|[i u] l IH]; intros b b' r HR H; cbn in H; [injection H as <- _; exact HR|]. pose proof (reach_set_x E sv b u HR) as R1.
  destruct (set_x E b u) as [b1 [v|e]] eqn:Hx; cbn [fst] in *; [|injection H as <- _; exact R1]. destruct (fit sv b1) as [[b2 s]|e] eqn:F; [|injection H as <- _; exact R1].
  destruct (audit_loop E sv b2 l) as [b3 q] eqn:L. assert (b' = b3) as -> by (destruct q; injection H as <- _; reflexivity). eapply IH; [|exact L]. eapply reach_fit; eauto.
Qed.
Lemma audit_reach {I} E sv b (X : list (I * list fl)) y : builder_reachable E sv b -> builder_reachable E sv (fst (audit E sv b X y)).
Proof.
  intro HR. unfold audit. match goal with |- context [match ?p with Ok _ => _ | Err _ => _ end] => destruct p as [rows|e] end; [|exact HR]. cbv zeta.
  destruct (audit_loop E sv b _) as [b' [out|e]] eqn:L; [destruct out|]; cbn [fst]; eapply loop_reach; eauto.
Qed.
(** The entry of an audited row. *)
Lemma result_judged E sv b y rows b' out r : builder_reachable E sv b -> audit_loop E sv b (todo_of b y rows) = (b', Ok out) -> In r rows ->
  to_audit (bd_w b) (bd_t b) y r = true -> exists v, result_of rows out r = Some v /\ judged E sv b r v.
Proof.
  intros HR H Hr T. destruct (result_of rows out r) as [v|] eqn:Er; [|apply (result_none _ _ _ _ _ _ _ _ H Hr) in Er; congruence]. exists v. split; [reflexivity|].
  unfold result_of in Er. apply lookup_In in Er. pose proof (loop_each _ _ _ _ _ _ HR H) as F. apply unique_rows_In in Hr. pose proof (row_pos_nth _ _ Hr) as HP.
  apply In_nth_error in Er. destruct Er as (k & Hk). apply Forall2_nth in F. destruct F as [LL F]. destruct (nth_error (todo_of b y rows) k) as [[i u]|] eqn:Et.
  - destruct (F k _ _ Et Hk) as [F1 F2]. cbn in F1, F2. subst i. apply nth_error_In in Et. apply todo_In in Et. destruct Et as [Et _]. rewrite HP in Et. injection Et as ->. exact F2.
  - exfalso. apply nth_error_None in Et. assert (nth_error out k <> None) as N by congruence. apply nth_error_Some in N. lia.
Qed.

(** ** The auditor's builder *)
Lemma sbf_trans A B C : same_but_flips A B -> same_but_flips B C -> same_but_flips A C.
Proof.
  intros (A1 & A2 & A3 & A4) (B1 & B2 & B3 & B4). split; [congruence|]. split; [congruence|]. split; [congruence|].
  revert A4 B4. generalize (as_elems A) (as_elems B) (as_elems C). clear. intros l m n H. revert n. induction H as [|e e' l m (f & ->) H IH]; intros n K; inversion K as [|? e2 ? n' (g & ->) K2]; subst; constructor; [exists g; reflexivity|auto].
Qed.
Lemma auditor_fresh E k A w t b : aset_reachable E A -> auditor_created E k A w t b ->
  fresh E k A w t CMax b /\ flips_match (bd_A b) w /\ builder_created E b.
Proof.
  intros HA HC. destruct (auditor_parts _ _ _ _ _ _ HC) as (A1 & H1 & H2). pose proof (wf_len _ _ (reachable_wf _ _ HA)) as HLe.
  pose proof (align_sbf _ _ _ HLe H1) as SB. pose proof (align_flips _ _ _ _ _ (parse_vec w) H1 HLe) as FL.
  assert (R1 : aset_reachable E A1). { pose proof (aset_reachable_step E A (OAlign {| k_clf := None; k_classifier := None; k_coefs := None; k_intercept := None; a_pos := [AVec (map Fin w)] |}) HA) as K. cbn [aset_step] in K. now rewrite H1 in K. }
  pose proof (created_fresh _ _ _ _ _ _ _ _ R1 (coef_parse w t) H2) as F. pose proof (fr_sbf _ _ _ _ _ _ _ F) as SB2.
  assert (FM : flips_match A1 w) by (apply FL; destruct (reachable_wf _ _ HA) as (_ & _ & _ & _ & _ & Y); exact Y).
  split; [|split].
  - constructor; try apply F.
    + eapply sbf_trans; eauto.
    + rewrite <- (sbf_len _ _ SB). apply F.
    + exact HLe.
    + rewrite (fr_max _ _ _ _ _ _ _ F). f_equal. now apply with_flip_actionable.
    + intros _. apply (fr_flips _ _ _ _ _ _ _ F). now right.
  - apply (fr_flips _ _ _ _ _ _ _ F). now right.
  - exists k, A1, (coef_args w t), CMax, None. auto.
Qed.
Lemma used_same E sv b0 ops : only_audits ops -> builder_reachable E sv b0 -> builder_reachable E sv (auditor_run E sv b0 ops) /\ same_problem b0 (auditor_run E sv b0 ops).
Proof.
  unfold auditor_run. revert b0. induction ops as [|[X y|o] ops IH]; intros b0 HO HR; cbn.
  - split; [exact HR|apply same_refl].
  - destruct (IH (fst (audit E sv b0 X y))) as [K1 K2]; [intros o Ho; apply (HO o); now right|now apply audit_reach|]. split; [exact K1|]. eapply same_problem_trans; [exact (audit_same E sv b0 X y)|exact K2].
  - destruct (HO o). now left.
Qed.
Lemma fresh_same E k A w t ct b b' : fresh E k A w t ct b -> same_problem b b' -> fresh E k A w t ct b'.
Proof. intros [] (S1 & S2 & S3 & S4 & S5 & S6 & S7). constructor; try congruence; rewrite S4; assumption. Qed.
Lemma used_fresh E sv k A w t b : aset_reachable E A -> auditor_used E sv k A w t b -> builder_reachable E sv b /\ fresh E k A w t CMax b /\ flips_match (bd_A b) w.
Proof.
  intros HA (b0 & ops & HC & HO & ->). destruct (auditor_fresh _ _ _ _ _ _ HA HC) as (F & FM & C). assert (R0 : builder_reachable E sv b0) by (exists b0, []; auto).
  destruct (used_same E sv b0 ops HO R0) as [K1 K2]. split; [exact K1|]. split; [eapply fresh_same; eauto|]. destruct K2 as (_ & _ & _ & K2 & _). now rewrite K2.
Qed.
Lemma used_reachable E sv k A w t b : auditor_used E sv k A w t b -> auditor_reachable E sv k A w t b.
Proof. intros (b0 & ops & HC & _ & ->). exists b0, ops. auto. Qed.

(** ** C52 *)
Lemma side_sign y y' s : (0 <? y)%Z = (0 <? y')%Z -> on_side y s = on_side y' s.
Proof. unfold on_side. now intros ->. Qed.
Lemma denied_audited y w t r : denied y (score w t r) -> to_audit w t y r = true.
Proof.
  intro H. destruct (to_audit w t y r) eqn:T; [reflexivity|]. exfalso. apply to_audit_iff in T. apply H. unfold has_outcome, on_side in *. destruct (0 <? y)%Z; [exact T|]. now apply Qclt_le_weak.
Qed.
Lemma table_inj {I} (X Y : list (I * list Qc)) : table_of X = table_of Y -> X = Y.
Proof.
  revert Y. induction X as [|[i r] X IH]; intros [|[j u] Y] E; try discriminate E; [reflexivity|]. cbn in E. injection E as <- E1 E2. f_equal; [|now apply IH].
  f_equal. assert (finite_all (map Fin u) = finite_all (map Fin r)) as K by now rewrite E1. rewrite !finite_all_fin in K. congruence.
Qed.
Lemma Forall2_map_r {A B} (P : A -> B -> Prop) (f : A -> B) l : (forall a, In a l -> P a (f a)) -> Forall2 P l (map f l).
Proof. induction l as [|a l IH]; intro H; cbn; constructor; [apply H; now left|]. apply IH. intros; apply H; now right. Qed.

Lemma c52 {I} E sv k A w t b (X : list (I * list Qc)) y b' out : ok_env E -> sound_solver sv -> finishing_solver sv -> density E ->
  aset_reachable E A -> current_percentiles A -> auditor_used E sv k A w t b -> (0 <? y)%Z = (0 <? as_y A)%Z ->
  audit E sv b (table_of X) y = (b', Ok out) ->
  Forall2 (fun p q => orderly E A w (snd p) -> denied y (score w t (snd p)) ->
    ((exists c, snd q = Some (true, Fin c)) <-> exists a, permitted_action A (snd p) a /\ movable_only A (snd p) a /\ compliant A (snd p) a /\ on_side y (score w t (vadd (snd p) a))) /\
    (snd q = Some (false, PosInf) <-> forall a, permitted_action A (snd p) a -> movable_only A (snd p) a -> compliant A (snd p) a -> ~ on_side y (score w t (vadd (snd p) a)))) X out.
Proof.
  intros HE HS HF HD HA HCu HUs Hy H. destruct (used_fresh _ _ _ _ _ _ _ HA HUs) as (HR & F & FM).
  apply audit_ok in H. destruct H as (X0 & E0 & HN & HL & Hlab & o & Ho & _ & ->). apply table_inj in E0. subst X0.
  apply Forall2_map_r. intros [i r] Hp. cbn [fst snd]. intros HO Hden. pose proof (HL _ Hp) as HLr. cbn [snd] in HLr.
  pose proof (fr_w _ _ _ _ _ _ _ F) as Ew. pose proof (fr_t _ _ _ _ _ _ _ F) as Et.
  destruct (result_judged E sv b y (map snd X) b' o r HR Ho) as (v & -> & bi & b0 & b1 & s & SP & HAs & Hf & ->).
  { apply in_map_iff. exists (i, r). auto. } { rewrite Ew, Et. now apply denied_audited. }
  assert (Fi : fresh E k A w t CMax bi) by (eapply fresh_same; eauto). pose proof (fr_sbf _ _ _ _ _ _ _ Fi) as SB. pose proof SB as (S1 & S2 & S3 & S4).
  assert (FMi : flips_match (bd_A bi) w) by (destruct SP as (_ & _ & _ & SA & _); now rewrite SA).
  assert (HLx : length r = as_len A) by (rewrite HLr, Ew; apply F).
  assert (D : denied (as_y A) (score w t r)) by (unfold denied in *; now rewrite <- (side_sign y _ _ Hy)).
  destruct (verdict_every E sv bi r b0 HE HS HAs HF HD) as (b1' & s' & Hf' & Hv).
  - rewrite (fr_cost _ _ _ _ _ _ _ Fi). intro Q; discriminate Q.
  - rewrite (fr_w _ _ _ _ _ _ _ Fi). now apply (sbf_orderly E A).
  - now rewrite (fr_w _ _ _ _ _ _ _ Fi).
  - eapply sbf_current; eauto.
  - rewrite (fr_min _ _ _ _ _ _ _ Fi). lia.
  - rewrite S3, (fr_w _ _ _ _ _ _ _ Fi), (fr_t _ _ _ _ _ _ _ Fi). exact D.
  - rewrite Hf in Hf'. injection Hf' as <- <-. rewrite S3, (fr_w _ _ _ _ _ _ _ Fi), (fr_t _ _ _ _ _ _ _ Fi) in Hv.
    assert (Hmax : forall a, permitted_action A r a -> (Z.of_nat (n_changed a) <= bd_max bi)%Z) by (intros a Ha; eapply fresh_max; eauto).
    assert (Hside : forall q, on_side y q = on_side (as_y A) q) by (intro q; now apply side_sign).
    destruct s as [s|]; cbn [verdict_of].
    + destruct (fit_some E sv bi r b0 HE HS HAs b1 s Hf) as (K1 & _ & K3). rewrite S3, (fr_w _ _ _ _ _ _ _ Fi), (fr_t _ _ _ _ _ _ _ Fi) in K3. apply (sbf_permitted _ _ _ _ SB) in K1.
      assert (K4 : compliant A r (s_actions s)). { apply (sbf_compliant _ _ _ _ SB). apply (fit_compliant E sv bi r b0 HE HS HAs b1 s Hf); rewrite (fr_w _ _ _ _ _ _ _ Fi); [now apply (sbf_orderly E A)|exact FMi]. }
      pose proof (proj1 (sbf_movable _ _ _ _ SB) (fit_movable E sv bi r b0 HE HS HAs b1 s Hf)) as K5. split.
      * split; [intros _; exists (s_actions s); rewrite Hside; auto|]. intros _. eauto.
      * split; [intro Q; discriminate Q|]. intro Q. destruct (Q _ K1 K5 K4). rewrite Hside. exact K3.
    + assert (Q : forall a, permitted_action A r a -> movable_only A r a -> compliant A r a -> ~ on_side (as_y A) (score w t (vadd r a))) by (intros a Ha Hm Hc; apply (proj1 Hv eq_refl); [now apply (sbf_permitted _ _ _ _ SB)|now apply (sbf_movable _ _ _ _ SB)|auto|now apply (sbf_compliant _ _ _ _ SB)]). split.
      * split; [intros (c & K); discriminate K|]. intros (a & Ha & Hm & Hc & Hs). rewrite Hside in Hs. destruct (Q a Ha Hm Hc Hs).
      * split; [|reflexivity]. intros _ a Ha Hm Hc. rewrite Hside. now apply Q.
Qed.
(** The reported cost is the cost of a permitted action that reaches the action set's desired outcome. *)
Lemma c52_cost {I} E sv k A w t b (X : list (I * list Qc)) y b' out : ok_env E -> sound_solver sv -> finishing_solver sv ->
  aset_reachable E A -> auditor_used E sv k A w t b -> audit E sv b (table_of X) y = (b', Ok out) ->
  Forall2 (fun p q => forall f c, snd q = Some (f, c) ->
    (f = false /\ c = PosInf) \/
    (f = true /\ exists a cs m, c = Fin m /\ permitted_action A (snd p) a /\ (1 <= n_changed a)%nat /\ on_side (as_y A) (score w t (vadd (snd p) a)) /\
      (orderly E A w (snd p) -> compliant A (snd p) a) /\ action_costs E CMax A (snd p) a cs /\ largest cs m /\ 0 < m)) X out.
Proof.
  intros HE HS HF HA HUs H. destruct (used_fresh _ _ _ _ _ _ _ HA HUs) as (HR & F & FM).
  apply audit_ok in H. destruct H as (X0 & E0 & HN & HL & Hlab & o & Ho & _ & ->). apply table_inj in E0. subst X0.
  apply Forall2_map_r. intros [i r] Hp. cbn [fst snd]. intros f c Hq.
  destruct (to_audit (bd_w b) (bd_t b) y r) eqn:T; [|apply (result_none _ _ _ _ _ _ _ r Ho) in T; [congruence|apply in_map_iff; exists (i, r); auto]].
  destruct (result_judged E sv b y (map snd X) b' o r HR Ho) as (v & Hv & bi & b0 & b1 & s & SP & HAs & Hf & ->); [apply in_map_iff; exists (i, r); auto|exact T|]. rewrite Hv in Hq. injection Hq as Hq.
  assert (Fi : fresh E k A w t CMax bi) by (eapply fresh_same; eauto). pose proof (fr_sbf _ _ _ _ _ _ _ Fi) as SB. pose proof SB as (S1 & S2 & S3 & S4).
  destruct s as [s|]; cbn [verdict_of] in Hq; injection Hq as <- <-; [right|left; auto]. split; [reflexivity|].
  destruct (fit_some E sv bi r b0 HE HS HAs b1 s Hf) as (K1 & K2 & K3). rewrite S3, (fr_w _ _ _ _ _ _ _ Fi), (fr_t _ _ _ _ _ _ _ Fi) in K3. apply (sbf_permitted _ _ _ _ SB) in K1.
  assert (Ses : session sv b0 ([s] ++ []) b1) by (exact (ses_fit sv b0 b1 (Some s) [] b1 Hf (ses_done sv b1))).
  destruct (c31_thm E sv bi r b0 _ b1 s HE HS HAs Ses (or_introl eq_refl)) as (N1 & _ & N3).
  destruct (c30_costs E sv bi r b0 _ b1 s HE HS HF HAs (fr_cost _ _ _ _ _ _ _ Fi) Ses (or_introl eq_refl)) as (P1 & P2). rewrite (fr_cost _ _ _ _ _ _ _ Fi) in P1.
  exists (s_actions s), (s_costs s), (s_cost s). split; [reflexivity|]. split; [exact K1|]. split; [exact N1|]. split; [exact K3|].
  split. { intro HO. apply (sbf_compliant _ _ _ _ SB). destruct SP as (_ & _ & _ & SA & _). apply (fit_compliant E sv bi r b0 HE HS HAs b1 s Hf); rewrite (fr_w _ _ _ _ _ _ _ Fi); [now apply (sbf_orderly E A)|now rewrite SA]. }
  split; [exact (sbf_costs' _ _ _ _ _ _ _ SB P1)|]. split; [exact P2|exact N3].
Qed.
