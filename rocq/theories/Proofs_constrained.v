(** Constrained action sets: decision procedures for concrete cases, and a case that meets all hypotheses. *)
From Verif Require Import Proofs_props_element Proofs_props_actionset Spec_recourse Proofs_mip Proofs_info Proofs_vec Proofs_build Proofs_enum Proofs_session Proofs_recourse Proofs_subset Proofs_exchange Proofs_far Proofs_concrete Proofs_builder Proofs_builder2 Proofs_builder3 Proofs_builder4 Proofs_builder5 Proofs_scen Proofs_scen2 Proofs_builder6 Proofs_builder7 Proofs_builder8.
#[local] Open Scope string_scope.
#[local] Open Scope list_scope.
#[local] Open Scope Qc_scope.

Definition constrainedb (A : action_set) (j : nat) : bool :=
  existsb (fun p => match dget (fst p) (r_cons (as_cons A)) with Some c => existsb (Nat.eqb j) (c_indices c) | None => false end) (r_cons (as_cons A)).
Lemma constrainedb_ok A j : constrainedb A j = true -> constrained_at A j.
Proof.
  unfold constrainedb. intro H. apply existsb_exists in H. destruct H as ((id & c0) & _ & H). cbn [fst] in H. destruct (dget id (r_cons (as_cons A))) as [c|] eqn:Ec; [|discriminate H].
  apply existsb_exists in H. destruct H as (j' & Hj & Q). apply Nat.eqb_eq in Q. subst j'. exists id, c. auto.
Qed.
Definition attainsb (y : Z) (s : Qc) : bool := if (0 <? y)%Z then 0 <? s else s <? 0.
Lemma attainsb_ok y s : attainsb y s = true -> attains y s.
Proof. unfold attainsb, attains. destruct (0 <? y)%Z; intro H; now qbool. Qed.
Definition can_helpb (y : Z) (wj : Qc) (d : Z) : bool := (negb (d =? -1)%Z && attainsb y wj) || (negb (d =? 1)%Z && attainsb y (- wj)).
Lemma can_helpb_ok y wj d : can_helpb y wj d = true -> can_help y wj d.
Proof.
  unfold can_helpb, can_help. intro H. apply orb_true_iff in H. destruct H as [H|H]; apply andb_true_iff in H; destruct H as [H1 H2]; apply negb_true_iff, Z.eqb_neq in H1; apply attainsb_ok in H2; [left|right]; auto.
Qed.
(** Every feature can be changed, usefully unless constrained. *)
Definition in_lineb (A : action_set) (w x : list Qc) : bool :=
  forallb (fun q => let '(i, (e, (wi, xi))) := q in e_actionable e && can_helpb (as_y A) wi (e_step_dir e) && (negb (e_gint e) || is_intb xi) &&
    existsb (fun v => negb (v =? xi) && (constrainedb A i || attainsb (as_y A) (wi * (v - xi)))) (targets e xi))
    (combine (seq 0 (length (as_elems A))) (combine (as_elems A) (combine w x))).
Lemma combine_at {B C} (l : list B) (m : list C) i u v : nth_error l i = Some u -> nth_error m i = Some v -> nth_error (combine l m) i = Some (u, v).
Proof. revert m i. induction l as [|a l IH]; intros [|b m] [|i] H1 H2; try discriminate; cbn in *; [congruence|auto]. Qed.
Lemma in_lineb_ok A w x : in_lineb A w x = true -> in_line A w x.
Proof.
  unfold in_lineb. intros H j i e wi xi _ _ He Hw Hx. rewrite forallb_forall in H.
  assert (L : (i < length (as_elems A))%nat) by (apply nth_error_Some; congruence).
  assert (Hs : nth_error (seq 0 (length (as_elems A))) i = Some i) by (now rewrite nth_error_nth' with (d := 0%nat), seq_nth by (rewrite ?seq_length; exact L)).
  specialize (H _ (nth_error_In _ _ (combine_at _ _ _ _ _ Hs (combine_at _ _ _ _ _ He (combine_at _ _ _ _ _ Hw Hx))))). cbn beta iota in H.
  do 3 (apply andb_true_iff in H; destruct H as [H ?]). split; [exact H|]. split; [now apply can_helpb_ok|]. split.
  - intro Hg. rewrite Hg in H1. cbn in H1. unfold is_intb in H1. qbool. exists (qfloor xi). exact H1.
  - apply existsb_exists in H0. destruct H0 as (v & Hv & H0). apply andb_true_iff in H0. destruct H0 as [N C]. exists v. split; [now apply targets_permitted|]. split; [now apply negb_true_iff, qeq_false in N|].
    apply orb_true_iff in C. destruct C as [C|C]; [left; now apply constrainedb_ok|right; now apply attainsb_ok].
Qed.
Definition nonnegb (A : action_set) (x : list Qc) : bool := forall_at (as_elems A) x (fun e xj => 0 <=? xj).
Lemma orderlyb_ok E A w x : in_lineb A w x = true -> nonnegb A x = true -> regular E A x -> orderly E A w x.
Proof.
  intros H1 H2 [R1 R2]. split; [now apply in_lineb_ok|]. intros j e xj _ He Hx. pose proof (forall_at_ok _ _ _ _ _ _ H2 He Hx) as G. cbn beta in G. split; [now qbool|]. split; [exact (R1 j e xj He Hx)|exact (R2 j e xj He Hx)].
Qed.
Definition one_wayb (A : action_set) (x : list Qc) : bool :=
  forall_at (as_elems A) x (fun e xj => (forallb (fun v => xj <=? v) (targets e xj) || forallb (fun v => v <=? xj) (targets e xj)) && (negb (0 <? xj) || existsb (qeq 0) (targets e xj))).
Lemma one_wayb_ok A x : one_wayb A x = true -> one_way A x.
Proof.
  intros H j e xj _ He Hx. pose proof (forall_at_ok _ _ _ _ _ _ H He Hx) as G. cbn beta in G. apply andb_true_iff in G. destruct G as [G1 G2]. split.
  - apply orb_true_iff in G1. destruct G1 as [G|G]; [left|right]; intros v Hv; rewrite forallb_forall in G; specialize (G v (targets_ok _ _ _ Hv)); now qbool.
  - intro P. apply orb_true_iff in G2. destruct G2 as [G|G]; [apply negb_true_iff in G; exfalso; qbool; qlra|]. apply existsb_exists in G. destruct G as (v & Hv & Q). qbool. subst v. now apply targets_permitted.
Qed.
Definition switches_offb (A : action_set) (x : list Qc) : bool :=
  forall_at (as_elems A) x (fun e xj => negb (0 <? xj) || forallb (fun v => (v =? xj) || (v =? 0)) (targets e xj)).
Lemma switches_offb_ok E A x : switches_offb A x = true -> switches_off E A x.
Proof.
  intros H j e xj v n _ _ He Hx P Hv. pose proof (forall_at_ok _ _ _ _ _ _ H He Hx) as G. cbn beta in G. apply orb_true_iff in G. destruct G as [G|G]; [apply negb_true_iff in G; exfalso; qbool; qlra|].
  rewrite forallb_forall in G. specialize (G v (targets_ok _ _ _ Hv)). apply orb_true_iff in G. destruct G; qbool; auto.
Qed.
Definition worthwhileb (A : action_set) (w a : list Qc) : bool :=
  forallb (fun q => let '(i, (wi, ai)) := q in (ai =? 0) || constrainedb A i || attainsb (as_y A) (wi * ai)) (combine (seq 0 (length w)) (combine w a)).
Lemma worthwhileb_ok A w a : worthwhileb A w a = true -> worthwhile A w a.
Proof.
  unfold worthwhileb. intros H i wi ai Hw Ha N. rewrite forallb_forall in H.
  assert (L : (i < length w)%nat) by (apply nth_error_Some; congruence).
  assert (Hs : nth_error (seq 0 (length w)) i = Some i) by (now rewrite nth_error_nth' with (d := 0%nat), seq_nth by (rewrite ?seq_length; exact L)).
  specialize (H _ (nth_error_In _ _ (combine_at _ _ _ _ _ Hs (combine_at _ _ _ _ _ Hw Ha)))). cbn beta iota in H.
  apply orb_true_iff in H. destruct H as [H|H]; [apply orb_true_iff in H; destruct H as [H|H]; [qbool; contradiction|left; now apply constrainedb_ok]|right; now apply attainsb_ok].
Qed.
Definition fitting_b (b : builder) (x a : list Qc) : bool :=
  permittedb (bd_A b) x a && worthwhileb (bd_A b) (bd_w b) a && sizeb (bd_min b) (bd_max b) a && on_sideb (as_y (bd_A b)) (score (bd_w b) (bd_t b) (vadd x a)) && compliantb (bd_A b) x a.
Lemma fitting_b_ok b x a : fitting_b b x a = true -> acceptable b x a.
Proof.
  unfold fitting_b. intro H. do 4 (apply andb_true_iff in H; destruct H as [H ?]). split; [now apply permittedb_ok|]. split; [now apply worthwhileb_ok|]. split; [now apply sizeb_ok|]. split; [now apply on_sideb_iff|now apply compliantb_ok].
Qed.

(** At most one of two indicators; the first is on and has to be switched off to reach the desired outcome. *)
Definition x100 : list Qc := [z 1; z 0; z 0].
Definition w121 : list Qc := [z 1; z 2; z 1].
Definition sc_con k ct := mk env0 tab3 ["a"; "b"; "c"] 1 [OAdd ["a"; "b"] (z 0) (z 1) (Some "one")] k w121 (- z 3) ct x100.
Definition con_pre (k : backend) (ct : cost_type) (b : builder) : bool :=
  in_lineb (bd_A b) (bd_w b) x100 && nonnegb (bd_A b) x100 && strictb env0 (bd_A b) x100 && resolvableb (bd_A b) x100 && flipsb (bd_A b) (bd_w b) && currentb (bd_A b) && (bd_min b <=? 1)%Z && deniedb' b x100 &&
  one_wayb (bd_A b) x100 && switches_offb (bd_A b) x100 && conb (bd_A b) "one" [0; 1]%nat 0 1 &&
  match bd_kind b, k with PyMIP, PyMIP | CPX, CPX => true | _, _ => false end && match bd_cost b, ct with CTotal, CTotal | CLocal, CLocal | CMax, CMax => true | _, _ => false end &&
  fitting_b b x100 [- z 1; z 1; z 1] && permittedb (bd_A b) x100 [z 0; z 1; z 0] && on_sideb (as_y (bd_A b)) (score (bd_w b) (bd_t b) (vadd x100 [z 0; z 1; z 0])) && negb (compliantb (bd_A b) x100 [z 0; z 1; z 0]).
Lemma compliantb_no E A x a : wf_aset E A -> compliantb A x a = false -> ~ compliant A x a.
Proof.
  intros HW H HC. assert (K : compliantb A x a = true); [|congruence]. apply forallb_forall. intros [id c] Hin. cbn [snd].
  pose proof HW as (_ & _ & _ & _ & [[_ HK] _] & _). destruct (HC id c (dget_of_In _ _ _ HK Hin)) as [H1 H2]. apply andb_true_iff. split; now apply Z.leb_le.
Qed.
Lemma constrained_case : forall k ct, exists b b0, (forall sv, assigned env0 sv b x100 b0) /\
  (exists c, stored (as_cons (bd_A b)) "one" c /\ c_indices c = [0; 1]%nat /\ c_lb c = 0%Z /\ c_ub c = 1%Z) /\
  good_setup env0 b x100 /\ regular env0 (bd_A b) x100 /\ fits_grids (bd_A b) x100 /\ switches_off env0 (bd_A b) x100 /\ one_way (bd_A b) x100 /\
  bd_kind b = k /\ bd_cost b = ct /\
  acceptable b x100 [- z 1; z 1; z 1] /\
  (permitted_action (bd_A b) x100 [z 0; z 1; z 0] /\ on_side (as_y (bd_A b)) (score (bd_w b) (bd_t b) (vadd x100 [z 0; z 1; z 0])) /\ ~ compliant (bd_A b) x100 [z 0; z 1; z 0]) /\
  forall sv, sound_solver sv -> finishing_solver sv -> exists b1 s, fit sv b0 = Ok (b1, Some s) /\ s_actions s = [- z 1; z 1; z 1].
Proof.
  intros k ct.
  destruct (forced (sc_con k ct) (con_pre k ct) (fun b r => match r with Some (a, _, _) => listeqb a [- z 1; z 1; z 1] | None => false end) env0_ok) as (b & b0 & HA & HP & HF); [destruct k, ct; vm_compute; reflexivity|].
  unfold con_pre in HP. do 16 (apply andb_true_iff in HP; destruct HP as [HP ?]).
  assert (HR : regular env0 (bd_A b) x100) by (split; [now apply strictb_ok|now apply resolvableb_ok]).
  exists b, b0. split; [exact HA|]. split; [now apply conb_ok|]. split.
  { split; [now apply orderlyb_ok|]. split; [now apply flipsb_ok|]. split; [now apply currentb_ok|]. split; [now apply Z.leb_le|now apply deniedb'_ok]. }
  split; [exact HR|]. split; [intros j e xj He Hx; now apply (proj2 HR j e xj)|]. split; [now apply switches_offb_ok|]. split; [now apply one_wayb_ok|].
  split; [destruct (bd_kind b), k; congruence|]. split; [destruct (bd_cost b), ct; congruence|]. split; [now apply fitting_b_ok|]. split.
  { split; [now apply permittedb_ok|]. split; [now apply on_sideb_iff|]. destruct (assigned_ready env0 _ b _ b0 env0_ok (HA (fun _ _ => SUnknown))) as (ms & R). apply (compliantb_no env0); [exact (rd_wf _ _ _ _ _ R)|now apply negb_true_iff]. }
  intros sv S F. destruct (HF sv S F) as (b1 & [s|] & Hf & Ht); [|discriminate Ht]. exists b1, s. split; [exact Hf|]. cbn [view] in Ht. now apply listeqb_ok.
Qed.
