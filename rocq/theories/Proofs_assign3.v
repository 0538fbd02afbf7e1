(** Concrete cases for assignments, audits and edited action sets. *)
From Verif Require Import Proofs_props_element Proofs_props_actionset Spec_recourse Proofs_mip Proofs_info Proofs_vec Proofs_build Proofs_enum Proofs_session Proofs_recourse Proofs_subset Proofs_exchange Proofs_far Proofs_concrete Proofs_builder Proofs_builder2 Proofs_builder3 Proofs_builder4 Proofs_builder5 Proofs_scen Proofs_scen2 Proofs_builder6 Proofs_builder7 Proofs_builder8 Proofs_constrained Proofs_assign Spec_audit Proofs_audit Proofs_audit2 Proofs_audit3 Proofs_audit4 Proofs_assign2.
#[local] Open Scope string_scope.
#[local] Open Scope list_scope.
#[local] Open Scope Qc_scope.

Definition answers0b (A : action_set) : bool := forallb (fun e => match percentile env0 e 0 with Ok _ => true | _ => false end) (as_elems A).
Lemma answers0b_ok A : answers0b A = true -> answers env0 A.
Proof.
  unfold answers0b. intros H j e v He. rewrite forallb_forall in H. specialize (H e (nth_error_In _ _ He)). destruct (percentile env0 e 0) as [p|] eqn:Ep; [|discriminate H]. clear -Ep.
  unfold percentile in *. destruct (get_interp env0 e) as [[g h]|]; [|discriminate Ep]. cbn [bind] in *. eauto.
Qed.
Definition tiny_freeb (w : list Qc) : bool := forallb (fun c => (c =? 0) || (qfrac 1 100000000 <? qabs c)) w.
Lemma tiny_freeb_ok w : tiny_freeb w = true -> tiny_free w.
Proof.
  unfold tiny_freeb. intros H j wj Hj. rewrite forallb_forall in H. specialize (H wj (nth_error_In _ _ Hj)). apply orb_true_iff in H. destruct H as [H|H]; qbool; auto.
Qed.

(** ** A coefficient within np.isclose of 0, but not 0 *)
Definition w_tiny : list Qc := [qfrac 1 1000000000; z 1].
Definition sc64 ct := mk env0 tab2 ["a"; "b"] 1 [] PyMIP w_tiny (- z 3) ct x01.
Lemma c64_refuted : exists b x, (forall sv, builder_reachable env0 sv b) /\ bd_cost b = CMax /\ unconstrained (bd_A b) /\ flips_match (bd_A b) (bd_w b) /\ current_percentiles (bd_A b) /\
  length x = length (bd_w b) /\ answers env0 (bd_A b) /\ regular env0 (bd_A b) x /\ denied (as_y (bd_A b)) (score (bd_w b) (bd_t b) x) /\
  (exists a, acceptable b x a) /\ snd (set_x env0 b x) = Err AssertionError.
Proof.
  set (a := [z 0; z 2]).
  assert (H : ok_and (sc_builder (sc64 CMax)) (fun b => match bd_cost b with CMax => true | _ => false end && regularb env0 (bd_A b) (bd_w b) x01 && Nat.eqb 2 (length (bd_w b)) && answers0b (bd_A b) &&
     negb (on_sideb (as_y (bd_A b)) (score (bd_w b) (bd_t b) x01)) && acceptableb b x01 a && match snd (set_x env0 b x01) with Err AssertionError => true | _ => false end) = true) by (vm_compute; reflexivity).
  apply ok_and_true in H. destruct H as (b & Hb & H). do 6 (apply andb_true_iff in H; destruct H as [H ?]). exists b, x01. apply regularb_ok in H5. destruct H5 as (R1 & R2 & R3 & R4 & R5).
  split; [intro sv; exact (sc_builder_reachable _ _ sv Hb)|]. split; [destruct (bd_cost b); congruence|]. do 3 (split; [assumption|]). split; [now apply Nat.eqb_eq|]. split; [now apply answers0b_ok|]. split; [exact R3|].
  split; [apply deniedb, negb_true_iff, H2|]. split; [exists a; now apply acceptableb_ok|]. destruct (snd (set_x env0 b x01)) as [|[]]; try discriminate H0; reflexivity.
Qed.
(** A case for the positive theorem. *)
Lemma c64_case : forall ct, exists b x, (forall sv, builder_reachable env0 sv b) /\ bd_cost b = ct /\ unconstrained (bd_A b) /\ flips_match (bd_A b) (bd_w b) /\
  length x = length (bd_w b) /\ answers env0 (bd_A b) /\ regular env0 (bd_A b) x /\ tiny_free (bd_w b) /\
  exists a, permitted_action (bd_A b) x a /\ worthwhile (bd_A b) (bd_w b) a /\ (1 <= n_changed a)%nat.
Proof.
  intro ct. set (a := [z 3; z 2]).
  assert (H : ok_and (sc_builder (sc2 PyMIP ct (- z 3))) (fun b => match bd_cost b, ct with CMax, CMax | CTotal, CTotal | CLocal, CLocal => true | _, _ => false end && regularb env0 (bd_A b) (bd_w b) x01 && Nat.eqb 2 (length (bd_w b)) && answers0b (bd_A b) &&
     acceptableb b x01 a && tiny_freeb (bd_w b)) = true) by (destruct ct; vm_compute; reflexivity).
  apply ok_and_true in H. destruct H as (b & Hb & H). do 5 (apply andb_true_iff in H; destruct H as [H ?]). exists b, x01. apply regularb_ok in H4. destruct H4 as (R1 & R2 & R3 & R4 & R5). apply acceptableb_ok in H1. destruct H1 as (P1 & P2 & P3 & _).
  split; [intro sv; exact (sc_builder_reachable _ _ sv Hb)|]. split; [destruct (bd_cost b), ct; congruence|]. do 2 (split; [assumption|]). split; [now apply Nat.eqb_eq|]. split; [now apply answers0b_ok|]. split; [exact R3|]. split; [now apply tiny_freeb_ok|].
  exists a. split; [exact P1|]. split; [exact P2|]. unfold size_between in P3. lia.
Qed.

Lemma unconstrained_one_way A x : unconstrained A -> one_way A x.
Proof. intros HU j e xj HC. destruct (unconstrained_at A j HU HC). Qed.

(** ** A constrained feature that may move up and down *)
Definition x11 : list Qc := [z 1; z 1].
Definition sc64b := mk env0 tab2 ["a"; "b"] 1 [OAdd ["a"; "b"] (z 0) (z 2) (Some "two")] PyMIP [z 1; z 1] (- z 4) CMax x11.
Lemma c64_both_ways : exists b x, (forall sv, builder_reachable env0 sv b) /\ bd_cost b = CMax /\ orderly env0 (bd_A b) (bd_w b) x /\ flips_match (bd_A b) (bd_w b) /\ current_percentiles (bd_A b) /\
  length x = length (bd_w b) /\ answers env0 (bd_A b) /\ regular env0 (bd_A b) x /\ tiny_free (bd_w b) /\ denied (as_y (bd_A b)) (score (bd_w b) (bd_t b) x) /\
  (exists a, acceptable b x a) /\ snd (set_x env0 b x) = Err AssertionError.
Proof.
  set (a := [z 1; z 2]).
  assert (H : ok_and (sc_builder sc64b) (fun b => match bd_cost b with CMax => true | _ => false end && in_lineb (bd_A b) (bd_w b) x11 && nonnegb (bd_A b) x11 && strictb env0 (bd_A b) x11 && resolvableb (bd_A b) x11 && flipsb (bd_A b) (bd_w b) && currentb (bd_A b) &&
     Nat.eqb 2 (length (bd_w b)) && answers0b (bd_A b) && tiny_freeb (bd_w b) && negb (on_sideb (as_y (bd_A b)) (score (bd_w b) (bd_t b) x11)) && fitting_b b x11 a && match snd (set_x env0 b x11) with Err AssertionError => true | _ => false end) = true) by (vm_compute; reflexivity).
  apply ok_and_true in H. destruct H as (b & Hb & H). do 12 (apply andb_true_iff in H; destruct H as [H ?]). exists b, x11.
  assert (HR : regular env0 (bd_A b) x11) by (split; [now apply strictb_ok|now apply resolvableb_ok]).
  split; [intro sv; exact (sc_builder_reachable _ _ sv Hb)|]. split; [destruct (bd_cost b); congruence|]. split; [now apply orderlyb_ok|]. split; [now apply flipsb_ok|]. split; [now apply currentb_ok|].
  split; [now apply Nat.eqb_eq|]. split; [now apply answers0b_ok|]. split; [exact HR|]. split; [now apply tiny_freeb_ok|].
  split; [apply deniedb, negb_true_iff; assumption|]. split; [exists a; now apply fitting_b_ok|]. destruct (snd (set_x env0 b x11)) as [|[]]; try discriminate H0; reflexivity.
Qed.
(** A constrained case for the positive theorem. *)
Lemma c64_con_case : forall ct, exists b x c, (forall sv, builder_reachable env0 sv b) /\ bd_cost b = ct /\ stored (as_cons (bd_A b)) "one" c /\ c_indices c = [0; 1]%nat /\
  in_line (bd_A b) (bd_w b) x /\ one_way (bd_A b) x /\ flips_match (bd_A b) (bd_w b) /\
  length x = length (bd_w b) /\ answers env0 (bd_A b) /\ regular env0 (bd_A b) x /\ tiny_free (bd_w b) /\
  exists a, permitted_action (bd_A b) x a /\ worthwhile (bd_A b) (bd_w b) a /\ (1 <= n_changed a)%nat.
Proof.
  intro ct. set (a := [- z 1; z 1; z 1]).
  assert (H : ok_and (sc_builder (sc_con PyMIP ct)) (fun b => con_pre PyMIP ct b && Nat.eqb 3 (length (bd_w b)) && answers0b (bd_A b) && tiny_freeb (bd_w b)) = true) by (destruct ct; vm_compute; reflexivity).
  apply ok_and_true in H. destruct H as (b & Hb & H). do 3 (apply andb_true_iff in H; destruct H as [H ?]). rename H into HP.
  unfold con_pre in HP. do 16 (apply andb_true_iff in HP; destruct HP as [HP ?]).
  assert (HC : exists c, stored (as_cons (bd_A b)) "one" c /\ c_indices c = [0; 1]%nat /\ c_lb c = 0%Z /\ c_ub c = 1%Z) by (now apply conb_ok).
  destruct HC as (c & C1 & C2 & _). exists b, x100, c. split; [intro sv; exact (sc_builder_reachable _ _ sv Hb)|]. split; [destruct (bd_cost b), ct; congruence|]. split; [exact C1|]. split; [exact C2|].
  split; [now apply in_lineb_ok|]. split; [now apply one_wayb_ok|]. split; [now apply flipsb_ok|]. split; [now apply Nat.eqb_eq|]. split; [now apply answers0b_ok|]. split; [split; [now apply strictb_ok|now apply resolvableb_ok]|]. split; [now apply tiny_freeb_ok|].
  exists a. assert (HA : acceptable b x100 a) by (now apply fitting_b_ok). destruct HA as (P1 & P2 & _ & _). split; [exact P1|]. split; [exact P2|]. vm_compute. lia.
Qed.
(** ** Audits *)
Lemma c65_case : exists A b, aset_reachable env0 A /\ auditor_created env0 PyMIP A [z 1; z 1] (- z 3) b /\ unconstrained A /\ answers env0 A /\ tiny_free [z 1; z 1] /\ as_len A = 2%nat /\
  (regular env0 A x01 /\ in_line A [z 1; z 1] x01 /\ one_way A x01) /\ ~ has_outcome 1 (score [z 1; z 1] (- z 3) x01) /\ has_outcome 1 (score [z 1; z 1] (- z 3) x44).
Proof.
  destruct (aud_case_ok (sc52 (- z 3)) (fun A b => unconstrainedb A && answers0b A && tiny_freeb [z 1; z 1] && Nat.eqb (as_len A) 2 && (strictb env0 A x01 && resolvableb A x01))) as (A & b & HA & HC & HT); [vm_compute; reflexivity|].
  do 4 (apply andb_true_iff in HT; destruct HT as [HT ?]). apply andb_true_iff in H. destruct H as [I1 I2]. change (sc_env (sc52 (- z 3))) with env0 in *. exists A, b. split; [exact HA|]. split; [exact HC|].
  split; [now apply unconstrainedb_ok|]. split; [now apply answers0b_ok|]. split; [now apply tiny_freeb_ok|]. split; [now apply Nat.eqb_eq|]. split; [split; [split; [now apply strictb_ok|now apply resolvableb_ok]|]; pose proof (unconstrainedb_ok _ HT) as HU; split; [now apply unconstrained_in_line|now apply unconstrained_one_way]|].
  unfold has_outcome. change (0 <? 1)%Z with true. cbn iota. split; [intro Q; apply qle_iff in Q; vm_compute in Q; discriminate Q|apply qle_iff; vm_compute; reflexivity].
Qed.

(** ** The action set is edited after the builder was created *)
Definition sc67 := mk env0 tab2 ["a"; "b"] 1 [OIndexSet (IStr "a") "actionable" (PBool false)] PyMIP [z 1; z 1] (- z 5) CTotal x01.
Definition op67 : aset_op := OIndexSet (IStr "a") "actionable" (PBool true).
Lemma c67_refuted : exists b o x a b1, builder_created env0 b /\ b1 = with_aset b (aset_step env0 (bd_A b) o) /\ plain_setup env0 b1 x /\ fits_grids (bd_A b1) x /\
  permitted_action (bd_A b1) x a /\ on_side (as_y (bd_A b1)) (score (bd_w b1) (bd_t b1) (vadd x a)) /\
  forall sv, sound_solver sv -> finishing_solver sv -> exists c0 c1, set_x env0 b1 x = (c0, Ok tt) /\ fit sv c0 = Ok (c1, None).
Proof.
  set (a := [z 3; z 2]).
  assert (H : ok_and (sc_builder sc67) (fun b => let b1 := with_aset b (aset_step env0 (bd_A b) op67) in good_setupb env0 b1 x01 && fitsb (bd_A b1) x01 && permittedb (bd_A b1) x01 a && on_sideb (as_y (bd_A b1)) (score (bd_w b1) (bd_t b1) (vadd x01 a)) &&
     x_test env0 b1 x01 (fun r => match r with None => true | Some _ => false end)) = true) by (vm_compute; reflexivity).
  apply ok_and_true in H. destruct H as (b & Hb & H). cbv zeta in H. do 4 (apply andb_true_iff in H; destruct H as [H ?]). pose proof (sc_created _ _ Hb) as HC. change (sc_env sc67) with env0 in HC.
  exists b, op67, x01, a, (with_aset b (aset_step env0 (bd_A b) op67)). split; [exact HC|]. split; [reflexivity|]. split; [eapply good_setupb_ok; eassumption|]. split; [now apply fitsb_ok|]. split; [now apply permittedb_ok|]. split; [now apply on_sideb_iff|].
  intros sv HS HF. assert (RC : builder_reachable env0 sv (with_aset b (aset_step env0 (bd_A b) op67))) by (apply (reach_step env0 sv b (BAset op67)); exists b, []; split; [exact HC|reflexivity]).
  destruct (x_test_ok env0 sv _ _ _ env0_ok HS HF RC H0) as (c0 & c1 & [s|] & P1 & P2 & P3); [discriminate P3|]. eauto.
Qed.
Lemma c67 E sv b x b0 : ok_env E -> sound_solver sv -> finishing_solver sv -> density E -> log_ok E (bd_cost b) -> assigned E sv b x b0 -> good_setup E b x ->
  (Z.of_nat (n_actionable_features (bd_A b)) <= bd_max b)%Z ->
  exists b1 r, fit sv b0 = Ok (b1, r) /\
    match r with
    | Some s => permitted_action (bd_A b) x (s_actions s) /\ movable_only (bd_A b) x (s_actions s) /\ on_side (as_y (bd_A b)) (score (bd_w b) (bd_t b) (vadd x (s_actions s))) /\ compliant (bd_A b) x (s_actions s)
    | None => forall a, permitted_action (bd_A b) x a -> movable_only (bd_A b) x a -> compliant (bd_A b) x a -> ~ on_side (as_y (bd_A b)) (score (bd_w b) (bd_t b) (vadd x a))
    end.
Proof.
  intros HE HS HF HD HL HA (G1 & G2 & G3 & G4 & G5) HM. destruct (fit_total E sv b x b0 HE HS HA) as (b1 & r & Hf). exists b1, r. split; [exact Hf|]. destruct r as [s|].
  - destruct (fit_some E sv b x b0 HE HS HA b1 s Hf) as (P1 & _ & P3). split; [exact P1|]. split; [exact (fit_movable E sv b x b0 HE HS HA b1 s Hf)|]. split; [exact P3|]. exact (fit_compliant E sv b x b0 HE HS HA b1 s Hf G1 G2).
  - intros a Ha HMv HCp. eapply (c27_movable E sv b x b0 HE HS HA b1 a); eauto. pose proof HA as [HB Hx]. destruct (reachable_sane E sv b HB) as (HW0 & Lw); pose proof (reachable_wf _ _ HW0) as HW. destruct (set_x_ok _ _ _ _ Hx) as (ms & EL & _).
    pose proof (changed_actionable (bd_A b) x a (wf_len _ _ HW) ltac:(congruence) Ha) as K. rewrite actionable_length in K. unfold n_actionable_features in HM. lia.
Qed.
Lemma c67_case : exists b o x b1, builder_created env0 b /\ b1 = with_aset b (aset_step env0 (bd_A b) o) /\ bd_A b1 <> bd_A b /\ (forall sv, exists b0, assigned env0 sv b1 x b0) /\ good_setup env0 b1 x /\ fits_grids (bd_A b1) x /\
  (Z.of_nat (n_actionable_features (bd_A b1)) <= bd_max b1)%Z.
Proof.
  assert (H : ok_and (sc_builder (sc2 PyMIP CTotal (- z 3))) (fun b => let b1 := with_aset b (aset_step env0 (bd_A b) (OIndexSet (IStr "a") "actionable" (PBool false))) in good_setupb env0 b1 x01 && fitsb (bd_A b1) x01 && (Z.of_nat (n_actionable_features (bd_A b1)) <=? bd_max b1)%Z &&
     negb (Nat.eqb (n_actionable_features (bd_A b1)) (n_actionable_features (bd_A b))) && match snd (set_x env0 b1 x01) with Ok _ => true | _ => false end) = true) by (vm_compute; reflexivity).
  apply ok_and_true in H. destruct H as (b & Hb & H). cbv zeta in H. do 4 (apply andb_true_iff in H; destruct H as [H ?]). pose proof (sc_created _ _ Hb) as HC. change (sc_env (sc2 PyMIP CTotal (- z 3))) with env0 in HC.
  set (b1 := with_aset b (aset_step env0 (bd_A b) (OIndexSet (IStr "a") "actionable" (PBool false)))) in *. exists b, (OIndexSet (IStr "a") "actionable" (PBool false)), x01, b1. split; [exact HC|]. split; [reflexivity|].
  split; [intro Q; rewrite Q, Nat.eqb_refl in H1; discriminate H1|]. split.
  { intro sv. destruct (set_x env0 b1 x01) as [b0 r] eqn:EX. cbn [snd] in H0. destruct r as [[]|]; [|discriminate H0]. exists b0. split; [|exact EX]. apply (reach_step env0 sv b (BAset _)); exists b, []; split; [exact HC|reflexivity]. }
  split; [eapply proj2, good_setupb_ok; eassumption|]. split; [now apply fitsb_ok|now apply Z.leb_le].
Qed.
