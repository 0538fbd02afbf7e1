(** Counterexamples that settle the remaining parts of C38, C39, C40 and C52. *)
From Verif Require Import Proofs_props_element Proofs_props_actionset Spec_recourse Spec_audit Proofs_mip Proofs_info Proofs_vec Proofs_build Proofs_enum Proofs_session Proofs_recourse Proofs_subset Proofs_exchange Proofs_far Proofs_concrete Proofs_builder Proofs_builder2 Proofs_builder3 Proofs_builder4 Proofs_builder5 Proofs_builder6 Proofs_builder7 Proofs_builder8 Proofs_scen Proofs_scen2 Proofs_audit Proofs_audit2 Proofs_audit3 Proofs_audit4.
#[local] Open Scope string_scope.
#[local] Open Scope list_scope.
#[local] Open Scope Qc_scope.

(** C39: nothing is enumerated although an acceptable action exists. *)
Lemma c39_missed : exists b b0 x a, (forall sv, assigned env0 sv b x b0) /\ plain_setup env0 b x /\ acceptable b x a /\
  forall sv fuel et, sound_solver sv -> finishing_solver sv -> (0 < fuel)%nat -> exists b1, populate sv fuel None et b0 = Some (Ok (b1, [])).
Proof.
  set (a := [qfrac 1 2; z 2]).
  destruct (forced sc27 (fun b => good_setupb env0 b (sc_x sc27) && acceptableb b (sc_x sc27) a)
    (fun _ r => match r with None => true | Some _ => false end) env0_ok) as (b & b0 & H1 & H2 & H3); [vm_compute; reflexivity|].
  apply andb_true_iff in H2. destruct H2 as [H2 H4].
  exists b, b0, (sc_x sc27), a. split; [exact H1|]. split; [exact (good_setupb_ok _ _ _ H2)|]. split; [now apply acceptableb_ok|].
  intros sv fuel et HS HF Hf. destruct (H3 sv HS HF) as (b1 & [s|] & Hfit & Ht); [discriminate Ht|]. exists b1. destruct fuel as [|fuel]; [lia|].
  destruct (assigned_ready _ _ _ _ _ env0_ok (H1 sv)) as (ms & R). unfold populate. rewrite (gd_mip _ _ _ (rd_good _ _ _ _ _ R)). cbn [populate_loop]. now rewrite Hfit.
Qed.
Lemma populate_head sv fuel et b b1 s b2 l : fit sv b = Ok (b1, Some s) -> populate sv fuel (Some 1%nat) et b = Some (Ok (b2, l)) -> l = [s].
Proof.
  intros Hf HP. unfold populate in HP. destruct (bd_mip b) as [ms|]; [|discriminate HP]. destruct fuel as [|fuel]; [discriminate HP|]. cbn [populate_loop] in HP. rewrite Hf in HP.
  destruct (remove_solution et b1) as [b3|e]; [|discriminate HP]. cbn [option_map pred] in HP. destruct fuel; cbn [populate_loop] in HP; injection HP as _ <-; reflexivity.
Qed.
Lemma populate_two sv fuel et b b2 s s' : populate sv fuel (Some 2%nat) et b = Some (Ok (b2, [s; s'])) ->
  exists b1, populate sv fuel (Some 1%nat) et b = Some (Ok (b1, [s])) /\ populate_loop sv (pred fuel) (Some 1%nat) et b1 = Some (Ok (b2, [s'])).
Proof.
  intro HP. unfold populate in *. destruct (bd_mip b) as [ms|]; [|discriminate HP]. destruct fuel as [|fuel]; [discriminate HP|]. cbn [populate_loop] in HP |- *.
  destruct (fit sv b) as [[b1 [i|]]|]; try discriminate HP. destruct (remove_solution et b1) as [b3|e]; [|discriminate HP]. cbn [option_map pred] in HP |- *. exists b3.
  destruct (populate_loop sv fuel (Some 1%nat) et b3) as [[[b4 l]|]|] eqn:HL; try discriminate HP. injection HP as <- <- <-. split; [|reflexivity]. destruct fuel; reflexivity.
Qed.

(** C38: sc29 again; the answer that populate gives first is not the cheapest. *)
Lemma c38_outside : exists b b0 x a cs, (forall sv, assigned env0 sv b x b0) /\ plain_setup env0 b x /\ resolvable (bd_A b) x /\ bd_cost b = CTotal /\ acceptable b x a /\
  action_costs env0 CTotal (bd_A b) x a cs /\
  forall sv fuel et, sound_solver sv -> finishing_solver sv -> (4 < fuel)%nat -> exists b1 s, populate sv fuel (Some 1%nat) et b0 = Some (Ok (b1, [s])) /\ qsum cs < s_cost s.
Proof.
  set (a := [- z 2; z 0]). set (x := [z 5; z 0]).
  destruct (forced sc29 (fun b => good_setupb env0 b x && resolvableb (bd_A b) x && match bd_cost b with CTotal => true | _ => false end && acceptableb b x a && Nat.eqb (as_len (bd_A b)) 2
      && costs_test env0 CTotal (bd_A b) x a (fun cs => qsum cs <? 0))
    (fun b r => match r with None => false | Some (_, _, c) => 0 <? c end) env0_ok) as (b & b0 & H1 & H2 & H3); [vm_compute; reflexivity|].
  do 5 (apply andb_true_iff in H2; destruct H2 as [H2 ?]). apply costs_test_ok in H. destruct H as (cs & Hcs & Q). apply qlt_iff in Q. apply Nat.eqb_eq in H0.
  exists b, b0, x, a, cs. split; [exact H1|]. split; [exact (good_setupb_ok _ _ _ H2)|]. split; [now apply resolvableb_ok|]. split; [destruct (bd_cost b); try discriminate; reflexivity|].
  split; [now apply acceptableb_ok|]. split; [exact Hcs|].
  intros sv fuel et HS HF Hf. destruct (H3 sv HS HF) as (b1 & [s|] & Hfit & Ht); [|discriminate Ht].
  assert (F4 : (2 ^ as_len (bd_A b) < fuel)%nat) by (rewrite H0; exact Hf). assert (N1 : Some 1%nat <> Some 0%nat) by discriminate.
  destruct (c39_term_thm env0 sv b x b0 [] b0 fuel (Some 1%nat) et env0_ok HS (H1 sv) (en_done _ _) N1 F4) as (b2 & l & HP & _). pose proof (populate_head _ _ _ _ _ _ _ _ Hfit HP) as ->.
  exists b2, s. split; [exact HP|]. cbn in Ht. apply qlt_iff in Ht. qlra.
Qed.

(** C40: two calls of populate that return the same feature set (sc37). *)
Lemma c40_repeat : exists b b0 x, (forall sv, assigned env0 sv b x b0) /\ bd_kind b = CPX /\
  forall sv fuel fuel', sound_solver sv -> finishing_solver sv -> (4 < fuel)%nat -> (4 < fuel')%nat ->
    exists b1 s b2 s', populate sv fuel (Some 1%nat) DistinctSubsets b0 = Some (Ok (b1, [s])) /\ populate sv fuel' (Some 1%nat) DistinctSubsets b1 = Some (Ok (b2, [s'])) /\
      same_features (s_actions s) (s_actions s').
Proof.
  destruct (sc_check_ok (sc37 CPX) (fun b b0 => match bd_kind b with CPX => true | _ => false end && Nat.eqb (as_len (bd_A b)) 2 && pop_test b0 2 DistinctSubsets (fun l => match l with [a; a'] => same_featuresb a a' | _ => false end))) as (b & b0 & HR & H); [vm_compute; reflexivity|].
  apply andb_true_iff in H. destruct H as [H1 H2]. apply andb_true_iff in H1. destruct H1 as [H1 H0]. apply Nat.eqb_eq in H0. pose proof (sc_assigned _ _ _ HR) as HA. exists b, b0, [z 2; z 0]. split; [exact HA|]. split; [destruct (bd_kind b); [reflexivity|discriminate H1]|].
  intros sv fuel fuel' HS HF Hf Hf'. destruct (assigned_ready _ _ _ _ _ env0_ok (HA sv)) as (ms & R).
  assert (L4 : forall n, (4 < n)%nat -> (2 ^ as_len (bd_A b) < n)%nat) by (intros n Hn; rewrite H0; exact Hn). assert (NZ : forall n, Some (S n) <> Some 0%nat) by discriminate.
  destruct (c39_term_thm env0 sv b _ b0 [] b0 fuel (Some 2%nat) DistinctSubsets env0_ok HS (HA sv) (en_done _ _) (NZ _) (L4 _ Hf)) as (b2 & l & HP & _).
  destruct (pop_test_ok sv b0 ms _ _ _ _ _ _ _ HS HF (rd_good _ _ _ _ _ R) H2 HP) as [HL HT]. destruct l as [|s [|s' [|? ?]]]; try discriminate HL. cbn in HT. apply same_featuresb_ok in HT.
  destruct (populate_two _ _ _ _ _ _ _ HP) as (b1 & P1 & P2).
  assert (EN : enumeration sv b0 (map (pair DistinctSubsets) [s] ++ []) b1) by (eapply en_populate; [exact P1|apply en_done]).
  destruct (c39_term_thm env0 sv b _ b0 _ b1 fuel' (Some 1%nat) DistinctSubsets env0_ok HS (HA sv) EN (NZ _) (L4 _ Hf')) as (b3 & l' & P3 & _).
  exists b1, s, b3, s'. split; [exact P1|]. split; [|exact HT].
  destruct fuel as [|fuel]; [lia|]. cbn [pred] in P2. destruct fuel as [|fuel]; [lia|]. cbn [populate_loop] in P2. destruct (fit sv b1) as [[b4 [i|]]|] eqn:Hfit; try discriminate P2.
  destruct (remove_solution DistinctSubsets b4) as [b5|]; [|discriminate P2]. cbn [option_map pred] in P2.
  assert (i = s') as -> by (destruct fuel; cbn [populate_loop] in P2; injection P2 as _ <-; reflexivity).
  now rewrite (populate_head _ _ _ _ _ _ _ _ Hfit P3) in P3.
Qed.

(** C52: the auditor calls an individual infeasible whom a permitted action helps. *)
Definition x27 : list Qc := [qfrac 5 2; z 1].
Lemma c52_refuted : exists A w t b x a, aset_reachable env0 A /\ auditor_created env0 PyMIP A w t b /\ unconstrained A /\ current_percentiles A /\ as_y A = 1%Z /\ denied 1 (score w t x) /\
  permitted_action A x a /\ on_side 1 (score w t (vadd x a)) /\
  forall sv, sound_solver sv -> finishing_solver sv -> exists b', audit env0 sv b (table_of [(0%nat, x)]) 1 = (b', Ok [(0%nat, Some (false, PosInf))]).
Proof.
  set (a := [qfrac 1 2; z 2]).
  destruct (aud_case_ok (sc52 (- z 6)) (fun A b => unconstrainedb A && currentb A && (as_y A =? 1)%Z && permittedb A x27 a && x_test env0 b x27 (fun r => match r with Some _ => false | None => true end))) as (A & b & HA & HC & HT); [vm_compute; reflexivity|].
  do 4 (apply andb_true_iff in HT; destruct HT as [HT ?]). change (sc_env (sc52 (- z 6))) with env0 in *. change (sc_kind (sc52 (- z 6))) with PyMIP in *. change (sc_w (sc52 (- z 6))) with [z 1; z 1] in *. change (sc_t (sc52 (- z 6))) with (- z 6) in *.
  exists A, [z 1; z 1], (- z 6), b, x27, a. split; [exact HA|]. split; [exact HC|]. split; [now apply unconstrainedb_ok|]. split; [now apply currentb_ok|]. split; [now apply Z.eqb_eq|].
  split; [apply deniedb; vm_compute; reflexivity|]. split; [now apply permittedb_ok|]. split; [apply on_sideb_iff; vm_compute; reflexivity|].
  intros sv HS HF. destruct (auditor_fresh _ _ _ _ _ _ HA HC) as (F & _). pose proof (fr_w _ _ _ _ _ _ _ F) as Ew. pose proof (fr_t _ _ _ _ _ _ _ F) as Et.
  assert (N1 : [(0%nat, x27)] <> []) by discriminate.
  assert (N2 : forall p, In p [(0%nat, x27)] -> length (snd p) = length (bd_w b)) by (intros p [<-|[]]; rewrite Ew; reflexivity).
  assert (N3 : label 1) by now left.
  assert (N4 : exists i, todo_of b 1 (map snd [(0%nat, x27)]) = [(i, x27)]) by (unfold todo_of; rewrite Ew, Et; exists 0%nat; vm_compute; reflexivity).
  destruct (audit_one env0 sv b _ _ x27 _ env0_ok HS HF (created_reach _ _ _ _ _ _ _ HA HC) N1 N2 N3 N4 H) as (b' & r & g & Hr & Ha & Hg).
  rewrite Ha. destruct r as [s|]; [discriminate Hr|]. exists b'. cbn [map fst snd]. rewrite Hg; [reflexivity|now left].
Qed.
