(** Concrete scenarios: counterexamples and non-vacuity witnesses for the builder properties. *)
From Verif Require Import Proofs_props_element Proofs_props_actionset Spec_recourse Proofs_mip Proofs_info Proofs_vec Proofs_build Proofs_enum Proofs_session Proofs_recourse Proofs_exchange Proofs_far Proofs_concrete Proofs_builder Proofs_builder2 Proofs_builder3 Proofs_builder4.
#[local] Open Scope list_scope.
#[local] Open Scope Qc_scope.

(** ** Checkers *)
Definition sc_check (c : scenario) (t : builder -> builder -> bool) : bool := match sc_run c with Ok (b, b0) => t b b0 | Err _ => false end.
Lemma sc_check_ok c t : sc_check c t = true -> exists b b0, sc_run c = Ok (b, b0) /\ t b b0 = true.
Proof. unfold sc_check. destruct (sc_run c) as [[b b0]|]; [eauto|discriminate]. Qed.
Lemma sc_fit c b b0 t : sc_run c = Ok (b, b0) -> ok_env (sc_env c) -> fit_test b0 t = true ->
  forall sv, sound_solver sv -> finishing_solver sv -> exists b1 r, fit sv b0 = Ok (b1, r) /\ t (view r) = true.
Proof.
  intros H HE HT sv HS HF. destruct (assigned_ready _ sv _ _ _ HE (sc_assigned _ _ _ H sv)) as (ms & R). eapply fit_test_ok; eauto using rd_good.
Qed.
Lemma targets_permitted e xj v : In v (targets e xj) -> permitted e xj v.
Proof.
  unfold targets. intros [<-|H]; [now left|]. right. destruct (e_actionable e); [|destruct H]. apply filter_In in H. destruct H as [H1 H2]. apply andb_true_iff in H2. destruct H2 as [H2 H3].
  split; [reflexivity|]. split; [exact H1|]. split; intro L.
  - rewrite (proj2 (Z.ltb_lt _ _) L) in H2. now qbool.
  - rewrite (proj2 (Z.ltb_lt _ _) L) in H3. now qbool.
Qed.
Definition zip3 {B C D} (l : list B) (m : list C) (k : list D) : list (B * (C * D)) := combine l (combine m k).
Lemma zip3_In {B C D} (l : list B) (m : list C) (k : list D) j a b c : nth_error l j = Some a -> nth_error m j = Some b -> nth_error k j = Some c -> In (a, (b, c)) (zip3 l m k).
Proof.
  unfold zip3. revert m k j. induction l as [|u l IH]; intros [|v m] [|w k] [|j]; cbn; try discriminate.
  - intros H1 H2 H3. injection H1 as <-. injection H2 as <-. injection H3 as <-. now left.
  - intros. right. eapply IH; eauto.
Qed.
Definition permittedb (A : action_set) (x a : list Qc) : bool :=
  Nat.eqb (length a) (as_len A) && forallb (fun p => existsb (qeq (fst (snd p) + snd (snd p))) (targets (fst p) (fst (snd p)))) (zip3 (as_elems A) x a).
Lemma permittedb_ok A x a : permittedb A x a = true -> permitted_action A x a.
Proof.
  unfold permittedb. intro H. apply andb_true_iff in H. destruct H as [H1 H2]. apply Nat.eqb_eq in H1. split; [exact H1|]. intros j e xj aj He Hx Ha.
  rewrite forallb_forall in H2. specialize (H2 _ (zip3_In _ _ _ _ _ _ _ He Hx Ha)). cbn [fst snd] in H2. apply existsb_exists in H2. destruct H2 as (v & Hv & Q). qbool. rewrite Q. now apply targets_permitted.
Qed.
Definition cost1 (E : env) (ct : cost_type) (e : element) (xj aj : Qc) : res Qc :=
  if aj =? 0 then Ok 0 else
  let! p := percentile E e xj in let! q := percentile E e (xj + aj) in
  Ok match ct with
     | CLocal => if xj <=? xj + aj then nplog E ((1 - p) / (1 - q)) else nplog E ((1 - q) / (1 - p))
     | _ => if xj <=? xj + aj then q - p else p - q end.
Definition costs_of (E : env) (ct : cost_type) (A : action_set) (x a : list Qc) : res (list Qc) :=
  mapM (fun p => cost1 E ct (fst p) (fst (snd p)) (snd (snd p))) (zip3 (as_elems A) x a).
Lemma zip3_nth {B C D} (l : list B) (m : list C) (k : list D) j a b c : nth_error l j = Some a -> nth_error m j = Some b -> nth_error k j = Some c -> nth_error (zip3 l m k) j = Some (a, (b, c)).
Proof.
  unfold zip3. revert m k j. induction l as [|u l IH]; intros [|v m] [|w k] [|j]; cbn; try discriminate.
  - intros H1 H2 H3. injection H1 as <-. injection H2 as <-. injection H3 as <-. reflexivity.
  - intros. eapply IH; eauto.
Qed.
Lemma costs_of_ok E ct A x a cs : length (as_elems A) = length a -> length x = length a -> costs_of E ct A x a = Ok cs -> action_costs E ct A x a cs.
Proof.
  intros L1 L2 H. apply mapM_ok in H. apply Forall2_nth in H. destruct H as [HL H]. split.
  - rewrite <- HL. unfold zip3. rewrite !combine_length. lia.
  - intros j e xj aj c He Hx Ha Hc. specialize (H j _ _ (zip3_nth _ _ _ _ _ _ _ He Hx Ha) Hc). cbn in H. unfold cost1 in H. destruct (qeq_spec aj 0) as [Z|Z].
    + left. split; [exact Z|]. congruence.
    + right. split; [exact Z|]. bnd H as p Hp. bnd H as q Hq. exists p, q. split; [exact Hp|]. split; [exact Hq|]. congruence.
Qed.
Definition costs_test (E : env) (ct : cost_type) (A : action_set) (x a : list Qc) (t : list Qc -> bool) : bool :=
  Nat.eqb (length (as_elems A)) (length a) && Nat.eqb (length x) (length a) && ok_and (costs_of E ct A x a) t.
Lemma costs_test_ok E ct A x a t : costs_test E ct A x a t = true -> exists cs, action_costs E ct A x a cs /\ t cs = true.
Proof.
  unfold costs_test. intro H. apply andb_true_iff in H. destruct H as [H H3]. apply andb_true_iff in H. destruct H as [H1 H2]. apply Nat.eqb_eq in H1, H2.
  apply ok_and_true in H3. destruct H3 as (cs & Hc & Ht). exists cs. split; [|exact Ht]. now apply costs_of_ok.
Qed.
Definition listeqb (a b : list Qc) : bool := Nat.eqb (length a) (length b) && forallb (fun p => fst p =? snd p) (combine a b).
Lemma listeqb_ok a b : listeqb a b = true -> a = b.
Proof.
  unfold listeqb. intro H. apply andb_true_iff in H. destruct H as [H1 H2]. apply Nat.eqb_eq in H1. revert b H1 H2. induction a as [|u a IH]; intros [|v b] H1 H2; cbn in *; try discriminate H1; [reflexivity|].
  apply andb_true_iff in H2. destruct H2 as [H2 H3]. qbool. f_equal; auto.
Qed.
(** The regularity conditions used by the partial theorems. *)
Definition regularb (E : env) (A : action_set) (w x : list Qc) : bool :=
  unconstrainedb A && flipsb A w && strictb E A x && resolvableb A x && currentb A.
Lemma regularb_ok E A w x : regularb E A w x = true -> unconstrained A /\ flips_match A w /\ regular E A x /\ fits_grids A x /\ current_percentiles A.
Proof.
  unfold regularb. intro H. repeat (apply andb_true_iff in H; destruct H as [H ?]). pose proof (resolvableb_ok _ _ H1) as HR.
  split; [now apply unconstrainedb_ok|]. split; [now apply flipsb_ok|]. split; [split; [now apply strictb_ok|exact HR]|]. split; [|now apply currentb_ok].
  intros j e xj He Hx. now apply (HR j e xj).
Qed.
Definition z (n : Z) : Qc := qz n.
Definition mk (E : env) X names y ops k w t ct x : scenario :=
  {| sc_env := E; sc_X := X; sc_names := names; sc_y := y; sc_ops := ops; sc_kind := k; sc_w := w; sc_t := t; sc_cost := ct; sc_x := x |}.

(** Two integer features with values 0..3. *)
Definition tab2 : list (list Qc) := [[z 0; z 0]; [z 1; z 2]; [z 2; z 1]; [z 3; z 3]].
Definition sc2 k ct t := mk env0 tab2 ["a"; "b"] 1 [] k [z 1; z 1] t ct [z 0; z 1].
Definition deniedb' (b : builder) (x : list Qc) : bool := negb (on_sideb (as_y (bd_A b)) (score (bd_w b) (bd_t b) x)).
Lemma deniedb'_ok b x : deniedb' b x = true -> denied (as_y (bd_A b)) (score (bd_w b) (bd_t b) x).
Proof. unfold deniedb'. intro H. apply negb_true_iff in H. now apply deniedb. Qed.
Definition limitsb (b : builder) (lo hi : Z) : bool := (bd_min b =? lo)%Z && (bd_max b =? hi)%Z.

(** A score of exactly zero. *)
Lemma c26_boundary : exists b b0, (forall sv, assigned env0 sv b [z 0; z 1] b0) /\ as_y (bd_A b) = 1%Z /\ forall sv, sound_solver sv -> finishing_solver sv ->
  exists b1 s, fit sv b0 = Ok (b1, Some s) /\ score (bd_w b) (bd_t b) (vadd [z 0; z 1] (s_actions s)) = 0.
Proof.
  destruct (sc_check_ok (sc2 PyMIP CTotal (- z 3)) (fun b b0 => (as_y (bd_A b) =? 1)%Z &&
    fit_test b0 (fun r => match r with Some (a, _, _) => score (bd_w b) (bd_t b) (vadd [z 0; z 1] a) =? 0 | None => false end))) as (b & b0 & HR & HT); [vm_compute; reflexivity|].
  apply andb_true_iff in HT. destruct HT as [H1 H2]. apply Z.eqb_eq in H1. exists b, b0. split; [exact (sc_assigned _ _ _ HR)|]. split; [exact H1|].
  intros sv HS HF. destruct (sc_fit _ _ _ _ HR env0_ok H2 sv HS HF) as (b1 & [s|] & Hf & Ht); [|discriminate Ht]. exists b1, s. split; [exact Hf|]. cbn in Ht. now qbool.
Qed.
