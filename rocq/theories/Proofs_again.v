(** Proofs for C107: asking again. *)
From Verif Require Import Spec_compare Proofs_mip Proofs_enum Proofs_builder Proofs_builder3 Proofs_builder6 Proofs_session Proofs_concrete Proofs_flipset3 Proofs_compare Proofs_compare3 Proofs_compare4.
#[local] Open Scope list_scope.
#[local] Open Scope Qc_scope.

Lemma idle_populate sv fuel total et b b1 : populate sv fuel total et b = Some (Ok (b1, [])) -> fit sv b = Ok (b1, None).
Proof.
  unfold populate. intros H. destruct (bd_mip b); [|discriminate H].
  assert (K : populate_loop sv fuel total et b = Some (Ok (b1, [])) /\ total <> Some 0%nat) by (destruct total as [[|n]|]; [discriminate H|split; [exact H|discriminate]|split; [exact H|discriminate]]).
  clear H. destruct K as [H HT]. destruct fuel as [|fuel]; cbn [populate_loop] in H.
  - destruct total as [[|n]|]; [congruence|discriminate H|discriminate H].
  - destruct total as [[|n]|]; [congruence| |]; destruct (fit sv b) as [[b2 [s|]]|]; try discriminate H; try (injection H as <-; reflexivity);
      destruct (remove_solution et b2); try discriminate H; destruct (populate_loop _ _ _ _ _) as [[[? ?]|]|]; discriminate H.
Qed.
Lemma fit_keeps sv b b1 r : fit sv b = Ok (b1, r) -> bd_mip b1 = bd_mip b /\ same_problem b b1.
Proof. unfold fit, solve_mip, get_solution. destruct (bd_mip b) eqn:Em; [|discriminate]. cbn. intro H. injection H as <- <-. cbn. split; [first [exact Em|symmetry; exact Em|reflexivity]|repeat split]. Qed.
Lemma idle_twin sv b l b' : enumeration sv b l b' -> l = [] -> twin b b'.
Proof.
  induction 1 as [b|b b1 r l b2 Hf H IH|b fuel total et b1 l1 l b2 Hp H IH]; intro Hl.
  - split; [repeat split|reflexivity].
  - destruct (fit_keeps _ _ _ _ Hf) as [M S1]. destruct (IH Hl) as [S2 M2]. split; [eapply same_problem_trans; eauto|congruence].
  - apply app_eq_nil in Hl. destruct Hl as [H1 H2]. destruct l1; [|discriminate H1]. apply idle_populate in Hp. destruct (fit_keeps _ _ _ _ Hp) as [M S1]. destruct (IH H2) as [S2 M2]. split; [eapply same_problem_trans; eauto|congruence].
Qed.
Lemma enum_cost E sv b x b0 l b1 : ok_env E -> sound_solver sv -> assigned E sv b x b0 -> enumeration sv b0 l b1 -> bd_cost b1 = bd_cost b.
Proof.
  intros HE HS HA He. destruct (enumeration_session _ _ _ _ He) as (ls & Hs & _). pose proof (session_same sv b0 ls b1 Hs) as (_ & _ & _ & _ & K & _).
  pose proof (same_set_x E b x) as (_ & _ & _ & _ & K2 & _). rewrite (proj2 HA) in K2. cbn [fst] in K2. congruence.
Qed.
Lemma again_thm E sv b x b0 l b1 b2 : ok_env E -> sound_solver sv -> finishing_solver sv -> assigned E sv b x b0 -> enumeration sv b0 l b1 -> enumeration sv b1 [] b2 ->
  answers_related (same_answer (bd_cost b)) sv sv b1 b2.
Proof.
  intros HE HS HF HA He1 He2. pose proof (enumeration_trans _ _ _ _ He1 _ _ He2) as He. rewrite app_nil_r in He.
  destruct (enum_mip E sv b x b0 l b1 HE HS HA He1) as (ms & P & G). destruct (enum_mip E sv b x b0 l b2 HE HS HA He) as (ms' & P' & G').
  destruct (idle_twin _ _ _ _ He2 eq_refl) as [_ M]. rewrite (gd_mip _ _ _ G), (gd_mip _ _ _ G') in M. injection M as ->.
  pose proof (enum_cost E sv b x b0 l b1 HE HS HA He1) as C1. pose proof (enum_cost E sv b x b0 l b2 HE HS HA He) as C2.
  apply related_same.
  - eapply (related_no_worse sv sv b1 b2 ms ms); eauto using gd_mip.
  - eapply (related_no_worse sv sv b2 b1 ms ms); eauto using gd_mip.
Qed.
Lemma again_same sv b1 b2 : stateless sv -> enumeration sv b1 [] b2 ->
  (forall c r, fit sv b1 = Ok (c, r) -> exists c', fit sv b2 = Ok (c', r)) /\
  forall fuel total et c l, populate sv fuel total et b1 = Some (Ok (c, l)) -> exists c', populate sv fuel total et b2 = Some (Ok (c', l)).
Proof.
  intros HSt He. pose proof (idle_twin _ _ _ _ He eq_refl) as T. split.
  - intros c r Hf. pose proof (twin_fit sv b1 b2 HSt T) as K. rewrite Hf in K. destruct (fit sv b2) as [[c' r']|]; [|destruct K]. destruct K as (<- & _). eauto.
  - intros fuel total et c l Hp. pose proof (twin_populate sv et fuel total b1 b2 HSt T) as K. rewrite Hp in K. destruct (populate sv fuel total et b2) as [[[c' l']|]|]; try (destruct K; fail). destruct K as (<- & _). eauto.
Qed.
(** After an item has been handed out, fit may be asked twice. *)
Lemma again_case : exists b x b0, (forall sv, assigned env0 sv b x b0) /\ forall sv, sound_solver sv -> finishing_solver sv ->
  exists l b1 b2, enumeration sv b0 l b1 /\ length l = 1%nat /\ bd_calls b2 <> bd_calls b1 /\ enumeration sv b1 [] b2.
Proof.
  destruct resume_case as (b & x & b0 & H & _ & K). exists b, x, b0. split; [exact H|]. intros sv HS HF. destruct (K sv HS HF) as (f1 & b1 & l1 & f2 & b2 & l2 & H1 & H2 & HL).
  assert (He : enumeration sv b0 (map (pair DistinctSubsets) l1 ++ []) b1) by (eapply en_populate; [exact H1|constructor]).
  destruct (enum_mip env0 sv b x b0 _ b1 env0_ok HS (H sv) He) as (ms & P & G).
  assert (Hf : exists b3 r, fit sv b1 = Ok (b3, r) /\ bd_calls b3 = S (bd_calls b1)).
  { unfold fit, solve_mip, get_solution. rewrite (gd_mip _ _ _ G). cbn. eexists _, _. split; reflexivity. }
  destruct Hf as (b3 & r & Hf & HC). exists (map (pair DistinctSubsets) l1 ++ []), b1, b3. split; [exact He|]. split; [now rewrite app_nil_r, map_length|]. split; [rewrite HC; lia|]. eapply en_fit; [exact Hf|constructor].
Qed.
