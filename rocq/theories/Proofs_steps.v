(** Proofs for C131. *)
From Verif Require Import Spec_steps Proofs_props_element Proofs_props_actionset Proofs_actionset Proofs_registry Proofs_builder Proofs_builder3 Proofs_builder6 Proofs_builder8 Proofs_list Proofs_audit2 Proofs_audit3 Proofs_session.
#[local] Open Scope string_scope.
#[local] Open Scope list_scope.
#[local] Open Scope Qc_scope.

Definition rest (a a' : list Qc) : list Qc := map (fun p => fst p - snd p) (combine a a').
Definition rest_costs (a a' cs : list Qc) : list Qc := map (fun p => if fst p =? 0 then 0 else snd p) (combine (rest a a') cs).
Lemma rest_len a a' : length a' = length a -> length (rest a a') = length a.
Proof. intro H. unfold rest. rewrite map_length, combine_length. lia. Qed.
Lemma combine_nth_some {T U} (l : list T) (m : list U) j a b : nth_error l j = Some a -> nth_error m j = Some b -> nth_error (combine l m) j = Some (a, b).
Proof. revert m j. induction l as [|u l IH]; intros [|v m] [|j] H K; cbn in *; try discriminate H; try discriminate K; [congruence|auto]. Qed.
Lemma rest_nth a a' j p q : nth_error a j = Some p -> nth_error a' j = Some q -> nth_error (rest a a') j = Some (p - q).
Proof. intros H K. unfold rest. rewrite nth_error_map, (combine_nth_some _ _ _ _ _ H K). reflexivity. Qed.
Lemma part_length a' a : part_of a' a -> length a' = length a.
Proof. induction 1; cbn; congruence. Qed.
Lemma part_at a' a j p : part_of a' a -> nth_error a j = Some p -> exists q, nth_error a' j = Some q /\ (q = 0 \/ q = p).
Proof. intro H. revert j. induction H as [|u v l m H _ IH]; intros [|j] K; cbn in *; try discriminate K; [injection K as <-; eauto|auto]. Qed.
Lemma rest_sum x a a' : length x = length a -> length a' = length a -> vadd (vadd x a') (rest a a') = vadd x a.
Proof.
  revert x a'. induction a as [|p a IH]; intros [|u x] [|q a'] H K; cbn in *; try discriminate H; try discriminate K; [reflexivity|]. change (map (fun p0 => fst p0 - snd p0) (combine a a')) with (rest a a'). f_equal; [ring|]. apply IH; lia.
Qed.
Lemma rest_changed a a' : part_of a' a -> (n_changed (rest a a') <= n_changed a)%nat.
Proof.
  unfold n_changed. induction 1 as [|q p l m H _ IH]; cbn; [lia|]. change (map (fun p0 => fst p0 - snd p0) (combine m l)) with (rest m l). destruct H as [->| ->].
  - replace (p - 0) with p by ring. destruct (p =? 0); cbn; lia.
  - replace (p - p) with 0 by ring. change (0 =? 0) with true. cbn. destruct (p =? 0); cbn; lia.
Qed.
Lemma rest_paid a a' cs p : part_of a' a -> length cs = length a -> (forall j, nth_error a j = Some 0 -> nth_error cs j = Some 0) -> paid a' cs p -> qsum (rest_costs a a' cs) + p = qsum cs.
Proof.
  unfold paid. intros HP HL HZ ->. revert cs HL HZ. induction HP as [|q p l m H _ IH]; intros [|c cs] HL HZ; cbn in *; try discriminate HL; [ring|].
  change (map (fun p0 => if fst p0 =? 0 then 0 else snd p0) (combine (map (fun p0 => fst p0 - snd p0) (combine m l)) cs)) with (rest_costs m l cs).
  assert (K : qsum (rest_costs m l cs) + qsum (map (fun q => if fst q =? 0 then 0 else snd q) (combine l cs)) = qsum cs) by (apply IH; [lia|intros j Hj; exact (HZ (S j) Hj)]).
  rewrite <- K. destruct H as [->| ->].
  - replace (p - 0) with p by ring. change (0 =? 0) with true. destruct (p =? 0) eqn:E; [|ring]. qbool. subst p. pose proof (HZ 0%nat eq_refl) as Z. cbn in Z. injection Z as ->. ring.
  - replace (p - p) with 0 by ring. change (0 =? 0) with true. destruct (p =? 0) eqn:E; [|ring]. qbool. subst p. pose proof (HZ 0%nat eq_refl) as Z. cbn in Z. injection Z as ->. ring.
Qed.
Lemma vadd_at u v j r : length v = length u -> nth_error (vadd u v) j = Some r -> exists p q, nth_error u j = Some p /\ nth_error v j = Some q /\ r = p + q.
Proof. revert v j. induction u as [|a u IH]; intros [|b v] [|j] HL H1; cbn in *; try discriminate H1; try discriminate HL; [injection H1 as <-; eauto|]. apply (IH v j); [lia|exact H1]. Qed.
Section Part.
Context (E : env) (sv sv' : solver) (b b' : builder) (x a' : list Qc) (b0 b0' b1 : builder) (s : sol).
Context (HE : ok_env E) (HS : sound_solver sv) (HS' : sound_solver sv') (HF' : finishing_solver sv') (HD : density E) (HL : log_ok E (bd_cost b)).
Context (HA : assigned E sv b x b0) (HP : part_of a' (s_actions s)) (HA' : assigned E sv' b' (vadd x a') b0') (SP : same_problem b b').
Context (HO : orderly E (bd_A b) (bd_w b) x) (HG : good_setup E b' (vadd x a')).
Context (Hf : fit sv b0 = Ok (b1, Some s)).
Let r := rest (s_actions s) a'.
Lemma part_lens : length (s_actions s) = length x /\ length (as_elems (bd_A b)) = length x /\ length (s_costs s) = length x /\ as_len (bd_A b) = length x.
Proof.
  destruct (assigned_ready E sv b x b0 HE HA) as (ms & R). pose proof (rd_el _ _ _ _ _ R) as L1. pose proof (rd_x _ _ _ _ _ R) as L2. pose proof (rd_w _ _ _ _ _ R) as L3.
  assert (Hs : session sv b0 ([s] ++ []) b1) by (exact (ses_fit sv b0 b1 (Some s) [] b1 Hf (ses_done sv b1))).
  pose proof (item_costs E sv b x b0 HE HS HA _ b1 s Hs (or_introl eq_refl)) as [K5 _]. destruct (fit_some E sv b x b0 HE HS HA b1 s Hf) as ((K1 & _) & _).
  split; [congruence|]. split; [congruence|]. split; congruence.
Qed.
Lemma part_permitted : permitted_action (bd_A b) (vadd x a') r /\ movable_only (bd_A b) (vadd x a') r.
Proof.
  destruct part_lens as (L1 & L2 & L3 & L4). destruct (fit_some E sv b x b0 HE HS HA b1 s Hf) as ((_ & K1) & _). pose proof (fit_movable E sv b x b0 HE HS HA b1 s Hf) as KM.
  pose proof (part_length _ _ HP) as LP.
  assert (G : forall j e xj rj, nth_error (as_elems (bd_A b)) j = Some e -> nth_error (vadd x a') j = Some xj -> nth_error r j = Some rj ->
    exists uj aj qj, nth_error x j = Some uj /\ nth_error (s_actions s) j = Some aj /\ nth_error a' j = Some qj /\ (qj = 0 \/ qj = aj) /\ xj = uj + qj /\ rj = aj - qj).
  { intros j e xj rj He Hx Hr. apply vadd_at in Hx; [|congruence]. destruct Hx as (uj & qj & Hu & Hq & ->). destruct (nth_error (s_actions s) j) as [aj|] eqn:Ha.
    2:{ apply nth_error_None in Ha. assert (j < length x)%nat by (apply nth_error_Some; congruence). lia. }
    unfold r in Hr. rewrite (rest_nth _ _ _ _ _ Ha Hq) in Hr. injection Hr as <-. destruct (part_at _ _ _ _ HP Ha) as (q & Hq' & C). assert (q = qj) by congruence. subst q. exists uj, aj, qj. auto 10. }
  split.
  - split; [unfold r; rewrite rest_len by exact LP; congruence|]. intros j e xj rj He Hx Hr. destruct (G j e xj rj He Hx Hr) as (uj & aj & qj & G1 & G2 & G3 & C & -> & ->). destruct C as [->| ->].
    + replace (uj + 0) with uj by ring. replace (aj - 0) with aj by ring. exact (K1 j e uj aj He G1 G2).
    + left. ring.
  - intros j e xj rj He Hx Hr N. destruct (G j e xj rj He Hx Hr) as (uj & aj & qj & G1 & G2 & G3 & C & -> & ->). destruct C as [->| ->].
    + replace (uj + 0) with uj by ring. apply (KM j e uj aj He G1 G2). intro K. apply N. rewrite K. ring.
    + exfalso. apply N. ring.
Qed.
Lemma part_reaches : vadd (vadd x a') r = vadd x (s_actions s).
Proof. destruct part_lens as (L1 & L2 & L3 & L4). apply rest_sum; [congruence|exact (part_length _ _ HP)]. Qed.
Lemma part_size : (Z.of_nat (n_changed r) <= bd_max b)%Z.
Proof. destruct (fit_some E sv b x b0 HE HS HA b1 s Hf) as (_ & K2 & _). pose proof (rest_changed _ _ HP) as K. fold r in K. unfold size_between in K2. lia. Qed.
Lemma part_costs : action_costs E (bd_cost b) (bd_A b) (vadd x a') r (rest_costs (s_actions s) a' (s_costs s)).
Proof.
  destruct part_lens as (L1 & L2 & L3 & L4). pose proof (part_length _ _ HP) as LP.
  assert (Hs : session sv b0 ([s] ++ []) b1) by (exact (ses_fit sv b0 b1 (Some s) [] b1 Hf (ses_done sv b1))).
  pose proof (item_costs E sv b x b0 HE HS HA _ b1 s Hs (or_introl eq_refl)) as [_ K5].
  split; [unfold rest_costs; rewrite map_length, combine_length; fold r; unfold r; rewrite rest_len by exact LP; lia|].
  intros j e xj rj c He Hx Hr Hc. apply vadd_at in Hx; [|congruence]. destruct Hx as (uj & qj & Hu & Hq & ->).
  destruct (nth_error (s_actions s) j) as [aj|] eqn:Ha; [|apply nth_error_None in Ha; assert (j < length x)%nat by (apply nth_error_Some; congruence); lia].
  destruct (nth_error (s_costs s) j) as [cj|] eqn:Hcj; [|apply nth_error_None in Hcj; assert (j < length x)%nat by (apply nth_error_Some; congruence); lia].
  unfold r in Hr. pose proof (rest_nth _ _ _ _ _ Ha Hq) as R1. rewrite R1 in Hr. injection Hr as <-. unfold rest_costs in Hc. rewrite nth_error_map, (combine_nth_some _ _ _ _ _ R1 Hcj) in Hc. cbn [option_map fst snd] in Hc. injection Hc as <-.
  destruct (part_at _ _ _ _ HP Ha) as (q & Hq' & C). assert (q = qj) by congruence. subst q. destruct C as [->| ->].
  - replace (uj + 0) with uj by ring. replace (aj - 0) with aj by ring. destruct (K5 j e uj aj cj He Hu Ha Hcj) as [[-> ->]|[N M]]; [left; split; reflexivity|]. right. split; [exact N|]. destruct (aj =? 0) eqn:Q; [|exact M]. qbool. now destruct N.
  - left. replace (aj - aj) with 0 by ring. split; reflexivity.
Qed.
Lemma part_exists : exists b1' s', fit sv' b0' = Ok (b1', Some s').
Proof.
  destruct SP as (_ & EW & ET & EA & EC & _ & EX). pose proof HG as (_ & HFl & _). rewrite EA, EW in HFl.
  destruct (fit_some E sv b x b0 HE HS HA b1 s Hf) as (_ & _ & K3). pose proof (fit_compliant E sv b x b0 HE HS HA b1 s Hf HO HFl) as K4. destruct part_permitted as (P1 & P2).
  destruct (fit_total E sv' b' (vadd x a') b0' HE HS' HA') as (b1' & [s'|] & Hf'); [eauto|]. exfalso.
  assert (HL' : log_ok E (bd_cost b')) by now rewrite EC.
  refine (c27_thm E sv' b' (vadd x a') b0' b1' r HE HS' HF' HD HL' HA' HG Hf' _ _ _ _ _).
  - rewrite EA. exact P1.
  - rewrite EA. exact P2.
  - rewrite EX. exact part_size.
  - rewrite EA. intros id c Hc. rewrite part_reaches. exact (K4 id c Hc).
  - rewrite EA, EW, ET, part_reaches. exact K3.
Qed.
Lemma part_cheaper p : regular E (bd_A b) (vadd x a') -> bd_cost b <> CMax -> paid a' (s_costs s) p -> exists b1' s', fit sv' b0' = Ok (b1', Some s') /\ p + s_cost s' <= s_cost s.
Proof.
  intros HR NC Hp. destruct part_exists as (b1' & s' & Hf'). exists b1', s'. split; [exact Hf'|].
  destruct SP as (_ & EW & ET & EA & EC & _ & EX). pose proof HG as (_ & HFl & _). rewrite EA, EW in HFl.
  destruct (fit_some E sv b x b0 HE HS HA b1 s Hf) as (_ & _ & K3). pose proof (fit_compliant E sv b x b0 HE HS HA b1 s Hf HO HFl) as K4. destruct part_permitted as (P1 & P2).
  assert (Hs : session sv b0 ([s] ++ []) b1) by (exact (ses_fit sv b0 b1 (Some s) [] b1 Hf (ses_done sv b1))).
  rewrite (proj2 (c29_costs E sv b x b0 _ b1 s HE HS HA NC Hs (or_introl eq_refl))). destruct part_lens as (L1 & L2 & L3 & L4).
  pose proof (item_costs E sv b x b0 HE HS HA _ b1 s Hs (or_introl eq_refl)) as [_ K5].
  rewrite <- (rest_paid (s_actions s) a' (s_costs s) p HP); [|congruence| |exact Hp].
  2:{ intros j Ha. destruct (nth_error (s_costs s) j) as [cj|] eqn:Hcj; [|apply nth_error_None in Hcj; assert (j < length (s_actions s))%nat by (apply nth_error_Some; congruence); lia].
      destruct (nth_error (as_elems (bd_A b)) j) as [e|] eqn:He; [|apply nth_error_None in He; assert (j < length (s_actions s))%nat by (apply nth_error_Some; congruence); lia].
      destruct (nth_error x j) as [xj|] eqn:Hx; [|apply nth_error_None in Hx; assert (j < length (s_actions s))%nat by (apply nth_error_Some; congruence); lia].
      destruct (K5 j e xj 0 cj He Hx Ha Hcj) as [[_ ->]|[N _]]; [reflexivity|now elim N]. }
  assert (K : s_cost s' <= qsum (rest_costs (s_actions s) a' (s_costs s))).
  { apply (c29_thm E sv' b' (vadd x a') b0' b1' s' r (rest_costs (s_actions s) a' (s_costs s))); auto; rewrite ?EC, ?EA, ?EW, ?ET, ?EX, ?part_reaches; auto.
    - exact part_size.
    - intros id c Hc. rewrite part_reaches. exact (K4 id c Hc).
    - exact part_costs. }
  qlra.
Qed.
End Part.
