(** The builder lemmas in the form of the theorems of Props_builder.v, and the cases that meet their hypotheses. *)
From Verif Require Import Proofs_props_element Proofs_props_actionset Spec_recourse Proofs_mip Proofs_info Proofs_vec Proofs_build Proofs_enum Proofs_session Proofs_recourse Proofs_subset Proofs_exchange Proofs_far Proofs_concrete Proofs_builder Proofs_builder2 Proofs_builder3 Proofs_builder4 Proofs_builder5 Proofs_scen Proofs_scen2 Proofs_builder6 Proofs_builder7.
#[local] Open Scope list_scope.
#[local] Open Scope Qc_scope.

Lemma c25_thm E sv b x b0 l b1 s : ok_env E -> sound_solver sv -> assigned E sv b x b0 -> session sv b0 l b1 -> In s l -> permitted_action (bd_A b) x (s_actions s).
Proof. intros HE HS HA. exact (c25 E sv b x b0 HE HS HA l b1 s). Qed.
Lemma c26_thm E sv b x b0 l b1 s : ok_env E -> sound_solver sv -> assigned E sv b x b0 -> session sv b0 l b1 -> In s l ->
  on_side (as_y (bd_A b)) (score (bd_w b) (bd_t b) (vadd x (s_actions s))).
Proof. intros HE HS HA. exact (c26 E sv b x b0 HE HS HA l b1 s). Qed.
Lemma c26_refuted : exists b b0 x, (forall sv, assigned env0 sv b x b0) /\ as_y (bd_A b) = 1%Z /\
  forall sv, sound_solver sv -> finishing_solver sv ->
  exists b1 s, fit sv b0 = Ok (b1, Some s) /\ ~ attains 1 (score (bd_w b) (bd_t b) (vadd x (s_actions s))).
Proof.
  destruct c26_boundary as (b & b0 & H1 & H2 & H3). exists b, b0, [z 0; z 1]. split; [exact H1|]. split; [exact H2|]. intros sv HS HF. destruct (H3 sv HS HF) as (b1 & s & Hf & Hs).
  exists b1, s. split; [exact Hf|]. rewrite Hs. unfold attains. change (0 <? 1)%Z with true. cbn iota. intro K. discriminate K.
Qed.
Lemma c27_thm E sv b x b0 b1 a : ok_env E -> sound_solver sv -> finishing_solver sv -> density E -> log_ok E (bd_cost b) -> assigned E sv b x b0 ->
  good_setup E b x -> fit sv b0 = Ok (b1, None) -> permitted_action (bd_A b) x a -> movable_only (bd_A b) x a -> (Z.of_nat (n_changed a) <= bd_max b)%Z -> compliant (bd_A b) x a ->
  ~ on_side (as_y (bd_A b)) (score (bd_w b) (bd_t b) (vadd x a)).
Proof. intros HE HS HF HD HL HA (G1 & G2 & G3 & G4 & G5). exact (c27_movable E sv b x b0 HE HS HA b1 a HF HD HL G1 G2 G3 G4 G5). Qed.
Lemma c28_thm E1 E2 sv1 sv2 b x b1 b2 : ok_env E1 -> ok_env E2 -> sound_solver sv1 -> sound_solver sv2 -> finishing_solver sv1 -> finishing_solver sv2 ->
  density E1 -> density E2 -> log_ok E1 (bd_cost b) -> log_ok E2 (bd_cost b) ->
  assigned E1 sv1 b x b1 -> assigned E2 sv2 b x b2 -> good_setup E1 b x -> good_setup E2 b x ->
  exists c1 r1 c2 r2, fit sv1 b1 = Ok (c1, r1) /\ fit sv2 b2 = Ok (c2, r2) /\ (r1 = None <-> r2 = None).
Proof. intros HE1 HE2 S1 S2 F1 F2 D1 D2 L1 L2 A1 A2 (G1 & G2 & G3 & G4 & G5) (J1 & _). eapply (c28 E1 E2 sv1 sv2 b x); eauto. Qed.
Lemma c29_costs E sv b x b0 l b1 s : ok_env E -> sound_solver sv -> assigned E sv b x b0 -> bd_cost b <> CMax -> session sv b0 l b1 -> In s l ->
  action_costs E (bd_cost b) (bd_A b) x (s_actions s) (s_costs s) /\ s_cost s = qsum (s_costs s).
Proof.
  intros HE HS HA Hc Hs Hin. split; [exact (item_costs E sv b x b0 HE HS HA l b1 s Hs Hin)|].
  pose proof (item_total E sv b x b0 HE HS HA l b1 s Hs Hin (fun Q => match Hc Q with end)) as K. unfold overall_cost in K. destruct (bd_cost b); auto. now contradict Hc.
Qed.
Lemma c29_thm E sv b x b0 b1 s a cs : ok_env E -> sound_solver sv -> finishing_solver sv -> density E -> log_ok E (bd_cost b) -> assigned E sv b x b0 ->
  good_setup E b x -> regular E (bd_A b) x -> bd_cost b <> CMax ->
  fit sv b0 = Ok (b1, Some s) -> permitted_action (bd_A b) x a -> (Z.of_nat (n_changed a) <= bd_max b)%Z ->
  on_side (as_y (bd_A b)) (score (bd_w b) (bd_t b) (vadd x a)) -> compliant (bd_A b) x a -> action_costs E (bd_cost b) (bd_A b) x a cs -> s_cost s <= qsum cs.
Proof. intros HE HS HF HD HL HA (G1 & G2 & G3 & G4 & G5) HG. exact (c29 E sv b x b0 HE HS HA b1 s a cs HF HD HL G1 G2 HG G4 G5). Qed.
Lemma c30_refuted : exists E b b0 x a cs m, ok_env E /\ density E /\ (forall sv, assigned E sv b x b0) /\ plain_setup E b x /\ regular E (bd_A b) x /\ bd_cost b = CMax /\
  permitted_action (bd_A b) x a /\ (Z.of_nat (n_changed a) <= bd_max b)%Z /\ on_side (as_y (bd_A b)) (score (bd_w b) (bd_t b) (vadd x a)) /\
  action_costs E CMax (bd_A b) x a cs /\ largest cs m /\
  forall sv, sound_solver sv -> finishing_solver sv -> exists b1 s, fit sv b0 = Ok (b1, Some s) /\ m < s_cost s.
Proof. destruct c30_distorted as (b & b0 & x & a & cs & m & H). exists env_ab, b, b0, x, a, cs, m. split; [exact env_ab_ok|]. split; [exact env_ab_density|]. exact H. Qed.
Lemma c30_costs E sv b x b0 l b1 s : ok_env E -> sound_solver sv -> finishing_solver sv -> assigned E sv b x b0 -> bd_cost b = CMax -> session sv b0 l b1 -> In s l ->
  action_costs E (bd_cost b) (bd_A b) x (s_actions s) (s_costs s) /\ largest (s_costs s) (s_cost s).
Proof.
  intros HE HS HF HA Hc Hs Hin. split; [exact (item_costs E sv b x b0 HE HS HA l b1 s Hs Hin)|].
  pose proof (item_total E sv b x b0 HE HS HA l b1 s Hs Hin (fun _ => HF)) as K. unfold overall_cost in K. now rewrite Hc in K.
Qed.
Lemma c30_thm E sv b x b0 b1 s a cs m j e xj u v c c' : ok_env E -> sound_solver sv -> finishing_solver sv -> density E -> log_ok E (bd_cost b) -> assigned E sv b x b0 ->
  good_setup E b x -> regular E (bd_A b) x -> bd_cost b = CMax ->
  fit sv b0 = Ok (b1, Some s) -> permitted_action (bd_A b) x a -> (Z.of_nat (n_changed a) <= bd_max b)%Z ->
  on_side (as_y (bd_A b)) (score (bd_w b) (bd_t b) (vadd x a)) -> compliant (bd_A b) x a ->
  action_costs E (bd_cost b) (bd_A b) x a cs -> largest cs m ->
  nth_error (as_elems (bd_A b)) j = Some e -> nth_error x j = Some xj -> (exists wj, nth_error (bd_w b) j = Some wj /\ wj <> 0) ->
  permitted e xj u -> improving e xj u -> permitted e xj v -> improving e xj v ->
  move_cost E (bd_cost b) e xj u c -> move_cost E (bd_cost b) e xj v c' -> c < c' ->
  s_cost s < m + (c' - c).
Proof. intros HE HS HF HD HL HA (G1 & G2 & G3 & G4 & G5) HG. exact (c30 E sv b x b0 HE HS HA b1 s a cs m j e xj u v c c' HF HD HL G1 G2 HG G4 G5). Qed.
Lemma c31_thm E sv b x b0 l b1 s : ok_env E -> sound_solver sv -> assigned E sv b x b0 -> session sv b0 l b1 -> In s l ->
  (1 <= n_changed (s_actions s))%nat /\ (bd_min b <= Z.of_nat (n_changed (s_actions s)) <= bd_max b)%Z /\ 0 < s_cost s.
Proof. intros HE HS HA Hs Hin. destruct (c31 E sv b x b0 HE HS HA l b1 s Hs Hin) as [K1 K2]. unfold size_between in K1. repeat split; try lia. exact K2. Qed.
(** Exact verdict under the builder's limits, for a conclusive call. *)
Lemma c42_thm E sv b x b0 ms b1 r : ok_env E -> sound_solver sv -> density E -> log_ok E (bd_cost b) -> assigned E sv b x b0 ->
  orderly E (bd_A b) (bd_w b) x -> flips_match (bd_A b) (bd_w b) -> regular E (bd_A b) x ->
  bd_mip b0 = Some ms -> conclusive (sv (bd_calls b0) (ms_mip ms)) -> fit sv b0 = Ok (b1, r) -> (r = None <-> ~ exists a, acceptable b x a).
Proof.
  intros HE HS HD HL HA HU HFl HR Hm HC Hf. split.
  - intros -> (a & Ha). exact (c42_user E sv b x b0 HE HS HA ms b1 a HD HL HU HFl HR Hm HC Hf Ha).
  - intro Hno. destruct r as [s|]; [|reflexivity]. exfalso. apply Hno. exists (s_actions s). exact (fit_acceptable E sv b x b0 HE HS HA b1 s Hf HU HFl).
Qed.
Lemma c32_before E sv b x b0 b1 r : ok_env E -> sound_solver sv -> finishing_solver sv -> density E -> log_ok E (bd_cost b) -> assigned E sv b x b0 ->
  orderly E (bd_A b) (bd_w b) x -> flips_match (bd_A b) (bd_w b) -> regular E (bd_A b) x -> fit sv b0 = Ok (b1, r) ->
  (r <> None <-> exists a, acceptable b x a).
Proof.
  intros HE HS HF HD HL HA HU HFl HR Hf. destruct (assigned_ready E sv b x b0 HE HA) as (ms & R).
  pose proof (c42_thm E sv b x b0 ms b1 r HE HS HD HL HA HU HFl HR (gd_mip _ _ _ (rd_good _ _ _ _ _ R)) (finishing_good sv b0 ms _ HF (rd_good _ _ _ _ _ R)) Hf) as [K1 K2]. split.
  - intro Hne. destruct r as [s|]; [|now contradict Hne]. exists (s_actions s). exact (fit_acceptable E sv b x b0 HE HS HA b1 s Hf HU HFl).
  - intros Hex Hn. exact (K1 Hn Hex).
Qed.

(** ** C33 *)
Lemma c33_thm E b x : let '(b1, r1) := set_x E (on_kind CPX b) x in let '(b2, r2) := set_x E (on_kind PyMIP b) x in
  r1 = r2 /\ (r1 = Ok tt -> exists m1 m2, bd_mip b1 = Some m1 /\ bd_mip b2 = Some m2 /\ same_mip (ms_mip m1) (ms_mip m2)).
Proof.
  pose proof (c33_set_x E b x) as K. destruct (set_x E (on_kind CPX b) x) as [b1 r1], (set_x E (on_kind PyMIP b) x) as [b2 r2]. destruct K as [K1 K2]. split; [exact K1|].
  intro Q. destruct (K2 Q) as (m1 & m2 & J1 & J2 & _ & J3). eauto.
Qed.
Lemma c33_create_thm E A a ct x : match mk_builder E CPX A a ct x, mk_builder E PyMIP A a ct x with
  | Ok b1, Ok b2 => same_problem b1 (on_kind CPX b2) /\ forall m1, bd_mip b1 = Some m1 -> exists m2, bd_mip b2 = Some m2 /\ same_mip (ms_mip m1) (ms_mip m2)
  | Err e1, Err e2 => e1 = e2
  | _, _ => False end.
Proof.
  pose proof (c33_create E A a ct x) as K.
  assert (S : forall b1 b2, mk_builder E CPX A a ct x = Ok b1 -> mk_builder E PyMIP A a ct x = Ok b2 -> same_problem b1 (on_kind CPX b2)).
  { clear K. intros b1 b2. unfold mk_builder. destruct (parse_classifier_args a) as [[w t]|]; [|discriminate]. cbn [bind]. destruct (passert _) as [u|]; [|discriminate]. cbn [bind].
    destruct (if alignment_known A then _ else _) as [A'|]; [|discriminate]. cbn [bind]. cbv zeta. destruct x as [x|].
    - unfold set_x. cbn [bd_w bd_kind bd_A bd_cost bd_t bd_min bd_max]. destruct (Nat.eqb (length x) (length w)); [|discriminate].
      destruct (build E CPX _ _ _ _ _ _ _); [|discriminate]. destruct (build E PyMIP _ _ _ _ _ _ _); [|discriminate]. cbn [bind]. intros H1 H2. injection H1 as <-. injection H2 as <-. repeat split.
    - intros H1 H2. injection H1 as <-. injection H2 as <-. repeat split. }
  destruct (mk_builder E CPX A a ct x) as [b1|], (mk_builder E PyMIP A a ct x) as [b2|]; auto. split; [now apply S|].
  intros m1 Hm1. destruct (K m1 Hm1) as (m2 & J1 & _ & J2). eauto.
Qed.
Lemma c33_cost E sv sv' b x b1 b2 : ok_env E -> sound_solver sv -> finishing_solver sv -> sound_solver sv' -> finishing_solver sv' ->
  assigned E sv (on_kind CPX b) x b1 -> assigned E sv' (on_kind PyMIP b) x b2 ->
  exists c1 r1 c2 r2, fit sv b1 = Ok (c1, r1) /\ fit sv' b2 = Ok (c2, r2) /\ (r1 = None <-> r2 = None) /\
    (bd_cost b <> CMax -> option_map s_cost r1 = option_map s_cost r2).
Proof.
  intros HE S1 F1 S2 F2 A1 A2. pose proof (c33_set_x E b x) as K. pose proof (proj2 A1) as X1. pose proof (proj2 A2) as X2. rewrite X1, X2 in K. destruct K as [_ K]. destruct (K eq_refl) as (m1 & m2 & M1 & M2 & Hinf & HM).
  destruct (assigned_ready E sv _ x b1 HE A1) as (ms1 & R1). destruct (assigned_ready E sv' _ x b2 HE A2) as (ms2 & R2).
  pose proof (gd_mip _ _ _ (rd_good _ _ _ _ _ R1)) as Q1. pose proof (gd_mip _ _ _ (rd_good _ _ _ _ _ R2)) as Q2. rewrite M1 in Q1. injection Q1 as <-. rewrite M2 in Q2. injection Q2 as <-.
  pose proof (finishing_good sv b1 m1 _ F1 (rd_good _ _ _ _ _ R1)) as C1. pose proof (finishing_good sv' b2 m2 _ F2 (rd_good _ _ _ _ _ R2)) as C2.
  pose proof (S1 (bd_calls b1) (ms_mip m1)) as V1. pose proof (S2 (bd_calls b2) (ms_mip m2)) as V2.
  destruct (fit_status sv b1 m1 M1) as (c1 & Hf1). destruct (fit_status sv' b2 m2 M2) as (c2 & Hf2).
  destruct (set_x_ok _ _ _ _ X1) as (n1 & _ & _ & E1). destruct (set_x_ok _ _ _ _ X2) as (n2 & _ & _ & E2).
  assert (K1 : bd_kind b1 = CPX) by (rewrite E1; reflexivity). assert (K2 : bd_kind b2 = PyMIP) by (rewrite E2; reflexivity).
  assert (D1 : bd_cost b1 = bd_cost b) by (rewrite E1; reflexivity). assert (D2 : bd_cost b2 = bd_cost b) by (rewrite E2; reflexivity).
  exists c1. eexists. exists c2. eexists. split; [exact Hf1|]. split; [exact Hf2|]. rewrite K1, K2, D1, D2.
  destruct (sv (bd_calls b1) (ms_mip m1)) as [s1 [|]| | |]; try destruct C1; destruct (sv' (bd_calls b2) (ms_mip m2)) as [s2 [|]| | |]; try destruct C2; cbn [valid_outcome] in V1, V2.
  - split; [split; intro Q; discriminate Q|]. intro Hc. cbn [solution_info exposed option_map s_cost]. f_equal. destruct V1 as [V1 W1], V2 as [V2 W2].
    assert (objective (ms_mip m1) s1 = objective (ms_mip m2) s2).
    { rewrite <- (proj2 (HM s2)). apply Qcle_antisym; [apply W1; rewrite (proj1 (HM s2)); exact V2|]. rewrite (proj2 (HM s2)), (proj2 (HM s1)). apply W2. rewrite <- (proj1 (HM s1)). exact V1. }
    destruct (bd_cost b); auto. now contradict Hc.
  - exfalso. destruct V1 as [V1 _]. rewrite (proj1 (HM s1)), V2 in V1. discriminate V1.
  - exfalso. destruct V2 as [V2 _]. rewrite <- (proj1 (HM s2)), V1 in V2. discriminate V2.
  - split; [split; reflexivity|]. reflexivity.
Qed.
Lemma c33_case : exists b x, forall k, exists b1, set_x env0 (on_kind k b) x = (b1, Ok tt).
Proof.
  destruct (sc_check_ok (sc2 PyMIP CTotal (- z 3)) (fun b b0 => true)) as (b & b0 & HR & _); [vm_compute; reflexivity|]. exists b, [z 0; z 1].
  pose proof (c33_set_x env0 b [z 0; z 1]) as K. pose proof (proj2 (sc_assigned _ _ _ HR (fun _ _ => SUnknown))) as X. change (sc_env (sc2 PyMIP CTotal (- z 3))) with env0 in X. cbn [sc_x sc2 mk] in X.
  assert (Kd : snd (set_x env0 (on_kind PyMIP b) [z 0; z 1]) = Ok tt).
  { replace (on_kind PyMIP b) with b; [now rewrite X|]. assert (Q : bd_kind b = PyMIP).
    { assert (T : sc_check (sc2 PyMIP CTotal (- z 3)) (fun b b0 => match bd_kind b with PyMIP => true | CPX => false end) = true) by (vm_compute; reflexivity). unfold sc_check in T. rewrite HR in T. destruct (bd_kind b); [discriminate T|reflexivity]. }
    unfold on_kind. rewrite <- Q. destruct b; reflexivity. }
  destruct (set_x env0 (on_kind CPX b) [z 0; z 1]) as [b1 r1] eqn:Q1, (set_x env0 (on_kind PyMIP b) [z 0; z 1]) as [b2 r2] eqn:Q2. destruct K as [<- _]. cbn [snd] in Kd. subst r1.
  intros [|]; eauto.
Qed.

(** ** C34, C35 *)
Lemma c34_thm E sv b x b0 l b1 s id c : ok_env E -> sound_solver sv -> assigned E sv b x b0 -> all_offered (bd_A b) x -> session sv b0 l b1 -> In s l ->
  stored (as_cons (bd_A b)) id c -> (forall j xj, In j (c_indices c) -> nth_error x j = Some xj -> 0 <= xj) ->
  (c_lb c <= Z.of_nat (n_on (vadd x (s_actions s)) (c_indices c)) <= c_ub c)%Z.
Proof. intros HE HS HA. intros HAll Hs Hin. exact (c34 E sv b x b0 HE HS HA l b1 s id c Hs Hin (all_offered_lined _ _ HAll)). Qed.
Lemma c34_line_thm E sv b x b0 l b1 s : ok_env E -> sound_solver sv -> assigned E sv b x b0 ->
  in_line (bd_A b) (bd_w b) x -> flips_match (bd_A b) (bd_w b) -> (forall j xj, constrained_at (bd_A b) j -> nth_error x j = Some xj -> 0 <= xj) ->
  session sv b0 l b1 -> In s l -> compliant (bd_A b) x (s_actions s).
Proof.
  intros HE HS HA HL HFl Hx Hs Hin id c Hst. destruct (assigned_ready E sv b x b0 HE HA) as (ms & R).
  apply (c34 E sv b x b0 HE HS HA l b1 s id c Hs Hin (lined_of E _ _ _ (rd_wf _ _ _ _ _ R) HFl HL) Hst). intros j xj Hj. apply Hx. exists id, c. auto.
Qed.
Definition sc34b := mk env0 tab3 ["a"; "b"; "c"] 1 [OAdd ["a"; "b"] (z 0) (z 1) (Some "one")] PyMIP [z 1; z 1; z 1] (- z 2) CTotal [z 0; z 0; z 0].
Lemma c34_case : exists b b0 c, (forall sv, assigned env0 sv b [z 0; z 0; z 0] b0) /\ all_offered (bd_A b) [z 0; z 0; z 0] /\ stored (as_cons (bd_A b)) "one" c /\ c_ub c = 1%Z /\
  (forall sv, sound_solver sv -> finishing_solver sv -> exists b1 s, fit sv b0 = Ok (b1, Some s) /\ n_on (vadd [z 0; z 0; z 0] (s_actions s)) (c_indices c) = 1%nat).
Proof.
  destruct (forced sc34b (fun b => offeredb (bd_A b) [z 0; z 0; z 0] && conb (bd_A b) "one" [0; 1]%nat 0 1)
    (fun b r => match r with Some (a, _, _) => Nat.eqb (n_on (vadd [z 0; z 0; z 0] a) [0; 1]%nat) 1 | None => false end) env0_ok) as (b & b0 & HA & HP & HF); [vm_compute; reflexivity|].
  apply andb_true_iff in HP. destruct HP as [H1 H2]. apply conb_ok in H2. destruct H2 as (c & C1 & C2 & _ & C3).
  exists b, b0, c. split; [exact HA|]. split; [now apply offeredb_ok|]. split; [exact C1|]. split; [exact C3|]. intros sv S F. destruct (HF sv S F) as (b1 & [s|] & Hf & Ht); [|discriminate Ht].
  exists b1, s. split; [exact Hf|]. rewrite C2. cbn [view] in Ht. apply Nat.eqb_eq in Ht. exact Ht.
Qed.
Lemma c35_thm E sv b x : ok_env E -> sound_solver sv -> builder_reachable E sv b -> bd_cost b = CMax -> unconstrained (bd_A b) ->
  length x = length (bd_w b) -> alignment_known (bd_A b) = true -> answers E (bd_A b) -> nothing_to_change (bd_A b) x ->
  exists b0 b1, set_x E b x = (b0, Ok tt) /\ fit sv b0 = Ok (b1, None) /\
    forall fuel total et, total <> Some 0%nat -> exists b2, populate sv (S fuel) total et b0 = Some (Ok (b2, [])).
Proof.
  intros HE HS HR Hc HU HLx HK HAn HN. pose proof (c35_accepts E sv b x HE HR Hc HU HLx HK HAn HN) as K. destruct (set_x E b x) as [b0 r] eqn:EX. cbn [snd] in K. subst r.
  assert (HA : assigned E sv b x b0) by (split; assumption). destruct (c35 E sv b x b0 HE HS HA HN) as (b1 & Hf). exists b0, b1. split; [reflexivity|]. split; [exact Hf|].
  intros fuel total et Ht. exists b1. unfold populate. destruct (set_x_ok _ _ _ _ EX) as (ms & _ & _ & E0). assert (Hm : bd_mip b0 = Some ms) by (rewrite E0; reflexivity). rewrite Hm.
  destruct total as [[|n]|]; [now contradict Ht| |]; cbn [populate_loop]; rewrite Hf; reflexivity.
Qed.
Definition answersb (E : env) (A : action_set) : bool := forallb (fun e => match kde E (e_values e) with Some _ => true | None => false end && match e_interp e with None => true | Some _ => false end) (as_elems A).
Lemma c35_case : exists b x, (forall sv, builder_reachable env0 sv b) /\ bd_cost b = CMax /\ unconstrained (bd_A b) /\ length x = length (bd_w b) /\
  alignment_known (bd_A b) = true /\ answers env0 (bd_A b) /\ nothing_to_change (bd_A b) x.
Proof.
  destruct (sc_check_ok (sc35 CMax) (fun b b0 => match bd_cost b with CMax => true | _ => false end && unconstrainedb (bd_A b) && Nat.eqb 2 (length (bd_w b)) && alignment_known (bd_A b) &&
     forallb (fun e => match e_interp e with None => true | Some _ => false end && match percentile env0 e 0 with Ok _ => true | _ => false end) (as_elems (bd_A b)) && stuckb (bd_A b) [z 3; z 3])) as (b & b0 & HR & H); [vm_compute; reflexivity|].
  do 5 (apply andb_true_iff in H; destruct H as [H ?]). exists b, [z 3; z 3].
  split; [intro sv; exact (proj1 (sc_assigned _ _ _ HR sv))|]. split; [destruct (bd_cost b); congruence|]. split; [now apply unconstrainedb_ok|]. split; [now apply Nat.eqb_eq|]. split; [assumption|]. split; [|now apply stuckb_ok].
  intros j e v He. rewrite forallb_forall in H1. specialize (H1 e (nth_error_In _ _ He)). apply andb_true_iff in H1. destruct H1 as [I1 I2].
  destruct (percentile env0 e 0) as [p|] eqn:Ep; [|discriminate I2]. clear -Ep. unfold percentile in *. destruct (get_interp env0 e) as [[g h]|]; [|discriminate Ep]. cbn [bind] in *. eauto.
Qed.

(** ** C36-C40 *)
Lemma c36_thm E sv b x b0 l b1 i j s et' s' : ok_env E -> sound_solver sv -> assigned E sv b x b0 -> enumeration sv b0 l b1 -> (i < j)%nat ->
  nth_error l i = Some (MutuallyExclusive, s) -> nth_error l j = Some (et', s') -> forall f, ~ (changes (s_actions s) f /\ changes (s_actions s') f).
Proof.
  intros HE HS HA He Hij Hi Hj f Hf. refine (c36_37 E sv b x b0 HE HS HA l b1 i j MutuallyExclusive s et' s' He Hij Hi Hj _ _); [intros _ Q; discriminate Q|]. exists f. exact Hf.
Qed.
Lemma c37_thm E sv b x b0 l b1 i j s et' s' : ok_env E -> sound_solver sv -> assigned E sv b x b0 -> (bd_kind b = CPX -> switches_off E (bd_A b) x) ->
  enumeration sv b0 l b1 -> (i < j)%nat -> nth_error l i = Some (DistinctSubsets, s) -> nth_error l j = Some (et', s') -> ~ same_features (s_actions s) (s_actions s').
Proof. intros HE HS HA HC He Hij Hi Hj. exact (c36_37 E sv b x b0 HE HS HA l b1 i j DistinctSubsets s et' s' He Hij Hi Hj (fun Q _ => HC Q)). Qed.
Lemma c37_unconstrained E A x : ok_env E -> unconstrained A -> switches_off E A x.
Proof. intros HE HU j e xj v n Hn Hin. exfalso. unfold constrained_names in Hin. rewrite HU in Hin. cbn in Hin. apply (Permutation_in _ (HE [])) in Hin. exact Hin. Qed.
Lemma c40_thm E sv b x b0 l b1 i j et s et' s' : ok_env E -> sound_solver sv -> assigned E sv b x b0 -> (bd_kind b = CPX -> switches_off E (bd_A b) x) ->
  enumeration sv b0 l b1 -> (i < j)%nat -> nth_error l i = Some (et, s) -> nth_error l j = Some (et', s') -> ~ same_features (s_actions s) (s_actions s').
Proof. intros HE HS HA HC He Hij Hi Hj. exact (c40 E sv b x b0 HE HS HA l b1 i j et s et' s' He Hij Hi Hj (fun Q _ => HC Q)). Qed.
Lemma c40_count_thm E sv b x b0 l0 n b1 b2 fuel et l : ok_env E -> sound_solver sv -> assigned E sv b x b0 -> enumeration sv b0 l0 b1 ->
  populate sv fuel (Some n) et b1 = Some (Ok (b2, l)) -> (length l <= n)%nat.
Proof. intros HE HS HA He Hp. exact (populate_count E sv b x b0 HE HS HA n b1 b2 fuel et l Hp l0 He). Qed.
Lemma c38_mono_thm E sv b x b0 l b1 i j et s et' s' : ok_env E -> sound_solver sv -> finishing_solver sv -> assigned E sv b x b0 -> bd_cost b <> CMax -> enumeration sv b0 l b1 -> (i < j)%nat ->
  nth_error l i = Some (et, s) -> nth_error l j = Some (et', s') -> s_cost s <= s_cost s'.
Proof. intros HE HS HF HA Hc He. exact (c38_mono E sv b x b0 HE HS HA l b1 i j et s et' s' HF Hc He). Qed.
Lemma c38_best_thm E sv b x b0 l b1 i et s a cs : ok_env E -> sound_solver sv -> finishing_solver sv -> density E -> log_ok E (bd_cost b) -> assigned E sv b x b0 ->
  orderly E (bd_A b) (bd_w b) x -> flips_match (bd_A b) (bd_w b) -> regular E (bd_A b) x -> (bd_kind b = CPX -> switches_off E (bd_A b) x) -> bd_cost b <> CMax ->
  enumeration sv b0 l b1 -> nth_error l i = Some (et, s) -> acceptable b x a ->
  (forall i' et' s', (i' < i)%nat -> nth_error l i' = Some (et', s') -> ~ rules_out et' (s_actions s') a) ->
  action_costs E (bd_cost b) (bd_A b) x a cs -> s_cost s <= qsum cs.
Proof. intros HE HS HF HD HL HA HU HFl HR HSw Hc He. exact (c38_best E sv b x b0 HE HS HA l b1 i et s a cs HF HD HL HU HFl HR HSw Hc He). Qed.
Lemma same_features_sym a a' : same_features a a' -> same_features a' a.
Proof. intros H j. symmetry. apply H. Qed.
Lemma same_features_trans a a' a'' : same_features a a' -> same_features a' a'' -> same_features a a''.
Proof. intros H H' j. now rewrite (H j). Qed.
Lemma c38_own_thm E sv b x b0 l b1 i s a cs : ok_env E -> sound_solver sv -> finishing_solver sv -> density E -> log_ok E (bd_cost b) -> assigned E sv b x b0 ->
  orderly E (bd_A b) (bd_w b) x -> flips_match (bd_A b) (bd_w b) -> regular E (bd_A b) x -> (bd_kind b = CPX -> switches_off E (bd_A b) x) -> bd_cost b <> CMax ->
  enumeration sv b0 l b1 -> nth_error l i = Some (DistinctSubsets, s) -> acceptable b x a -> same_features (s_actions s) a ->
  action_costs E (bd_cost b) (bd_A b) x a cs -> s_cost s <= qsum cs.
Proof.
  intros HE HS HF HD HL HA HU HFl HR HSw Hc He Hi Ha Hsf Hcs. refine (c38_best_thm E sv b x b0 l b1 i DistinctSubsets s a cs HE HS HF HD HL HA HU HFl HR HSw Hc He Hi Ha _ Hcs).
  intros i' et' s' Hlt Hi' Hro.
  pose proof (c36_37 E sv b x b0 HE HS HA l b1 i' i et' s' DistinctSubsets s He Hlt Hi' Hi) as K. apply K; [exact (fun Q _ => HSw Q)|]. destruct et'; cbn [rules_out] in *.
  - destruct Hro as (j & J1 & J2). exists j. split; [exact J1|]. now apply (Hsf j).
  - eapply same_features_trans; [exact Hro|]. now apply same_features_sym.
Qed.
Lemma c39_term_thm E sv b x b0 l b1 fuel total et : ok_env E -> sound_solver sv -> assigned E sv b x b0 -> enumeration sv b0 l b1 -> total <> Some 0%nat -> (2 ^ as_len (bd_A b) < fuel)%nat ->
  exists b2 l2, populate sv fuel total et b1 = Some (Ok (b2, l2)) /\ (length l2 <= 2 ^ as_len (bd_A b))%nat.
Proof. intros HE HS HA. exact (c39_terminates E sv b x b0 HE HS HA l b1 fuel total et). Qed.
Lemma c39_exh_thm E sv b x b0 l b1 fuel total et l2 b2 a : ok_env E -> sound_solver sv -> finishing_solver sv -> density E -> log_ok E (bd_cost b) -> assigned E sv b x b0 ->
  orderly E (bd_A b) (bd_w b) x -> flips_match (bd_A b) (bd_w b) -> regular E (bd_A b) x -> (bd_kind b = CPX -> switches_off E (bd_A b) x) ->
  enumeration sv b0 l b1 -> populate sv fuel total et b1 = Some (Ok (b2, l2)) -> total <> Some (length l2) -> acceptable b x a ->
  exists et' s', In (et', s') (l ++ map (pair et) l2) /\ rules_out et' (s_actions s') a.
Proof. intros HE HS HF HD HL HA HU HFl HR. exact (c39_exhaustive E sv b x b0 HE HS HA l b1 fuel total et l2 b2 a HF HD HL HU HFl HR). Qed.
Lemma c41_keep E sv b x l b1 : same_problem b (fst (set_x E b x)) /\ (session sv b l b1 -> same_problem b b1).
Proof. split; [apply same_set_x|apply session_same]. Qed.

(** ** Cases *)
Definition x01 : list Qc := [z 0; z 1].
Definition case_pre (k : backend) (ct : cost_type) (b : builder) : bool :=
  good_setupb env0 b x01 && regularb env0 (bd_A b) (bd_w b) x01 && match bd_kind b, k with PyMIP, PyMIP | CPX, CPX => true | _, _ => false end &&
  match bd_cost b, ct with CTotal, CTotal | CLocal, CLocal | CMax, CMax => true | _, _ => false end.
Lemma case_pre_ok k ct b : case_pre k ct b = true -> plain_setup env0 b x01 /\ regular env0 (bd_A b) x01 /\ fits_grids (bd_A b) x01 /\ bd_kind b = k /\ bd_cost b = ct.
Proof.
  unfold case_pre. intro H. do 3 (apply andb_true_iff in H; destruct H as [H ?]). split; [eapply good_setupb_ok; eassumption|]. apply regularb_ok in H2. destruct H2 as (_ & _ & R & F & _).
  split; [exact R|]. split; [exact F|]. split; [destruct (bd_kind b), k; congruence|destruct (bd_cost b), ct; congruence].
Qed.
Lemma regular_case : forall k ct, exists b b0, (forall sv, assigned env0 sv b [z 0; z 1] b0) /\
  plain_setup env0 b [z 0; z 1] /\ regular env0 (bd_A b) [z 0; z 1] /\ fits_grids (bd_A b) [z 0; z 1] /\ all_offered (bd_A b) [z 0; z 1] /\
  bd_kind b = k /\ bd_cost b = ct /\ n_actionable b = Z.of_nat (as_len (bd_A b)) /\
  acceptable b [z 0; z 1] [z 2; z 0] /\ acceptable b [z 0; z 1] [z 3; z 2] /\
  forall sv, sound_solver sv -> finishing_solver sv -> exists b1 s, fit sv b0 = Ok (b1, Some s).
Proof.
  intros k ct. fold x01.
  destruct (forced (sc2 k ct (- z 3)) (fun b => case_pre k ct b && offeredb (bd_A b) x01 && (n_actionable b =? Z.of_nat (as_len (bd_A b)))%Z && acceptableb b x01 [z 2; z 0] && acceptableb b x01 [z 3; z 2])
    (fun b r => match r with Some _ => true | None => false end) env0_ok) as (b & b0 & HA & HP & HF); [destruct k, ct; vm_compute; reflexivity|].
  do 4 (apply andb_true_iff in HP; destruct HP as [HP ?]). destruct (case_pre_ok _ _ _ HP) as (P1 & P2 & P3 & P4 & P5). exists b, b0. split; [exact HA|]. split; [exact P1|]. split; [exact P2|]. split; [exact P3|].
  split; [now apply offeredb_ok|]. split; [exact P4|]. split; [exact P5|]. split; [now apply Z.eqb_eq|]. split; [now apply acceptableb_ok|]. split; [now apply acceptableb_ok|].
  intros sv S F. destruct (HF sv S F) as (b1 & [s|] & Hf & Ht); [eauto|discriminate Ht].
Qed.
Lemma hopeless_case : forall k ct, exists b b0, (forall sv, assigned env0 sv b [z 0; z 1] b0) /\
  plain_setup env0 b [z 0; z 1] /\ regular env0 (bd_A b) [z 0; z 1] /\ fits_grids (bd_A b) [z 0; z 1] /\ bd_kind b = k /\ bd_cost b = ct /\
  forall sv, sound_solver sv -> finishing_solver sv -> exists b1, fit sv b0 = Ok (b1, None).
Proof.
  intros k ct. fold x01.
  destruct (forced (sc2 k ct (- z 100)) (case_pre k ct) (fun b r => match r with Some _ => false | None => true end) env0_ok) as (b & b0 & HA & HP & HF); [destruct k, ct; vm_compute; reflexivity|].
  destruct (case_pre_ok _ _ _ HP) as (P1 & P2 & P3 & P4 & P5). exists b, b0. split; [exact HA|]. do 5 (split; [assumption|]).
  intros sv S F. destruct (HF sv S F) as (b1 & [s|] & Hf & Ht); [discriminate Ht|eauto].
Qed.
Definition sc40 k := mk env0 tab3 ["a"; "b"; "c"] 1 [] k [z 1; z 1; z 1] (- z 2) CTotal [z 0; z 0; z 0].
Lemma enumeration_case : forall k, exists b b0, (forall sv, assigned env0 sv b [z 0; z 0; z 0] b0) /\ bd_kind b = k /\ unconstrained (bd_A b) /\
  flips_match (bd_A b) (bd_w b) /\ regular env0 (bd_A b) [z 0; z 0; z 0] /\
  forall sv, sound_solver sv -> finishing_solver sv -> exists b1 l, populate sv 9 (Some 4%nat) DistinctSubsets b0 = Some (Ok (b1, l)) /\ length l = 4%nat.
Proof.
  intro k. destruct (sc_check_ok (sc40 k) (fun b b0 => regularb env0 (bd_A b) (bd_w b) [z 0; z 0; z 0] && match bd_kind b, k with PyMIP, PyMIP | CPX, CPX => true | _, _ => false end && Nat.eqb (as_len (bd_A b)) 3 &&
    pop_test b0 4 DistinctSubsets (fun _ => true))) as (b & b0 & HR & H); [destruct k; vm_compute; reflexivity|].
  do 3 (apply andb_true_iff in H; destruct H as [H ?]). apply regularb_ok in H. destruct H as (R1 & R2 & R3 & _). apply Nat.eqb_eq in H1. pose proof (sc_assigned _ _ _ HR) as HA. change (sc_env (sc40 k)) with env0 in HA. change (sc_x (sc40 k)) with [z 0; z 0; z 0] in HA.
  exists b, b0. split; [exact HA|]. split; [destruct (bd_kind b), k; congruence|]. split; [exact R1|]. split; [exact R2|]. split; [exact R3|]. intros sv S F.
  destruct (c39_term_thm env0 sv b _ b0 [] b0 9 (Some 4%nat) DistinctSubsets env0_ok S (HA sv) (en_done _ _) ltac:(intro Q; discriminate Q) ltac:(rewrite H1; cbn; lia)) as (b1 & l & Hp & _).
  exists b1, l. split; [exact Hp|]. destruct (assigned_ready _ sv _ _ _ env0_ok (HA sv)) as (ms & R). exact (proj1 (pop_test_ok sv b0 ms _ 4 DistinctSubsets _ 9 b1 l S F (rd_good _ _ _ _ _ R) H0 Hp)).
Qed.
