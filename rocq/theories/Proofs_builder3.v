(** Proofs of C27 (both directions), C28, C32-C35, C41, C42. *)
From Verif Require Import Proofs_props_element Proofs_props_actionset Spec_recourse Proofs_mip Proofs_info Proofs_vec Proofs_build Proofs_enum Proofs_session Proofs_recourse Proofs_subset Proofs_exchange Proofs_far Proofs_concrete Proofs_builder Proofs_builder2.
#[local] Open Scope list_scope.
#[local] Open Scope Qc_scope.

Section Verdict.
Context (E : env) (sv : solver) (b : builder) (x : list Qc) (b0 : builder).
Context (HE : ok_env E) (HS : sound_solver sv) (HA : assigned E sv b x b0).
Lemma fit_some b1 s : fit sv b0 = Ok (b1, Some s) -> permitted_action (bd_A b) x (s_actions s) /\ size_between (bd_min b) (bd_max b) (s_actions s) /\
  on_side (as_y (bd_A b)) (score (bd_w b) (bd_t b) (vadd x (s_actions s))).
Proof.
  intro H. assert (Hs : session sv b0 ([s] ++ []) b1) by (exact (ses_fit sv b0 b1 (Some s) [] b1 H (ses_done sv b1))).
  split; [eapply c25; eauto; now left|]. split; [eapply c31; eauto; now left|]. eapply c26; eauto; now left.
Qed.
(** Subset limits *)
Lemma orderly_x j xj ms : orderly E (bd_A b) (bd_w b) x -> ready E b x b0 ms -> constrained_at (bd_A b) j -> nth_error x j = Some xj -> 0 <= xj.
Proof.
  intros [_ HO] R HC Hx. assert (L : (j < as_len (bd_A b))%nat) by (rewrite <- (rd_x _ _ _ _ _ R); apply nth_error_Some; congruence).
  destruct (nth_error (as_elems (bd_A b)) j) as [e|] eqn:He; [apply (HO j e xj HC He Hx)|]. apply nth_error_None in He. rewrite (rd_el _ _ _ _ _ R) in He. lia.
Qed.
Lemma c34 l b1 s id c : session sv b0 l b1 -> In s l -> lined (bd_A b) x -> stored (as_cons (bd_A b)) id c ->
  (forall j xj, In j (c_indices c) -> nth_error x j = Some xj -> 0 <= xj) ->
  (c_lb c <= Z.of_nat (n_on (vadd x (s_actions s)) (c_indices c)) <= c_ub c)%Z.
Proof.
  intros Hs Hin HIL Hst Hx0. destruct (session_item E sv b x b0 HE HS HA _ _ _ Hs Hin) as (ms & ch & R & (Hc & _ & _ & HSub) & (Ha & _)).
  rewrite Forall_forall in HSub. specialize (HSub _ (dget_In _ _ _ Hst)). cbn in HSub.
  rewrite Ha. apply (subset_iff E (bd_A b) (bd_cost b) (bd_w b) x (ms_infos ms) (as_len (bd_A b)) HE (rd_wf _ _ _ _ _ R) (rd_info _ _ _ _ _ R) eq_refl ch id c HIL Hc Hst Hx0). exact HSub.
Qed.
Lemma session_compliant l b1 s : session sv b0 l b1 -> In s l -> orderly E (bd_A b) (bd_w b) x -> flips_match (bd_A b) (bd_w b) -> compliant (bd_A b) x (s_actions s).
Proof.
  intros Hs Hin HO HFl id c Hst. destruct (assigned_ready E sv b x b0 HE HA) as (ms & R). apply (c34 l b1 s id c Hs Hin (lined_of E _ _ _ (rd_wf _ _ _ _ _ R) HFl (proj1 HO)) Hst).
  intros j xj Hj Hx. apply (orderly_x j xj ms HO R); [exists id, c; auto|exact Hx].
Qed.
Lemma fit_compliant b1 s : fit sv b0 = Ok (b1, Some s) -> orderly E (bd_A b) (bd_w b) x -> flips_match (bd_A b) (bd_w b) -> compliant (bd_A b) x (s_actions s).
Proof.
  intro H. assert (Hs : session sv b0 ([s] ++ []) b1) by (exact (ses_fit sv b0 b1 (Some s) [] b1 H (ses_done sv b1))). apply (session_compliant _ _ _ Hs). now left.
Qed.
(** The exact verdict. *)
Lemma fit_movable b1 s : fit sv b0 = Ok (b1, Some s) -> movable_only (bd_A b) x (s_actions s).
Proof.
  intro H. assert (Hs : session sv b0 ([s] ++ []) b1) by (exact (ses_fit sv b0 b1 (Some s) [] b1 H (ses_done sv b1))). eapply item_movable; eauto. now left.
Qed.
Lemma verdict_every : finishing_solver sv -> density E -> log_ok E (bd_cost b) -> orderly E (bd_A b) (bd_w b) x -> flips_match (bd_A b) (bd_w b) ->
  current_percentiles (bd_A b) -> (bd_min b <= 1)%Z -> denied (as_y (bd_A b)) (score (bd_w b) (bd_t b) x) ->
  exists b1 r, fit sv b0 = Ok (b1, r) /\
   (r = None <-> forall a, permitted_action (bd_A b) x a -> movable_only (bd_A b) x a -> (Z.of_nat (n_changed a) <= bd_max b)%Z -> compliant (bd_A b) x a -> ~ on_side (as_y (bd_A b)) (score (bd_w b) (bd_t b) (vadd x a))).
Proof.
  intros HF HD HL HU HFl HC Hm HDn. destruct (fit_total E sv b x b0 HE HS HA) as (b1 & r & Hfit). exists b1, r. split; [exact Hfit|]. split.
  - intros -> a HP HMv Hz. eapply c27_movable; eauto.
  - intro H. destruct r as [s|]; [|reflexivity]. exfalso. destruct (fit_some _ _ Hfit) as (P1 & P2 & P3). exact (H _ P1 (fit_movable _ _ Hfit) (proj2 P2) (fit_compliant _ _ Hfit HU HFl) P3).
Qed.
Lemma verdict : finishing_solver sv -> density E -> log_ok E (bd_cost b) -> orderly E (bd_A b) (bd_w b) x -> flips_match (bd_A b) (bd_w b) ->
  fits_grids (bd_A b) x -> current_percentiles (bd_A b) -> (bd_min b <= 1)%Z -> denied (as_y (bd_A b)) (score (bd_w b) (bd_t b) x) ->
  exists b1 r, fit sv b0 = Ok (b1, r) /\
   (r = None <-> forall a, permitted_action (bd_A b) x a -> (Z.of_nat (n_changed a) <= bd_max b)%Z -> compliant (bd_A b) x a -> ~ on_side (as_y (bd_A b)) (score (bd_w b) (bd_t b) (vadd x a))).
Proof.
  intros HF HD HL HU HFl HG HC Hm HDn. destruct (verdict_every HF HD HL HU HFl HC Hm HDn) as (b1 & r & Hfit & HV). exists b1, r. split; [exact Hfit|].
  rewrite HV. split; intros H a HP; [intros; apply H; auto using fits_movable|intros _; now apply H].
Qed.
(** With nothing to change, fit reports infeasible whatever the solver does. *)
Lemma c35 : (forall a, permitted_action (bd_A b) x a -> n_changed a = 0%nat) -> exists b1, fit sv b0 = Ok (b1, None).
Proof.
  intro H. destruct (fit_total E sv b x b0 HE HS HA) as (b1 & [s|] & Hfit); [|eauto]. exfalso. destruct (fit_some _ _ Hfit) as (P1 & P2 & _).
  specialize (H _ P1). unfold size_between in P2. rewrite H in P2. lia.
Qed.

End Verdict.

(** ** C28: the verdict does not depend on the densities *)
Lemma c28 E1 E2 sv1 sv2 b x b1 b2 : ok_env E1 -> ok_env E2 -> sound_solver sv1 -> sound_solver sv2 -> finishing_solver sv1 -> finishing_solver sv2 ->
  density E1 -> density E2 -> log_ok E1 (bd_cost b) -> log_ok E2 (bd_cost b) ->
  assigned E1 sv1 b x b1 -> assigned E2 sv2 b x b2 -> orderly E1 (bd_A b) (bd_w b) x -> orderly E2 (bd_A b) (bd_w b) x -> flips_match (bd_A b) (bd_w b) ->
  current_percentiles (bd_A b) -> (bd_min b <= 1)%Z -> denied (as_y (bd_A b)) (score (bd_w b) (bd_t b) x) ->
  exists c1 r1 c2 r2, fit sv1 b1 = Ok (c1, r1) /\ fit sv2 b2 = Ok (c2, r2) /\ (r1 = None <-> r2 = None).
Proof.
  intros. destruct (verdict_every E1 sv1 b x b1) as (c1 & r1 & F1 & V1); auto. destruct (verdict_every E2 sv2 b x b2) as (c2 & r2 & F2 & V2); auto.
  exists c1, r1, c2, r2. split; [exact F1|]. split; [exact F2|]. now rewrite V1, V2.
Qed.

(** ** C41 *)
Lemma c41_assign E b b' x : same_problem b b' -> snd (set_x E b x) = snd (set_x E b' x) /\
  (snd (set_x E b x) = Ok tt -> bd_mip (fst (set_x E b x)) = bd_mip (fst (set_x E b' x))).
Proof.
  intros (H1 & H2 & H3 & H4 & H5 & H6 & H7). unfold set_x. rewrite H1, H2, H3, H4, H5, H6, H7. destruct (Nat.eqb _ _); [|split; [reflexivity|discriminate]].
  destruct (build _ _ _ _ _ _ _ _ _); split; auto; discriminate.
Qed.
Lemma twin_fit sv b b' : stateless sv -> twin b b' ->
  match fit sv b, fit sv b' with
  | Ok (c, r), Ok (c', r') => r = r' /\ twin c c' /\ bd_sol c = bd_sol c'
  | Err e, Err e' => e = e'
  | _, _ => False
  end.
Proof.
  intros HS [(H1 & H2 & H3 & H4 & H5 & H6 & H7) H8]. unfold fit, solve_mip. rewrite H8. destruct (bd_mip b) as [ms|]; [|reflexivity]. cbn.
  rewrite (HS (bd_calls b') (bd_calls b)), H1, H2, H5. split; [reflexivity|]. split; [|reflexivity]. repeat split; cbn; auto.
Qed.
Lemma twin_remove et b b' : twin b b' -> bd_sol b = bd_sol b' ->
  match remove_solution et b, remove_solution et b' with Ok c, Ok c' => twin c c' | Err e, Err e' => e = e' | _, _ => False end.
Proof.
  intros [(H1 & H2 & H3 & H4 & H5 & H6 & H7) H8] Hs.
  destruct et; cbn [remove_solution]; unfold remove_all_features, remove_feature_combination, with_solution; rewrite H8, <- Hs, ?H1;
    destruct (bd_mip b) as [ms|]; try reflexivity; destruct (bd_sol b) as [[s g|s| |]|]; try reflexivity; repeat split; cbn; auto.
Qed.
Lemma twin_loop sv et : stateless sv -> forall fuel total b b', twin b b' ->
  match populate_loop sv fuel total et b, populate_loop sv fuel total et b' with
  | Some (Ok (c, l)), Some (Ok (c', l')) => l = l' /\ twin c c'
  | Some (Err e), Some (Err e') => e = e'
  | None, None => True
  | _, _ => False
  end.
Proof.
  intro HS. induction fuel as [|fuel IH]; intros total b b' HT; cbn [populate_loop]; destruct (match total with Some 0%nat => true | _ => false end); auto.
  pose proof (twin_fit sv b b' HS HT) as K. destruct (fit sv b) as [[c [s|]]|e], (fit sv b') as [[c' [s'|]]|e']; try (now destruct K); try exact K.
  - destruct K as (K1 & K2 & K3). pose proof (twin_remove et c c' K2 K3) as R. destruct (remove_solution et c) as [d|], (remove_solution et c') as [d'|]; try (now destruct R); try exact R.
    specialize (IH (option_map Init.Nat.pred total) d d' R). destruct (populate_loop sv fuel (option_map Init.Nat.pred total) et d) as [[[f l]|]|], (populate_loop sv fuel (option_map Init.Nat.pred total) et d') as [[[f' l']|]|]; try exact IH; try (now destruct IH).
    destruct IH as [-> ?]. split; [congruence|assumption].
Qed.
Lemma twin_populate sv et fuel total b b' : stateless sv -> twin b b' ->
  match populate sv fuel total et b, populate sv fuel total et b' with
  | Some (Ok (c, l)), Some (Ok (c', l')) => l = l' /\ twin c c'
  | Some (Err e), Some (Err e') => e = e'
  | None, None => True
  | _, _ => False
  end.
Proof.
  intros HS HT. pose proof (twin_loop sv et HS fuel total b b' HT) as K. unfold populate. destruct HT as [_ H8]. rewrite H8. destruct (bd_mip b); [|reflexivity].
  destruct total as [[|n]|]; [reflexivity|exact K|exact K].
Qed.

(** ** C42 *)
Lemma c42_cpx sv b ms b1 r : bd_kind b = CPX -> bd_mip b = Some ms -> fit sv b = Ok (b1, r) -> (r = None <-> has_point (sv (bd_calls b) (ms_mip ms)) = None).
Proof.
  intros Hk Hm H. unfold fit, solve_mip in H. rewrite Hm in H. cbn in H. injection H as _ <-. rewrite Hk. unfold solution_info, has_point, exposed.
  destruct (sv (bd_calls b) (ms_mip ms)); split; congruence.
Qed.
Lemma c42_conclusive sv b ms b1 r : bd_mip b = Some ms -> conclusive (sv (bd_calls b) (ms_mip ms)) -> sound_solver sv -> fit sv b = Ok (b1, r) ->
  (r = None <-> forall s, mip_sat (ms_mip ms) s = false).
Proof.
  intros Hm HC HS H. pose proof (HS (bd_calls b) (ms_mip ms)) as HV. unfold fit, solve_mip in H. rewrite Hm in H. cbn in H. injection H as _ <-. unfold solution_info, exposed.
  destruct (sv (bd_calls b) (ms_mip ms)) as [s [|]|s| |]; try destruct HC; cbn in HV.
  - destruct (bd_kind b); (split; [discriminate|]); intro Q; destruct HV as [HV _]; rewrite Q in HV; discriminate HV.
  - destruct (bd_kind b); split; auto.
Qed.
