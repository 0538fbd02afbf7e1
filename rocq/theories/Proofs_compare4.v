(** Cases that meet the hypotheses of C89-C95. *)
From Verif Require Import Proofs_props_element Proofs_props_actionset Spec_compare Proofs_mip Proofs_info Proofs_vec Proofs_build Proofs_enum Proofs_session Proofs_recourse Proofs_exchange Proofs_concrete Proofs_builder Proofs_builder2 Proofs_builder4 Proofs_flipset3 Proofs_scen Proofs_scen2 Proofs_builder6 Proofs_builder7 Proofs_builder8 Proofs_dict Proofs_compare Proofs_compare2 Proofs_compare3.
#[local] Open Scope string_scope.
#[local] Open Scope list_scope.
#[local] Open Scope Qc_scope.

(** The same scenario with another classifier and back end. *)
Definition remodel (c : scenario) (k : backend) (w : list Qc) (t : Qc) : scenario :=
  {| sc_env := sc_env c; sc_X := sc_X c; sc_names := sc_names c; sc_y := sc_y c; sc_ops := sc_ops c; sc_kind := k; sc_w := w; sc_t := t; sc_cost := sc_cost c; sc_x := sc_x c |}.
#[local] Transparent sc_aset sc_builder.
Lemma remodel_builder c k w t b b' : sc_builder c = Ok b -> sc_builder (remodel c k w t) = Ok b' -> exists A, sc_aset c = Ok A /\
  mk_builder (sc_env c) (sc_kind c) A (coef_args (sc_w c) (sc_t c)) (sc_cost c) None = Ok b /\ mk_builder (sc_env c) k A (coef_args w t) (sc_cost c) None = Ok b'.
Proof.
  unfold sc_builder. change (sc_aset (remodel c k w t)) with (sc_aset c). intros H1 H2. destruct (sc_aset c) as [A|]; [|discriminate H1]. cbn [bind] in H1, H2. exists A. split; [reflexivity|]. split; [exact H1|exact H2].
Qed.
Lemma sc_aset_mk E X n y ops k w t ct x : sc_aset (mk E X n y ops k w t ct x) = let! A := mk_action_set X n y [] default_bounds default_step_type in Ok (aset_run E A ops).
Proof. reflexivity. Qed.
Lemma sc_builder_mk E X n y ops k w t ct x : sc_builder (mk E X n y ops k w t ct x) = let! A := sc_aset (mk E X n y ops k w t ct x) in mk_builder E k A (coef_args w t) ct None.
Proof. reflexivity. Qed.
Lemma mk_aset_y X n y custom d s A : mk_action_set X n y custom d s = Ok A -> as_y A = if (0 <? y)%Z then 1%Z else (-1)%Z.
Proof. unfold mk_action_set. intro H0. bnd H0 as u1 E1. bnd H0 as u2 E2. bnd H0 as u3 E3. bnd H0 as u4 E4. bnd H0 as u5 E5. injection H0 as <-. reflexivity. Qed.
Lemma mirrored_builders E X n k k' w t t' w' ct x x' b b' : w' = map Qcopp w -> t' = - t ->
  sc_builder (mk E X n 1 [] k w t ct x) = Ok b -> sc_builder (mk E X n (-1) [] k' w' t' ct x') = Ok b' -> mirrored b b'.
Proof.
  intros -> ->. rewrite !sc_builder_mk. intros K1 K2. destruct (sc_aset (mk E X n 1 [] k w t ct x)) as [A|] eqn:EA; [|discriminate K1]. destruct (sc_aset (mk E X n (-1) [] k' (map Qcopp w) (- t) ct x')) as [A'|] eqn:EA'; [|discriminate K2]. cbn [bind] in K1, K2.
  pose proof (sc_aset_reach _ _ EA) as RA. cbn [mk sc_env] in RA. rewrite sc_aset_mk in EA, EA'. pose proof (aset_mirrored X n [] default_bounds default_step_type) as K.
  destruct (mk_action_set X n 1 [] default_bounds default_step_type) as [A0|]; [|discriminate EA]. destruct (mk_action_set X n (-1) [] default_bounds default_step_type) as [A1|]; [|destruct K].
  cbn [bind aset_run fold_left] in EA, EA'. injection EA as <-. injection EA' as <-. cbn [alike] in K. subst A1.
  pose proof (create_mirrored E k k' A0 (coef_args w t) (coef_args (map Qcopp w) (- t)) ct w t RA (coef_parse _ _) (coef_parse _ _)) as K. rewrite K1, K2 in K. exact K.
Qed.
Lemma lenient_builders E X n k k' w t t' ct x x' b b' : t <= t' ->
  sc_builder (mk E X n 1 [] k w t ct x) = Ok b -> sc_builder (mk E X n 1 [] k' w t' ct x') = Ok b' -> more_lenient b b'.
Proof.
  intros HT. rewrite !sc_builder_mk, !sc_aset_mk. intros K1 K2. destruct (mk_action_set X n 1 [] default_bounds default_step_type) as [A|] eqn:EA; [|discriminate K1]. cbn [bind aset_run fold_left] in K1, K2.
  pose proof (create_re E k k' A (coef_args w t) (coef_args (map (fun q => q) w) t') ct w t t' (fun q => q) (as_y A) (coef_parse _ _) (coef_parse _ _) (fun c => eq_refl)) as K.
  rewrite map_id' in K. rewrite with_y_id, K1, K2 in K. cbn [alike] in K. destruct K as (W & T & Y & W' & T' & QA & QC & QL & QH).
  assert (QA' : bd_A b' = bd_A b) by (rewrite QA, <- Y; apply with_y_id). split; [congruence|]. split; [repeat split; assumption|]. rewrite Y, (mk_aset_y _ _ _ _ _ _ _ EA), T, T'. exact HT.
Qed.
#[local] Opaque sc_aset sc_builder.
Definition none_b (r : option (list Qc * list Qc * Qc)) : bool := match r with None => true | Some _ => false end.
Definition some_b (r : option (list Qc * list Qc * Qc)) : bool := match r with None => false | Some _ => true end.
Definition sc5 := sc2 PyMIP CTotal (- z 5).

Lemma scaled_case : exists b b' x b0 b0', (forall sv, assigned env0 sv b x b0) /\ (forall sv, assigned env0 sv b' x b0') /\ rescaled (z 2) b b' /\ 0 < z 2 /\ tiny_free (bd_w b) /\ tiny_free (bd_w b') /\
  bd_w b' <> bd_w b /\ bd_kind b <> bd_kind b' /\ forall sv, sound_solver sv -> finishing_solver sv -> exists b1 s, fit sv b0 = Ok (b1, Some s).
Proof.
  destruct (sc_check_ok sc5 (fun b b0 => fit_test b0 some_b && listeqb (bd_w b) [z 1; z 1] && match bd_kind b with PyMIP => true | _ => false end)) as (b & b0 & H & HT); [vm_compute; reflexivity|].
  do 2 (apply andb_true_iff in HT; destruct HT as [HT ?]).
  destruct (sc_check_ok (remodel sc5 CPX (map (Qcmult (z 2)) (sc_w sc5)) (z 2 * sc_t sc5)) (fun b b0 => match bd_kind b with CPX => true | _ => false end)) as (b' & b0' & H' & HT'); [vm_compute; reflexivity|].
  exists b, b', x01, b0, b0'. split; [exact (sc_assigned _ _ _ H)|]. split; [exact (sc_assigned _ _ _ H')|].
  assert (HR : rescaled (z 2) b b').
  { destruct (remodel_builder sc5 _ _ _ _ _ (sc_run_builder _ _ _ H) (sc_run_builder _ _ _ H')) as (A & _ & K1 & K2).
    pose proof (create_scaled env0 (sc_kind sc5) CPX A (coef_args (sc_w sc5) (sc_t sc5)) (coef_args (map (Qcmult (z 2)) (sc_w sc5)) (z 2 * sc_t sc5)) (sc_cost sc5) (sc_w sc5) (sc_t sc5) (z 2) eq_refl (coef_parse _ _) (coef_parse _ _)) as K. change (sc_env sc5) with env0 in K1, K2. rewrite K1, K2 in K. exact K. }
  apply listeqb_ok in H1. assert (W' : bd_w b' = [z 2; z 2]). { destruct HR as (-> & _). rewrite H1. cbn [map]. repeat f_equal; apply Qc_is_canon; reflexivity. }
  split; [exact HR|]. split; [reflexivity|]. rewrite W', H1. split; [|split; [|split; [|split]]].
  - intros [|[|j]] wj Hj; cbn in Hj; try (destruct j; discriminate Hj); injection Hj as <-; right; reflexivity.
  - intros [|[|j]] wj Hj; cbn in Hj; try (destruct j; discriminate Hj); injection Hj as <-; right; reflexivity.
  - intro Q. injection Q as Q. discriminate Q.
  - destruct (bd_kind b), (bd_kind b'); try discriminate HT'; try discriminate H0; discriminate.
  - intros sv S F. destruct (sc_fit _ _ _ some_b H env0_ok HT sv S F) as (b1 & [s|] & Hf & Ht); [eauto|discriminate Ht].
Qed.
Definition sc5m := mk env0 tab2 ["a"; "b"] (-1) [] CPX [- z 1; - z 1] (z 5) CTotal [z 0; z 1].
Lemma mirrored_case : exists b b' x b0 b0', (forall sv, assigned env0 sv b x b0) /\ (forall sv, assigned env0 sv b' x b0') /\ mirrored b b' /\
  forall sv, sound_solver sv -> finishing_solver sv -> exists b1 s, fit sv b0 = Ok (b1, Some s).
Proof.
  destruct (sc_check_ok sc5 (fun b b0 => fit_test b0 some_b)) as (b & b0 & H & HT); [vm_compute; reflexivity|].
  destruct (sc_check_ok sc5m (fun b b0 => true)) as (b' & b0' & H' & HT'); [vm_compute; reflexivity|].
  exists b, b', x01, b0, b0'. split; [exact (sc_assigned _ _ _ H)|]. split; [exact (sc_assigned _ _ _ H')|]. split.
  - refine (mirrored_builders _ _ _ _ _ _ _ _ _ _ _ _ _ _ _ _ (sc_run_builder _ _ _ H) (sc_run_builder _ _ _ H')); [reflexivity|ring].
  - intros sv S F. destruct (sc_fit _ _ _ some_b H env0_ok HT sv S F) as (b1 & [s|] & Hf & Ht); [eauto|discriminate Ht].
Qed.
Lemma lenient_case : exists b b' x b0 b0', (forall sv, assigned env0 sv b x b0) /\ (forall sv, assigned env0 sv b' x b0') /\ more_lenient b b' /\
  forall sv, sound_solver sv -> finishing_solver sv -> (exists b1, fit sv b0 = Ok (b1, None)) /\ exists b1 s, fit sv b0' = Ok (b1, Some s).
Proof.
  destruct (sc_check_ok (sc2 PyMIP CTotal (- z 7)) (fun b b0 => fit_test b0 none_b)) as (b & b0 & H & HT); [vm_compute; reflexivity|].
  destruct (sc_check_ok sc5 (fun b b0 => fit_test b0 some_b)) as (b' & b0' & H' & HT'); [vm_compute; reflexivity|].
  exists b, b', x01, b0, b0'. split; [exact (sc_assigned _ _ _ H)|]. split; [exact (sc_assigned _ _ _ H')|]. split.
  - refine (lenient_builders _ _ _ _ _ _ _ _ _ _ _ _ _ _ (sc_run_builder _ _ _ H) (sc_run_builder _ _ _ H')). vm_compute. intro Q. discriminate Q.
  - intros sv S F. split.
    + destruct (sc_fit _ _ _ none_b H env0_ok HT sv S F) as (b1 & [s|] & Hf & Ht); [discriminate Ht|eauto].
    + destruct (sc_fit _ _ _ some_b H' env0_ok HT' sv S F) as (b1 & [s|] & Hf & Ht); [eauto|discriminate Ht].
Qed.
Lemma limits_case : exists b b' x b0 b0', (forall sv, assigned env0 sv b x b0) /\ (forall sv, assigned env0 sv b' x b0') /\ wider_limits b b' /\
  forall sv, sound_solver sv -> finishing_solver sv -> (exists b1, fit sv b0 = Ok (b1, None)) /\ exists b1 s, fit sv b0' = Ok (b1, Some s).
Proof.
  destruct (sc_check_ok sc5 (fun b b0 => fit_test b0 some_b && (bd_min b =? 0)%Z && (bd_max b =? 2)%Z && (n_actionable b =? 2)%Z && match set_x env0 (with_limits b (bd_min b) 1) x01 with (bn, Ok _) => fit_test bn none_b | _ => false end)) as (b & b0 & H & HT); [vm_compute; reflexivity|].
  do 4 (apply andb_true_iff in HT; destruct HT as [HT ?]). apply Z.eqb_eq in H1, H2, H3. destruct (set_x env0 (with_limits b (bd_min b) 1) x01) as [bn [[]|]] eqn:En; try discriminate H0.
  assert (AN : forall sv, assigned env0 sv (with_limits b (bd_min b) 1) x01 bn).
  { intro sv. split; [|exact En]. replace (with_limits b (bd_min b) 1) with (builder_step env0 sv b (BMax (Some 1%Z))) by (cbn [builder_step set_max_items]; change (0 <=? 1)%Z with true; cbv iota; f_equal; lia). apply reach_step. exact (proj1 (sc_assigned _ _ _ H sv)). }
  exists (with_limits b (bd_min b) 1), b, x01, bn, b0. split; [exact AN|]. split; [exact (sc_assigned _ _ _ H)|]. split.
  - repeat split; cbn [with_limits bd_min bd_max]; lia.
  - intros sv S F. split.
    + destruct (assigned_ready env0 sv _ _ _ env0_ok (AN sv)) as (ms & R). destruct (fit_test_ok sv bn ms _ none_b S F (rd_good _ _ _ _ _ R) H0) as (b1 & [s|] & Hf & Ht); [discriminate Ht|eauto].
    + destruct (sc_fit _ _ _ some_b H env0_ok HT sv S F) as (b1 & [s|] & Hf & Ht); [eauto|discriminate Ht].
Qed.
Lemma resume_case : exists b x b0, (forall sv, assigned env0 sv b x b0) /\ n_actionable_features (bd_A b) = 2%nat /\
  forall sv, sound_solver sv -> finishing_solver sv -> exists f1 b1 l1 f2 b2 l2, populate sv f1 (Some 1%nat) DistinctSubsets b0 = Some (Ok (b1, l1)) /\ populate sv f2 None DistinctSubsets b1 = Some (Ok (b2, l2)) /\ length l1 = 1%nat.
Proof.
  destruct (sc_check_ok sc5 (fun b b0 => fit_test b0 some_b && Nat.eqb (n_actionable_features (bd_A b)) 2)) as (b & b0 & H & HT); [vm_compute; reflexivity|]. apply andb_true_iff in HT. destruct HT as [HT HN]. apply Nat.eqb_eq in HN.
  exists b, x01, b0. split; [exact (sc_assigned _ _ _ H)|]. split; [exact HN|]. intros sv HS HF. pose proof (sc_assigned _ _ _ H sv) as HA. change (sc_env sc5) with env0 in HA.
  set (f := S (2 ^ as_len (bd_A b))%nat). destruct (c39_term_thm env0 sv b x01 b0 [] b0 f (Some 1%nat) DistinctSubsets env0_ok HS HA (en_done sv b0) ltac:(discriminate) ltac:(unfold f; lia)) as (b1 & l1 & H1 & _).
  assert (He : enumeration sv b0 (map (pair DistinctSubsets) l1 ++ []) b1) by (eapply en_populate; [exact H1|constructor]).
  destruct (c39_term_thm env0 sv b x01 b0 _ b1 f None DistinctSubsets env0_ok HS HA He ltac:(discriminate) ltac:(unfold f; lia)) as (b2 & l2 & H2 & _).
  exists f, b1, l1, f, b2, l2. split; [exact H1|]. split; [exact H2|].
  destruct (sc_fit _ _ _ some_b H env0_ok HT sv HS HF) as (b3 & [s|] & Hf & Ht); [|discriminate Ht]. unfold populate in H1. destruct (bd_mip b0); [|discriminate H1]. cbn [populate_loop] in H1. unfold f in H1. cbn [populate_loop] in H1. rewrite Hf in H1.
  destruct (remove_solution DistinctSubsets b3) as [b4|]; [|discriminate H1]. cbn [option_map pred] in H1. destruct (2 ^ as_len (bd_A b))%nat; cbn in H1; injection H1 as _ <-; reflexivity.
Qed.
