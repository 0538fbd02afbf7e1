(** Proofs about finite input (C136). *)
From Verif Require Import Proofs_actionset Proofs_props_actionset Proofs_values Proofs_flipset Proofs_columns Proofs_scaling Proofs_props_element.
From Verif Require Import Proofs_scen Proofs_concrete Proofs_compare4 Proofs_builder8 Spec_recourse Spec_finite Model_finite Model_audit Proofs_backend Proofs_flags Proofs_builder7.
#[local] Open Scope string_scope.
#[local] Open Scope list_scope.
#[local] Open Scope Qc_scope.

Lemma not_finite_all v : not_finite v -> finite_all v = Err AssertionError.
Proof.
  intros (f & Hf & HN). apply finite_all_bad. destruct (forallb fl_finite v) eqn:E; [|reflexivity]. rewrite forallb_forall in E. apply E in Hf.
  destruct HN as [->|[->| ->]]; discriminate Hf.
Qed.
Lemma finite_or_not v : (exists q, v = map Fin q) \/ not_finite v.
Proof.
  induction v as [|f v [(q & ->)|(g & Hg & HN)]].
  - left. now exists [].
  - destruct f as [r| | |]; [left; now exists (r :: q)| | |]; right; eexists; (split; [left; reflexivity|auto]).
  - right. exists g. split; [now right|exact HN].
Qed.

(** ** Data matrices *)
Lemma nan_row X r : In r X -> In NaN r -> existsb (existsb is_nan) X = true.
Proof. intros HX Hr. apply existsb_exists. exists r. split; [exact HX|]. apply existsb_exists. now exists NaN. Qed.
Lemma bind_err {A B} (r : res A) (f : A -> res B) : (exists e, r = Err e) -> exists e, bind r f = Err e.
Proof. intros (e & ->). now exists e. Qed.
Lemma mapM_fails {A B} (f : A -> res B) l a : In a l -> (exists e, f a = Err e) -> exists e, mapM f l = Err e.
Proof.
  intros HI (e & He). destruct (mapM f l) as [ys|e'] eqn:EM; [|eauto]. apply mapM_ok in EM. exfalso.
  induction EM as [|x y l ys Hxy _ IH]; [exact HI|]. destruct HI as [->|HI]; [congruence|exact (IH HI)].
Qed.
Lemma table_rejected X names y custom dflt dst r : In r X -> not_finite r -> exists e, mk_action_set_values X names y custom dflt dst = Err e.
Proof.
  intros HX (f & Hf & HN). unfold mk_action_set_values. destruct (passert (check_variable_names names)); cbn [bind]; [|eauto].
  destruct (passert (negb (Nat.eqb (length X) 0))); cbn [bind]; [|eauto].
  destruct (forallb (fun row => Nat.eqb (length row) (length names)) X) eqn:EF; cbn [passert bind]; [|eauto].
  destruct (negb (existsb (existsb is_nan) X)); cbn [passert bind]; [|eauto].
  apply bind_err. rewrite forallb_forall in EF. pose proof (EF r HX) as EL. apply Nat.eqb_eq in EL.
  apply In_nth_error in Hf. destruct Hf as (j & Hj). assert (LJ : (j < length names)%nat) by (rewrite <- EL; apply nth_error_Some; congruence).
  destruct (nth_error names j) as [n|] eqn:En; [|apply nth_error_None in En; lia].
  apply (mapM_fails _ _ (j, n)).
  - apply (nth_error_In _ j). now rewrite combine_seq_nth, En.
  - cbn [fst snd]. unfold mk_column_values. apply bind_err. exists AssertionError. apply not_finite_all. exists f. split; [|exact HN].
    unfold column_values. apply in_map_iff. exists r. split; [|exact HX]. now apply nth_error_nth.
Qed.
Lemma nan_rejected X names y custom dflt dst r : In r X -> In NaN r -> mk_action_set_values X names y custom dflt dst = Err AssertionError.
Proof.
  intros HX Hr. unfold mk_action_set_values. destruct (check_variable_names names); cbn [passert bind]; [|reflexivity].
  destruct (negb (Nat.eqb (length X) 0)); cbn [passert bind]; [|reflexivity].
  destruct (forallb (fun row => Nat.eqb (length row) (length names)) X); cbn [passert bind]; [|reflexivity].
  now rewrite (nan_row X r HX Hr).
Qed.
Lemma column_fin X j : column_values (map (map Fin) X) j = map Fin (column X j).
Proof.
  unfold column_values, column. rewrite !map_map. apply map_ext. intro row. change (Fin 0) with (Fin (0 : Qc)). now rewrite (map_nth Fin).
Qed.
Lemma no_nan X : existsb (existsb is_nan) (map (map Fin) X) = false.
Proof.
  induction X as [|r X IH]; [reflexivity|]. cbn [map existsb]. rewrite IH, orb_false_r. induction r as [|q r IHr]; [reflexivity|exact IHr].
Qed.
Lemma mapM_ext_in {A B} (f g : A -> res B) l : (forall a, f a = g a) -> mapM f l = mapM g l.
Proof. intro H. induction l as [|a l IH]; [reflexivity|]. cbn. now rewrite H, IH. Qed.
Lemma table_finite X names y custom dflt dst : mk_action_set_values (map (map Fin) X) names y custom dflt dst = mk_action_set X names y custom dflt dst.
Proof.
  unfold mk_action_set_values, mk_action_set. rewrite map_length, no_nan. cbn [negb passert bind].
  assert (K : forallb (fun row => Nat.eqb (length row) (length names)) (map (map Fin) X) = forallb (fun row => Nat.eqb (length row) (length names)) X).
  { induction X as [|r X IH]; [reflexivity|]. cbn [map forallb]. now rewrite IH, map_length. }
  rewrite K. assert (M : mapM (fun p => mk_column_values custom dflt dst (snd p) (column_values (map (map Fin) X) (fst p))) (combine (seq 0 (length names)) names) = mapM (fun p => mk_column_element custom dflt dst (snd p) (column X (fst p))) (combine (seq 0 (length names)) names)).
  { apply mapM_ext_in. intro p. unfold mk_column_values. rewrite column_fin, finite_all_fin. reflexivity. }
  now rewrite M.
Qed.

(** ** Individuals *)
Lemma x_rejected E v xs : not_finite xs -> snd (set_x_values E v xs) = Err AssertionError /\ vb_b (fst (set_x_values E v xs)) = vb_b v.
Proof.
  intro H. unfold set_x_values. rewrite (not_finite_all xs H). destruct (Nat.eqb _ _); split; reflexivity.
Qed.
Lemma x_finite E v q : vb_b (fst (set_x_values E v (map Fin q))) = fst (set_x E (vb_b v) q) /\ snd (set_x_values E v (map Fin q)) = snd (set_x E (vb_b v) q).
Proof.
  unfold set_x_values. rewrite map_length, finite_all_fin. destruct (Nat.eqb (length q) (length (bd_w (vb_b v)))) eqn:EL.
  - destruct (set_x E (vb_b v) q); split; reflexivity.
  - unfold set_x. rewrite EL. split; reflexivity.
Qed.
Lemma rejected_invisible E sv ops ops' : leaves_out ops ops' -> forall v, vb_b (vrun E sv v ops) = builder_run E sv (vb_b v) ops'.
Proof.
  induction 1 as [|xs ops ops' HN _ IH|q ops ops' _ IH|o ops ops' _ IH]; intro v; [reflexivity| | |]; unfold vrun, builder_run in *; cbn [fold_left]; rewrite IH.
  - cbn [vstep]. now rewrite (proj2 (x_rejected E v xs HN)).
  - cbn [vstep builder_step]. now rewrite (proj1 (x_finite E v q)).
  - reflexivity.
Qed.
Lemma leaves_out_total ops : exists ops', leaves_out ops ops'.
Proof.
  induction ops as [|o ops (ops' & IH)]; [exists []; constructor|]. destruct o as [xs|o]; [|exists (o :: ops'); now constructor].
  destruct (finite_or_not xs) as [(q & ->)|HN]; [exists (BSetX q :: ops'); now constructor|exists ops'; now constructor].
Qed.
Lemma create_rejected E i A a ct xs s : not_finite xs -> exists A' e, builder_create_values E i A a ct xs s = (A', Err e).
Proof.
  intro H. unfold builder_create_values. destruct (builder_create E i A a ct None s) as [A' [b0|e]]; [|eauto].
  pose proof (x_rejected E {| vb_b := b0; vb_x := None |} xs H) as [K _]. destruct (set_x_values E _ xs) as [v r]. cbn [snd] in K. rewrite K. cbn [bind]. eauto.
Qed.
Lemma create_finite E i A a ct q s :
  fst (builder_create_values E i A a ct (map Fin q) s) = fst (builder_create E i A a ct (Some q) s) /\
  (forall b, (exists v, snd (builder_create_values E i A a ct (map Fin q) s) = Ok v /\ vb_b v = b) <-> snd (builder_create E i A a ct (Some q) s) = Ok b) /\
  (forall e, snd (builder_create_values E i A a ct (map Fin q) s) = Err e <-> snd (builder_create E i A a ct (Some q) s) = Err e).
Proof.
  unfold builder_create_values, builder_create. destruct (pick_solver i s) as [k|e0]; [|cbn; split; [reflexivity|]; split; [intro b; split; [intros (v & H & _); discriminate H|discriminate]|intro e; split; intro H; now injection H as ->]].
  rewrite mk_builder_none. destruct (mk_builder E k A a ct None) as [b0|e0]; cbn [bind fst snd]; [|split; [reflexivity|]; split; [intro b; split; [intros (v & H & _); discriminate H|discriminate]|intro e; split; intro H; now injection H as ->]].
  split; [reflexivity|]. pose proof (x_finite E {| vb_b := b0; vb_x := None |} q) as [K1 K2]. cbn [vb_b] in K1, K2.
  destruct (set_x_values E {| vb_b := b0; vb_x := None |} (map Fin q)) as [v r]. destruct (set_x E b0 q) as [b' r']. cbn [fst snd] in K1, K2. subst r' b'.
  destruct r as [[]|e0]; cbn [bind]; split.
  - intro b. split; [intros (v' & H & <-); now injection H as <-|intro H; injection H as <-; exists v; auto].
  - intro e. split; discriminate.
  - intro b. split; [intros (v' & H & _); discriminate H|discriminate].
  - intro e. split; intro H; now injection H as ->.
Qed.

(** ** Grids, tables to audit, flipsets *)
Lemma grid_rejected E A x ra rp rc : not_finite x -> feasible_grid_values E A x ra rp rc = Err AssertionError.
Proof. intro H. unfold feasible_grid_values. rewrite (not_finite_all x H). now destruct (Nat.eqb _ _). Qed.
Lemma audit_rejected {I : Type} E sv b (X : list (I * list fl)) y i r : In (i, r) X -> not_finite r -> audit E sv b X y = (b, Err AssertionError).
Proof.
  intros HX HN. unfold audit. destruct X as [|p X]; [destruct HX|]. cbn [passert bind].
  destruct (forallb (fun r => Nat.eqb (length (snd r)) (length (bd_w b))) (p :: X)); cbn [passert bind]; [|reflexivity].
  assert (K : mapM (fun r : I * list fl => finite_all (snd r)) (p :: X) = Err AssertionError).
  { clear - HX HN. generalize dependent (p :: X). intro l. induction l as [|a l IH]; [intros []|]. intros [->|HI]; cbn [mapM snd].
    - now rewrite (not_finite_all r HN).
    - rewrite (IH HI). destruct (finite_or_not (snd a)) as [(q & ->)|H]; [now rewrite finite_all_fin|now rewrite (not_finite_all _ H)]. }
  now rewrite K.
Qed.
Lemma flipset_rejected E i ct s f : not_finite (vf_x f) -> exists A' e, populate_values E i ct s f =
  Some ({| vf_A := A'; vf_x := vf_x f; vf_w := vf_w f; vf_t := vf_t f; vf_items := vf_items f |}, e).
Proof.
  intro H. unfold populate_values. destruct (create_rejected E i (vf_A f) (coef_args (vf_w f) (vf_t f)) ct (vf_x f) s H) as (A' & e & ->). eauto.
Qed.
Lemma flipset_refuted A xs a w t : parse_classifier_args a = Ok (w, t) -> mk_flipset_values A xs a = Ok {| vf_A := A; vf_x := xs; vf_w := w; vf_t := t; vf_items := [] |}.
Proof. intro H. unfold mk_flipset_values. now rewrite H. Qed.
(** The rejected vector is what builder.x shows, while fit answers for the individual assigned before. *)
Lemma shown_x E sv v xs : not_finite xs -> length xs = length (bd_w (vb_b v)) ->
  vb_x (vstep E sv v (VAssign xs)) = Some xs /\ fit sv (vb_b (vstep E sv v (VAssign xs))) = fit sv (vb_b v).
Proof.
  intros HN HL. cbn [vstep]. rewrite (proj2 (x_rejected E v xs HN)). split; [|reflexivity]. unfold set_x_values. rewrite HL, Nat.eqb_refl, (not_finite_all xs HN). reflexivity.
Qed.
(** A builder that answers for an individual of two features. *)
Lemma answering_builder : exists b x b0, (forall sv, assigned env0 sv b x b0) /\ length (bd_w b0) = 2%nat /\ length x = 2%nat /\
  forall sv, sound_solver sv -> finishing_solver sv -> exists b1 s, fit sv b0 = Ok (b1, Some s).
Proof.
  destruct (sc_check_ok sc5 (fun b b0 => fit_test b0 some_b && Nat.eqb (length (bd_w b0)) 2)) as (b & b0 & H & HT); [vm_compute; reflexivity|].
  apply andb_true_iff in HT. destruct HT as [HT HL]. apply Nat.eqb_eq in HL. exists b, x01, b0. split; [exact (sc_assigned _ _ _ H)|]. split; [exact HL|]. split; [reflexivity|].
  intros sv S F. destruct (sc_fit _ _ _ some_b H env0_ok HT sv S F) as (b1 & [s|] & Hf & Ht); [eauto|discriminate Ht].
Qed.
Lemma shown_refuted136 : exists b x b0 xs, (forall sv, assigned env0 sv b x b0) /\ not_finite xs /\
  forall sv, sound_solver sv -> finishing_solver sv -> exists v b1 s, v = vstep env0 sv {| vb_b := b0; vb_x := Some (map Fin x) |} (VAssign xs) /\
    vb_x v = Some xs /\ fit sv (vb_b v) = Ok (b1, Some s) /\ fit sv b0 = Ok (b1, Some s).
Proof.
  destruct answering_builder as (b & x & b0 & HA & HL & HX & HF). exists b, x, b0, [NaN; Fin 0]. split; [exact HA|].
  assert (HN : not_finite [NaN; Fin 0]) by (exists NaN; split; [left; reflexivity|auto]). split; [exact HN|].
  intros sv S F. destruct (HF sv S F) as (b1 & s & H). exists (vstep env0 sv {| vb_b := b0; vb_x := Some (map Fin x) |} (VAssign [NaN; Fin 0])), b1, s. split; [reflexivity|].
  destruct (shown_x env0 sv {| vb_b := b0; vb_x := Some (map Fin x) |} [NaN; Fin 0] HN) as [K1 K2]; [exact (eq_sym HL)|]. split; [exact K1|]. rewrite K2. cbn [vb_b]. auto.
Qed.
