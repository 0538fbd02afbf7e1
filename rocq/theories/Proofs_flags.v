(** Proofs about flags (C135). *)
From Verif Require Import Spec_origin Proofs_actionset Proofs_props_actionset Proofs_builder7 Proofs_backend Proofs_desire Proofs_builder6.
From Verif Require Import Proofs_props_element Spec_backend Spec_audit Spec_flags Model_flags Proofs_columns Proofs_limits Model_limits Proofs_flipset4 Proofs_concrete Proofs_scen Proofs_flipset3 Proofs_views2 Spec_actionset Spec_views.
#[local] Open Scope string_scope.
#[local] Open Scope list_scope.
#[local] Open Scope Qc_scope.

Lemma flag_in_force kw b : in_force True kw b -> set_flag (given kw) = Ok b.
Proof. intros []; reflexivity. Qed.
Lemma check_in_force kw b : in_force False kw b -> set_check_flag (given kw) = Ok b.
Proof. intros []; try reflexivity. contradiction. Qed.
Lemma flag_rejected kw : (forall b, ~ in_force True kw b) -> set_flag (given kw) = Err AttributeError.
Proof.
  intro H. destruct kw as [v|]; [|now destruct (H true (Not_given _))]. destruct v; try reflexivity.
  - now destruct (H true (Given_none _ I)).
  - now destruct (H b (Given _ b)).
Qed.
Lemma check_rejected kw : (forall b, ~ in_force False kw b) -> set_check_flag (given kw) = Err AssertionError.
Proof.
  intro H. destruct kw as [v|]; [|now destruct (H true (Not_given _))]. destruct v; try reflexivity.
  now destruct (H b (Given _ b)).
Qed.

(** ** Action sets *)
Lemma created_unaligned X names y custom dflt dst A : mk_action_set X names y custom dflt dst = Ok A -> existsb e_aligned (as_elems A) = false.
Proof.
  intro H. apply mk_aset_spec in H. destruct H as (_ & _ & _ & _ & _ & HL & HE).
  destruct (existsb e_aligned (as_elems A)) eqn:EX; [|reflexivity]. apply existsb_exists in EX. destruct EX as (e & He & Ha).
  apply In_nth_error in He. destruct He as (j & Hj). destruct (nth_error names j) as [n|] eqn:Hn.
  - destruct (mk_column_created _ _ _ _ _ _ (HE j n e Hn Hj)) as (_ & _ & _ & Hf). unfold e_aligned in Ha. rewrite Hf in Ha. discriminate Ha.
  - apply nth_error_None in Hn. assert (nth_error (as_elems A) j <> None) as K by congruence. apply nth_error_Some in K. lia.
Qed.
Lemma sets_same X names y custom dflt dst pf cf p c : in_force True pf p -> in_force False cf c ->
  mk_action_set_flags X names y custom dflt dst pf cf = rmap (fun A => (A, (p, c))) (mk_action_set X names y custom dflt dst).
Proof.
  intros Hp Hc. unfold mk_action_set_flags. rewrite (flag_in_force _ _ Hp), (check_in_force _ _ Hc).
  destruct (mk_action_set X names y custom dflt dst) as [A|e] eqn:HM.
  - pose proof (created_unaligned _ _ _ _ _ _ _ HM) as HU. unfold mk_action_set in HM. bnd HM as u1 H1. bnd HM as u2 H2. bnd HM as u3 H3.
    rewrite H1, H2, H3. cbn [bind rmap]. unfold set_check_rep. rewrite HU. rewrite orb_true_r. now destruct c.
  - unfold mk_action_set in HM. destruct (passert (check_variable_names names)); cbn [bind] in *; [|now injection HM as ->].
    destruct (passert (negb (Nat.eqb (length X) 0))); cbn [bind] in *; [|now injection HM as ->].
    destruct (passert (forallb (fun row => Nat.eqb (length row) (length names)) X)); cbn [bind] in *; [reflexivity|now injection HM as ->].
Qed.
Lemma sets_c135 X names y custom dflt dst pf cf p c : in_force True pf p -> in_force False cf c ->
  (forall A p' c', mk_action_set_flags X names y custom dflt dst pf cf = Ok (A, (p', c')) <-> mk_action_set X names y custom dflt dst = Ok A /\ p' = p /\ c' = c) /\
  (forall e, mk_action_set_flags X names y custom dflt dst pf cf = Err e <-> mk_action_set X names y custom dflt dst = Err e).
Proof.
  intros Hp Hc. rewrite (sets_same _ _ _ _ _ _ _ _ _ _ Hp Hc). destruct (mk_action_set X names y custom dflt dst) as [A0|e0]; cbn [rmap]; split.
  - intros A p' c'. split; [intro H; injection H as <- <- <-; auto|intros (H & -> & ->); now injection H as <-].
  - intro e. split; discriminate.
  - intros A p' c'. split; [intro H; discriminate H|intros (H & _); discriminate H].
  - intro e. split; intro H; now injection H as <-.
Qed.
Lemma sets_rejected X names y custom dflt dst pf cf : (forall p, ~ in_force True pf p) \/ (forall c, ~ in_force False cf c) ->
  exists e, mk_action_set_flags X names y custom dflt dst pf cf = Err e.
Proof.
  intro H. unfold mk_action_set_flags. destruct (passert (check_variable_names names)); cbn [bind]; [|eauto].
  destruct (passert (negb (Nat.eqb (length X) 0))); cbn [bind]; [|eauto].
  destruct (passert (forallb (fun row => Nat.eqb (length row) (length names)) X)); cbn [bind]; [|eauto].
  destruct H as [H|H]; [rewrite (flag_rejected _ H)|rewrite (check_rejected _ H)]; cbn [bind]; [eauto|]. destruct (set_flag (given pf)); cbn [bind]; eauto.
Qed.

(** ** Builders *)
Lemma mk_builder_none E k A a ct x : mk_builder E k A a ct (Some x) =
  (let! b := mk_builder E k A a ct None in let '(b', r) := set_x E b x in let! _ := r in Ok b').
Proof.
  unfold mk_builder. destruct (parse_classifier_args a) as [[w t]|]; cbn [bind]; [|reflexivity].
  destruct (passert (Nat.eqb (as_len A) (length w))); cbn [bind]; [|reflexivity].
  destruct (if alignment_known A then _ else _); cbn [bind]; reflexivity.
Qed.
Lemma set_x_parts E b x b' r : set_x E b x = (b', r) -> bd_A b' = bd_A b /\ bd_w b' = bd_w b /\ bd_min b' = bd_min b /\ bd_max b' = bd_max b /\
  (bd_x b' = bd_x b \/ bd_x b' = Some x /\ length x = length (bd_w b)).
Proof.
  unfold set_x. destruct (Nat.eqb (length x) (length (bd_w b))) eqn:EL.
  - apply Nat.eqb_eq in EL. destruct (build _ _ _ _ _ _ _ _ _); intro H; injection H as <- _; cbn; auto 10.
  - intro H; injection H as <- _; auto 10.
Qed.
Lemma actionable_le A : (length (actionable_positions A) <= length (as_elems A))%nat.
Proof.
  rewrite actionable_length. induction (as_elems A) as [|e l IH]; [apply le_n|]. cbn [filter length]. destruct (e_actionable e); cbn [length]; lia.
Qed.
Lemma aligned_known A w A' : length (as_elems A) = as_len A -> set_alignment A {| k_clf := None; k_classifier := None; k_coefs := None; k_intercept := None; a_pos := [AVec (map Fin w)] |} = Ok A' ->
  alignment_known A' = true /\ as_len A' = as_len A /\ length (as_elems A') = length (as_elems A).
Proof.
  intros HL H. apply set_alignment_spec in H. destruct H as (w0 & t0 & Hp & HW & HN & _ & _ & HE). split; [|split].
  - unfold alignment_known. rewrite HE. apply forallb_forall. intros e He. apply in_map_iff in He. destruct He as ([e0 z0] & <- & _). reflexivity.
  - unfold as_len. now rewrite HN.
  - rewrite HE, map_length, combine_length, map_length. lia.
Qed.
Lemma created_checks E k A a ct b : length (as_elems A) = as_len A -> mk_builder E k A a ct None = Ok b -> bd_x b = None /\ builder_check_rep b = Ok tt.
Proof.
  intros HL H. unfold mk_builder in H. bnd H as [w t] Hp. bnd H as u Hu. apply passert_ok in Hu. apply Nat.eqb_eq in Hu. bnd H as A' HA'. cbv zeta in H. injection H as <-.
  split; [reflexivity|]. assert (K : alignment_known A' = true /\ as_len A' = as_len A /\ length (as_elems A') = length (as_elems A)).
  { destruct (alignment_known A) eqn:EA; [injection HA' as <-; auto|]. eapply aligned_known; eauto. }
  destruct K as (K1 & K2 & K3). unfold builder_check_rep. cbn [bd_A bd_w bd_x bd_min bd_max]. rewrite K1, K2, Hu, Nat.eqb_refl.
  pose proof (actionable_le A') as HLe. assert (Q1 : (0 <=? 0)%Z = true) by reflexivity.
  assert (Q2 : (0 <=? Z.of_nat (length (actionable_positions A')))%Z = true) by (apply Z.leb_le; lia).
  assert (Q3 : (Z.of_nat (length (actionable_positions A')) <=? Z.of_nat (length w))%Z = true) by (apply Z.leb_le; lia).
  now rewrite Q1, Q2, Q3.
Qed.
Lemma set_x_checks E b x b' : bd_x b = None -> builder_check_rep b = Ok tt -> set_x E b x = (b', Ok tt) -> builder_check_rep b' = Ok tt.
Proof.
  intros HN HC H. pose proof (set_x_ok _ _ _ _ H) as (ms & EL & _). apply set_x_parts in H. destruct H as (H1 & H2 & H3 & H4 & H5).
  unfold builder_check_rep in *. rewrite H1, H2, H3, H4. rewrite HN in HC.
  destruct H5 as [->|(-> & _)]; [rewrite HN; exact HC|]. rewrite EL, Nat.eqb_refl. exact HC.
Qed.
Lemma builders_same E i A a ct x s pf cf p c : length (as_elems A) = as_len A -> in_force True pf p -> in_force True cf c ->
  builder_create_flags E i A a ct x s pf cf = (fst (builder_create E i A a ct x s), rmap (fun b => (b, (p, c))) (snd (builder_create E i A a ct x s))).
Proof.
  intros HL Hp Hc. unfold builder_create_flags, builder_create. destruct (pick_solver i s) as [k|e]; [|reflexivity].
  destruct (mk_builder E k A a ct None) as [b0|e0] eqn:HM.
  - rewrite (flag_in_force _ _ Hp), (flag_in_force _ _ Hc). cbn [bind fst snd]. f_equal. destruct (created_checks _ _ _ _ _ _ HL HM) as (HN & HC). destruct x as [x|].
    + rewrite mk_builder_none, HM. cbn [bind]. destruct (set_x E b0 x) as [b' r] eqn:HS. destruct r as [[]|e]; cbn [bind rmap]; [|reflexivity].
      destruct c; [|reflexivity]. now rewrite (set_x_checks _ _ _ _ HN HC HS).
    + rewrite HM. cbn [bind rmap]. destruct c; [|reflexivity]. now rewrite HC.
  - destruct x as [x|]; [rewrite mk_builder_none|]; rewrite HM; reflexivity.
Qed.
Lemma builders_c135 E i A a ct x s pf cf p c : aset_reachable E A -> in_force True pf p -> in_force True cf c ->
  fst (builder_create_flags E i A a ct x s pf cf) = fst (builder_create E i A a ct x s) /\
  (forall b p' c', snd (builder_create_flags E i A a ct x s pf cf) = Ok (b, (p', c')) <-> snd (builder_create E i A a ct x s) = Ok b /\ p' = p /\ c' = c) /\
  (forall e, snd (builder_create_flags E i A a ct x s pf cf) = Err e <-> snd (builder_create E i A a ct x s) = Err e).
Proof.
  intros HR Hp Hc. rewrite (builders_same _ _ _ _ _ _ _ _ _ _ _ (wf_len _ _ (reachable_wf _ _ HR)) Hp Hc). cbn [fst snd]. split; [reflexivity|].
  destruct (snd (builder_create E i A a ct x s)) as [b0|e0]; cbn [rmap]; split.
  - intros b p' c'. split; [intro H; injection H as <- <- <-; auto|intros (H & -> & ->); now injection H as <-].
  - intro e. split; discriminate.
  - intros b p' c'. split; [intro H; discriminate H|intros (H & _); discriminate H].
  - intro e. split; intro H; now injection H as <-.
Qed.
Lemma builders_rejected E i A a ct x s pf cf : (forall p, ~ in_force True pf p) \/ (forall c, ~ in_force True cf c) ->
  exists e, snd (builder_create_flags E i A a ct x s pf cf) = Err e.
Proof.
  intro H. unfold builder_create_flags. destruct (pick_solver i s) as [k|e]; [|cbn; eauto]. destruct (mk_builder E k A a ct None) as [b0|e0]; [|cbn; eauto]. cbn [snd].
  destruct H as [H|H]; rewrite (flag_rejected _ H); cbn [bind]; [eauto|]. destruct (set_flag (given pf)); cbn [bind]; eauto.
Qed.

(** A rejected flag leaves the action set aligned with the coefficients of the builder that was not created; later builders keep that. *)
Lemma builders_trace E i A a w t s k : aset_reachable E A -> alignment_known A = false -> parse_classifier_args a = Ok (w, t) -> length w = as_len A ->
  pick_solver i s = Ok k -> forall ct x v a2 w2 t2 ct2, (forall p, ~ in_force True (Some v) p) -> parse_classifier_args a2 = Ok (w2, t2) -> length w2 = as_len A ->
  exists A' b, builder_create_flags E i A a ct x s (Some v) None = (A', Err AttributeError) /\
    builder_create_flags E i A' a2 ct2 None s None None = (A', Ok (b, (true, true))) /\ bd_A b = A' /\ flips_match (bd_A b) w.
Proof.
  intros HR HA HP HL HK ct x v a2 w2 t2 ct2 HV HP2 HL2. pose proof (reachable_wf _ _ HR) as HW. pose proof (wf_len _ _ HW) as HE.
  destruct (Proofs_backend.align_total A w HL) as (A1 & H1). destruct (aligned_known _ _ _ HE H1) as (K1 & K2 & K3).
  assert (FM : flips_match A1 w). { eapply (align_flips A _ A1 w 0); [apply parse_vec|exact H1|exact HE|]. destruct HW as (_ & _ & _ & _ & _ & Y). exact Y. }
  assert (M2 : exists b, mk_builder E k A1 a2 ct2 None = Ok b /\ bd_A b = A1).
  { unfold mk_builder. rewrite HP2. cbn [bind]. rewrite K2, HL2, Nat.eqb_refl. cbn [passert bind]. rewrite K1. cbn [bind]. cbv zeta. eexists. split; [reflexivity|reflexivity]. }
  destruct M2 as (b & M2 & M3). exists A1, b. split; [|split; [|split; [exact M3|now rewrite M3]]].
  - unfold builder_create_flags. rewrite HK. unfold mk_builder. rewrite HP. cbn [bind]. rewrite HL, Nat.eqb_refl. cbn [passert bind]. rewrite HA, H1. cbn [bind]. cbv zeta. cbn [bd_A].
    now rewrite (flag_rejected _ HV).
  - rewrite (builders_same E i A1 a2 ct2 None s None None true true) by (try (rewrite K3, K2; exact HE); constructor).
    unfold builder_create. rewrite HK, M2. cbn [fst snd rmap]. now rewrite M3.
Qed.

(** ** Auditors *)
Lemma auditors_c135 E i A a s kw : aset_reachable E A ->
  fst (auditor_create_flag E i A a s kw) = fst (auditor_create E i A a s) /\
  (forall b v, snd (auditor_create_flag E i A a s kw) = Ok (b, v) <-> snd (auditor_create E i A a s) = Ok b /\ v = given kw) /\
  (forall e, snd (auditor_create_flag E i A a s kw) = Err e <-> snd (auditor_create E i A a s) = Err e).
Proof.
  intro HR. pose proof (wf_len _ _ (reachable_wf _ _ HR)) as HE. unfold auditor_create_flag, auditor_create.
  destruct (parse_classifier_args a) as [[w t]|e]; cbn [bind]; [|split; [reflexivity|]; split; [intros b v; split; [intro H; discriminate H|intros (H & _); discriminate H]|intro e'; split; intro H; cbn in *; now injection H as ->]].
  destruct (set_alignment A _) as [A1|e] eqn:H1; cbn [bind]; [|split; [reflexivity|]; split; [intros b v; split; [intro H; discriminate H|intros (H & _); discriminate H]|intro e'; split; intro H; cbn in *; now injection H as ->]].
  destruct (aligned_known _ _ _ HE H1) as (K1 & K2 & K3).
  rewrite (builders_same E i A1 _ CMax None s None None true true) by (try (rewrite K3, K2; exact HE); constructor).
  destruct (builder_create E i A1 (coef_args w t) CMax None s) as [A2 [b0|e0]]; cbn [fst snd rmap bind]; (split; [reflexivity|]; split).
  - intros b v. split; [intro H; injection H as <- <-; auto|intros (H & ->); now injection H as <-].
  - intro e'. split; discriminate.
  - intros b v. split; [intro H; discriminate H|intros (H & _); discriminate H].
  - intro e'. split; intro H; now injection H as <-.
Qed.

(** ** The display flag of a call *)
Lemma display_c135 k L s t n d d' b b' : in_force True (Some d) b -> in_force True (Some d') b' ->
  snd (apply_limits k L s t n d) = snd (apply_limits k L s t n d') /\
  (snd (apply_limits k L s t n d) = Ok tt -> fst (apply_limits k L s t n d) = fst (apply_limits k L s t n d')).
Proof.
  intros H H'. unfold apply_limits. destruct (li_mip s) as [m|] eqn:Em; [|auto].
  assert (K : forall v c, in_force True (Some v) c -> exists f, set_display s v = (with_lnode s (Some (PBool f)), Ok tt)).
  { intros v c HF. inversion HF; subst; cbn; rewrite Em; eauto. }
  destruct (K d b H) as (f & ->). destruct (K d' b' H') as (f' & ->). unfold set_time_limit. cbn [with_lnode li_mip li_time li_node].
  destruct (parse_limit t) as [ft|]; cbn [snd fst]; [|split; [reflexivity|discriminate]]. rewrite Em. cbn [with_ltime with_lmip with_lnode li_mip li_time li_node].
  unfold set_node_limit. cbn [with_ltime with_lmip with_lnode li_mip li_time li_node]. destruct (parse_limit n); cbn [snd fst]; [auto|split; [reflexivity|discriminate]].
Qed.

(** ** Refuted *)
Lemma none_refuted X names y custom dflt dst A : mk_action_set X names y custom dflt dst = Ok A ->
  mk_action_set_flags X names y custom dflt dst None (Some PNone) = Err AssertionError /\
  mk_action_set_flags X names y custom dflt dst (Some PNone) None = Ok (A, (true, true)).
Proof.
  intro H. split.
  - unfold mk_action_set_flags. unfold mk_action_set in H. bnd H as u1 H1. bnd H as u2 H2. bnd H as u3 H3. now rewrite H1, H2, H3.
  - rewrite (sets_same _ _ _ _ _ _ _ _ true true) by (constructor; exact I). now rewrite H.
Qed.
Lemma auditor_refuted E i A a s b v : aset_reachable E A -> snd (auditor_create E i A a s) = Ok b -> (forall p, ~ in_force True (Some v) p) ->
  set_flag v = Err AttributeError /\ snd (auditor_create_flag E i A a s (Some v)) = Ok (b, v).
Proof.
  intros HR HC HV. split; [exact (flag_rejected (Some v) HV)|]. now apply (proj1 (proj2 (auditors_c135 E i A a s (Some v) HR))).
Qed.
Lemma shown_refuted X names y custom dflt dst A p c : mk_action_set_flags X names y custom dflt dst (Some (PBool false)) None = Ok (A, (p, c)) ->
  set_repr p A = Err TypeError /\ exists d, tabulate (inl A) = Ok d.
Proof.
  intro H. apply (proj1 (sets_c135 X names y custom dflt dst _ _ false true (Given _ false) (Not_given _))) in H. destruct H as (H & -> & _). split; [reflexivity|].
  assert (HR : aset_reachable env0 A). { exists A, []. split; [|reflexivity]. unfold aset_created. eauto 10. }
  destruct (c70_printed env0 A HR) as (d & Hd & _). eauto.
Qed.
Lemma flags_case : exists A, mk_action_set_flags tab2 ["a"; "b"] 1 [] default_bounds default_step_type (Some (PBool false)) (Some (PBool true)) = Ok (A, (false, true)).
Proof.
  rewrite (sets_same _ _ _ _ _ _ _ _ false true) by constructor.
  assert (H : match mk_action_set tab2 ["a"; "b"] 1 [] default_bounds default_step_type with Ok _ => true | Err _ => false end = true) by (vm_compute; reflexivity).
  destruct (mk_action_set tab2 ["a"; "b"] 1 [] default_bounds default_step_type) as [A|]; [|discriminate H]. cbn [rmap]. eauto.
Qed.
Lemma auditor_case135 : exists A b, aset_reachable env0 A /\ snd (auditor_create env0 {| has_cplex := true; has_mip := true |} A (coef_args [qz 1; qz 1] (- qz 3)) None) = Ok b.
Proof.
  destruct case_aset as (A & HR & HL & _ & _ & HA & _). pose proof (wf_len _ _ (reachable_wf _ _ HR)) as HE. exists A.
  unfold auditor_create. rewrite coef_parse. cbn [bind]. destruct (Proofs_backend.align_total A [qz 1; qz 1]) as (A1 & H1); [now rewrite HL|]. rewrite H1. cbn [bind].
  destruct (aligned_known _ _ _ HE H1) as (K1 & K2 & _). unfold builder_create. cbn [pick_solver default_solver has_cplex snd]. unfold mk_builder. rewrite coef_parse. cbn [bind]. rewrite K2, HL. cbn [length Nat.eqb passert bind]. rewrite K1. cbn [bind]. cbv zeta. eauto.
Qed.
