(** Proofs about the choice of a solver and about creating objects. *)
From Verif Require Import Proofs_props_actionset Spec_backend Proofs_builder7 Proofs_flipset3 Proofs_audit3 Proofs_flipset4 Proofs_concrete Proofs_vec.
#[local] Open Scope string_scope.
#[local] Open Scope list_scope.
#[local] Open Scope Qc_scope.

Lemma import_iff i : import_recourse i = Ok tt <-> has_cplex i = true.
Proof. unfold import_recourse, default_solver. destruct (has_cplex i), (has_mip i); cbn; split; intro H; congruence. Qed.
Lemma pick_named i k : usable i k -> pick_solver i (Some (PStr (solver_name k))) = Ok k.
Proof. unfold usable, pick_solver, supported_solvers. destruct k; intro H; rewrite H; [reflexivity|]. destruct (has_cplex i); reflexivity. Qed.
Lemma pick_spec i s k : import_recourse i = Ok tt -> pick_solver i s = Ok k ->
  usable i k /\ (forall v, s = Some v -> names_solver i v k) /\ (s = None -> k = CPX).
Proof.
  intros HI. apply import_iff in HI. unfold pick_solver, default_solver, supported_solvers. rewrite HI. intro H. destruct s as [v|].
  - assert (G : names_solver i v k).
    { destruct v; try discriminate H. cbn in H. destruct (String.eqb s "cplex") eqn:E1.
      - apply String.eqb_eq in E1. subst s. injection H as <-. split; [exact HI|reflexivity].
      - destruct (has_mip i) eqn:HM; [|discriminate H]. cbn in H. destruct (String.eqb s "python-mip") eqn:E2; [|discriminate H]. apply String.eqb_eq in E2. subst s.
        injection H as <-. split; [exact HM|reflexivity]. }
    split; [exact (proj1 G)|]. split; [intros v' Q; injection Q as <-; exact G|discriminate].
  - injection H as <-. split; [exact HI|]. split; [discriminate|reflexivity].
Qed.
Lemma pick_none i v : names_none i v -> pick_solver i (Some v) = Err ValueError.
Proof.
  intros [H HA]. unfold pick_solver. destruct v; try reflexivity; [|now destruct (HA l)]. unfold supported_solvers.
  destruct (has_cplex i) eqn:HC, (has_mip i) eqn:HM; cbn.
  all: try (destruct (String.eqb s "cplex") eqn:E1; [apply String.eqb_eq in E1; subst s; destruct (H CPX); split; [exact HC|reflexivity]|]).
  all: try (destruct (String.eqb s "python-mip") eqn:E2; [apply String.eqb_eq in E2; subst s; destruct (H PyMIP); split; [exact HM|reflexivity]|]).
  all: reflexivity.
Qed.
Lemma mk_kind E k A a ct x b : mk_builder E k A a ct x = Ok b -> bd_kind b = k.
Proof.
  unfold mk_builder. intro H. bnd H as [w t] Hp. bnd H as u Hu. bnd H as A' HA. cbv zeta in H. destruct x as [x|]; [|injection H as <-; reflexivity].
  unfold set_x in H. cbn [bd_w bd_kind] in H. destruct (Nat.eqb (length x) (length w)); [|cbn in H; discriminate H].
  match type of H with context [build ?a ?b ?c ?d ?e ?f ?g ?h ?i] => destruct (build a b c d e f g h i) end; [|cbn in H; discriminate H]. cbn in H. injection H as <-. reflexivity.
Qed.
Lemma create_ok E i A a ct x s A' b : builder_create E i A a ct x s = (A', Ok b) -> pick_solver i s = Ok (bd_kind b) /\ mk_builder E (bd_kind b) A a ct x = Ok b.
Proof.
  unfold builder_create. destruct (pick_solver i s) as [k|e]; intro H; [|discriminate H]. injection H as _ H. pose proof (mk_kind _ _ _ _ _ _ _ H) as ->. auto.
Qed.

Lemma c76_builder E i A a ct x s A' b : import_recourse i = Ok tt -> builder_create E i A a ct x s = (A', Ok b) ->
  usable i (bd_kind b) /\ (forall v, s = Some v -> names_solver i v (bd_kind b)) /\ (s = None -> bd_kind b = CPX).
Proof. intros HI H. apply create_ok in H. exact (pick_spec _ _ _ HI (proj1 H)). Qed.
Lemma c76_builder_accepts E i A a ct x k v : names_solver i v k -> snd (builder_create E i A a ct x (Some v)) = mk_builder E k A a ct x.
Proof.
  intros [HU ->]. pose proof (pick_named _ _ HU) as HP. unfold builder_create. destruct k; cbn [solver_name] in HP; rewrite HP; reflexivity.
Qed.
Lemma c76_builder_rejects E i A a ct x v : names_none i v -> builder_create E i A a ct x (Some v) = (A, Err ValueError).
Proof. intro H. unfold builder_create. now rewrite (pick_none _ _ H). Qed.
Lemma auditor_split E i A a s : (exists e, auditor_create E i A a s = (A, Err e) /\ forall k, mk_auditor E k A a = Err e) \/
  exists w t A1, parse_classifier_args a = Ok (w, t) /\
    set_alignment A {| k_clf := None; k_classifier := None; k_coefs := None; k_intercept := None; a_pos := [AVec (map Fin w)] |} = Ok A1 /\
    auditor_create E i A a s = builder_create E i A1 (coef_args w t) CMax None s /\ forall k, mk_auditor E k A a = mk_builder E k A1 (coef_args w t) CMax None.
Proof.
  unfold auditor_create, mk_auditor. destruct (parse_classifier_args a) as [[w t]|e] eqn:HP; cbn [bind]; [|left; eauto].
  destruct (set_alignment A _) as [A1|e] eqn:HA; cbn [bind]; [|left; eauto]. right. exists w, t, A1. auto.
Qed.
Lemma c76_auditor E i A a s A' b : import_recourse i = Ok tt -> auditor_create E i A a s = (A', Ok b) ->
  usable i (bd_kind b) /\ (forall v, s = Some v -> names_solver i v (bd_kind b)) /\ (s = None -> bd_kind b = CPX).
Proof.
  intros HI H. destruct (auditor_split E i A a s) as [(e & HA & _)|(w & t & A1 & _ & _ & HA & _)]; rewrite HA in H; [discriminate H|]. eauto using c76_builder.
Qed.
Lemma c76_auditor_accepts E i A a k v : names_solver i v k -> snd (auditor_create E i A a (Some v)) = mk_auditor E k A a.
Proof.
  intro H. destruct (auditor_split E i A a (Some v)) as [(e & HA & HM)|(w & t & A1 & _ & _ & HA & HM)]; rewrite HA, HM; [reflexivity|]. now apply c76_builder_accepts.
Qed.
Lemma c76_auditor_rejects E i A a v : names_none i v -> exists e, snd (auditor_create E i A a (Some v)) = Err e /\ forall k b, mk_auditor E k A a = Ok b -> e = ValueError.
Proof.
  intro H. destruct (auditor_split E i A a (Some v)) as [(e & HA & HM)|(w & t & A1 & _ & _ & HA & HM)]; rewrite HA.
  - exists e. split; [reflexivity|]. intros k b K. rewrite HM in K. discriminate K.
  - rewrite (c76_builder_rejects _ _ _ _ _ _ _ H). exists ValueError. split; reflexivity.
Qed.
Lemma c76_flipset E i A x w t ct s A' b : import_recourse i = Ok tt -> flipset_builder E i A x w t ct s None = (A', Ok b) ->
  usable i (bd_kind b) /\ (forall v, s = Some v -> names_solver i v (bd_kind b)) /\ (s = None -> bd_kind b = CPX).
Proof. exact (c76_builder E i A (coef_args w t) ct (Some x) s A' b). Qed.
Lemma c76_flipset_rejects E i A x w t ct v : names_none i v -> flipset_builder E i A x w t ct (Some v) None = (A, Err ValueError).
Proof. apply c76_builder_rejects. Qed.
Lemma c76_flipset_supplied E i A x w t ct s b : flipset_builder E i A x w t ct s (Some b) = (A, Ok b).
Proof. reflexivity. Qed.

(** ** What creation does to the action set *)
Lemma sbf_only A A' : same_but_flips A A' -> only_directions_differ A A'.
Proof.
  intros (H1 & H2 & H3 & H4). apply Forall2_nth in H4. destruct H4 as [HL H4]. repeat split; auto.
Qed.
Lemma mk_none E k A a ct : match mk_builder E k A a ct None with
  | Ok b => exists w t, parse_classifier_args a = Ok (w, t) /\ length w = as_len A /\ (if alignment_known A then bd_A b = A else set_alignment A {| k_clf := None; k_classifier := None; k_coefs := None; k_intercept := None; a_pos := [AVec (map Fin w)] |} = Ok (bd_A b))
  | Err _ => True end.
Proof.
  destruct (mk_builder E k A a ct None) as [b|] eqn:H; [|exact I]. unfold mk_builder in H. bnd H as [w t] Hp. bnd H as u Hu. apply passert_ok, Nat.eqb_eq in Hu. bnd H as A' HA.
  injection H as <-. cbn [bd_A]. exists w, t. split; [exact Hp|]. split; [congruence|]. destruct (alignment_known A); [now injection HA|exact HA].
Qed.
Lemma c77_builder_directions E i A a ct x s A' r : aset_reachable E A -> builder_create E i A a ct x s = (A', r) ->
  only_directions_differ A A' /\ (alignment_known A = true -> A' = A).
Proof.
  intros HR. pose proof (wf_len _ _ (reachable_wf _ _ HR)) as HL. unfold builder_create. destruct (pick_solver i s) as [k|e]; intro H; injection H as <- _.
  2:{ split; [apply sbf_only, sbf_refl|reflexivity]. }
  pose proof (mk_none E k A a ct) as M. destruct (mk_builder E k A a ct None) as [b|]; [|split; [apply sbf_only, sbf_refl|reflexivity]].
  destruct M as (w & t & _ & _ & M). destruct (alignment_known A) eqn:EA; [rewrite M; split; [apply sbf_only, sbf_refl|reflexivity]|]. split; [|discriminate].
  eapply sbf_only, align_sbf; eauto.
Qed.
Lemma c77_builder_plain E i A a ct s A' e : builder_create E i A a ct None s = (A', Err e) -> A' = A.
Proof.
  unfold builder_create. destruct (pick_solver i s) as [k|e']; [|congruence]. destruct (mk_builder E k A a ct None); intro H; injection H as <- H; [discriminate H|reflexivity].
Qed.
Lemma c77_auditor_directions E i A a s A' r : aset_reachable E A -> auditor_create E i A a s = (A', r) -> only_directions_differ A A'.
Proof.
  intros HR. pose proof (wf_len _ _ (reachable_wf _ _ HR)) as HL. intro H. destruct (auditor_split E i A a s) as [(e & HA & _)|(w & t & A1 & _ & H1 & HA & _)]; rewrite HA in H.
  - injection H as <- _. apply sbf_only, sbf_refl.
  - assert (R1 : alignment_known A1 = true).
    { pose proof (set_alignment_spec _ _ _ H1) as (w' & t' & _ & _ & _ & _ & _ & K1). unfold alignment_known. rewrite K1. apply forallb_forall. intros e He. apply in_map_iff in He. destruct He as ([e0 f] & <- & _). reflexivity. }
    assert (A' = A1) as ->.
    { unfold builder_create in H. destruct (pick_solver i s) as [k|e]; [|congruence]. pose proof (mk_none E k A1 (coef_args w t) CMax) as M. injection H as <- _.
      destruct (mk_builder E k A1 (coef_args w t) CMax None) as [b|]; [|reflexivity]. destruct M as (? & ? & _ & _ & M). rewrite R1 in M. exact M. }
    eapply sbf_only, align_sbf; eauto.
Qed.
Lemma align_total A w : length w = as_len A -> exists A1, set_alignment A {| k_clf := None; k_classifier := None; k_coefs := None; k_intercept := None; a_pos := [AVec (map Fin w)] |} = Ok A1.
Proof. intro H. unfold set_alignment. rewrite parse_vec. cbn [bind]. rewrite H, Nat.eqb_refl. cbn. eauto. Qed.
(** A rejected solver leaves the action set realigned. *)
Lemma c77_auditor_refuted E i A a w t v : aset_reachable E A -> parse_classifier_args a = Ok (w, t) -> length w = as_len A -> names_none i v ->
  exists A', auditor_create E i A a (Some v) = (A', Err ValueError) /\ flips_match A' w.
Proof.
  intros HR HP HL HN. pose proof (reachable_wf _ _ HR) as HW. destruct (align_total A w HL) as (A1 & H1). exists A1. unfold auditor_create. rewrite HP. cbn [bind]. rewrite H1. cbn [bind].
  split; [now apply c76_builder_rejects|]. eapply (align_flips A _ A1 w 0); [apply parse_vec|exact H1|eapply wf_len; eauto|]. destruct HW as (_ & _ & _ & _ & _ & Y). exact Y.
Qed.
(** A rejected individual leaves the action set aligned. *)
Lemma c77_builder_refuted E i A a w t ct x s k : aset_reachable E A -> alignment_known A = false -> parse_classifier_args a = Ok (w, t) -> length w = as_len A ->
  pick_solver i s = Ok k -> length x <> as_len A -> exists A', builder_create E i A a ct (Some x) s = (A', Err AssertionError) /\ alignment_known A' = true /\ flips_match A' w.
Proof.
  intros HR HA HP HL HK HX. pose proof (reachable_wf _ _ HR) as HW. destruct (align_total A w HL) as (A1 & H1). exists A1. unfold builder_create. rewrite HK. unfold mk_builder. rewrite HP. cbn [bind]. rewrite HL, Nat.eqb_refl. cbn [passert bind].
  rewrite HA, H1. cbn [bind]. cbv zeta. cbn [bd_A]. unfold set_x. cbn [bd_w]. rewrite HL. rewrite (proj2 (Nat.eqb_neq _ _) HX). cbn.
  split; [reflexivity|]. assert (FM : flips_match A1 w). { eapply (align_flips A _ A1 w 0); [apply parse_vec|exact H1|eapply wf_len; eauto|]. destruct HW as (_ & _ & _ & _ & _ & Y). exact Y. }
  split; [eapply flips_aligned; eauto|exact FM].
Qed.
Lemma backend_case : exists A, aset_reachable env0 A /\ as_len A = 2%nat /\ alignment_known A = false.
Proof. destruct case_aset as (A & H1 & H2 & _ & _ & H3 & _). eauto. Qed.

(** ** Scores *)
Lemma b_score_spec b x : length x = length (bd_w b) -> b_score b (Some x) = Ok (score (bd_w b) (bd_t b) x).
Proof. intro H. unfold b_score, np_dot. rewrite H, Nat.eqb_refl. reflexivity. Qed.
Lemma mk_params E k A a ct x b : mk_builder E k A a ct x = Ok b -> parse_classifier_args a = Ok (bd_w b, bd_t b) /\ bd_x b = x.
Proof.
  unfold mk_builder. intro H. bnd H as [w t] Hp. bnd H as u Hu. bnd H as A' HA. cbv zeta in H. rewrite Hp. destruct x as [x|]; [|injection H as <-; auto].
  unfold set_x in H. cbn [bd_w bd_kind] in H. destruct (Nat.eqb (length x) (length w)); [|cbn in H; discriminate H].
  match type of H with context [build ?a ?b ?c ?d ?e ?f ?g ?h ?i] => destruct (build a b c d e f g h i) end; [|cbn in H; discriminate H]. cbn in H. injection H as <-. auto.
Qed.
Lemma c78_scores E k A a ct x b A1 ob f : mk_builder E k A a ct (Some x) = Ok b -> mk_flipset k A1 x a ob = Ok f ->
  exists w t, parse_classifier_args a = Ok (w, t) /\
    b_score b None = Ok (score w t x) /\ f_yhat f = Ok (score w t x) /\
    forall d, length d = length x ->
      b_score b (Some (vadd x d)) = Ok (score w t (vadd x d)) /\ f_score f d = Ok (score w t (vadd x d)) /\
      b_prediction b (Some (vadd x d)) = Ok (qsign (score w t (vadd x d))) /\ f_predict f d = Ok (qsign (score w t (vadd x d))).
Proof.
  intros H HF. pose proof (mk_params _ _ _ _ _ _ _ H) as [HP HX]. unfold mk_flipset in HF. rewrite HP in HF. cbn [bind] in HF. injection HF as <-. exists (bd_w b), (bd_t b).
  assert (HL : length x = length (bd_w b)).
  { unfold mk_builder in H. rewrite HP in H. cbn [bind] in H. bnd H as u Hu. bnd H as A' HA. cbv zeta in H. unfold set_x in H. cbn [bd_w] in H.
    destruct (Nat.eqb_spec (length x) (length (bd_w b))) as [Q|Q]; [exact Q|cbn in H; discriminate H]. }
  split; [exact HP|]. split; [unfold b_score; rewrite HX; unfold np_dot; rewrite HL, Nat.eqb_refl; reflexivity|].
  split; [unfold f_yhat, np_dot, score; cbn [f_w f_x f_t]; rewrite HL, Nat.eqb_refl; cbn [bind]; f_equal; ring|].
  intros d Hd. pose proof (Proofs_vec.vadd_length x d (eq_sym Hd)) as HV. assert (B : b_score b (Some (vadd x d)) = Ok (score (bd_w b) (bd_t b) (vadd x d))) by (apply b_score_spec; congruence).
  assert (F : forall g, f_w g = bd_w b -> f_t g = bd_t b -> f_x g = x -> f_score g d = Ok (score (bd_w b) (bd_t b) (vadd x d))).
  { intros g G1 G2 G3. unfold f_score, np_add, np_dot, score. rewrite G1, G2, G3, Hd, Nat.eqb_refl. cbn [bind]. rewrite HV, HL, Nat.eqb_refl. cbn [bind]. f_equal. ring. }
  split; [exact B|]. split; [apply F; reflexivity|]. unfold b_prediction, f_predict. rewrite B, F by reflexivity. auto.
Qed.
Lemma c78_assigned E b x b' r : set_x E b x = (b', r) -> length x = length (bd_w b) -> b_score b' None = Ok (score (bd_w b) (bd_t b) x).
Proof.
  intros H HL. unfold set_x in H. rewrite HL, Nat.eqb_refl in H. assert (G : bd_x b' = Some x /\ bd_w b' = bd_w b /\ bd_t b' = bd_t b).
  { match type of H with context [build ?a ?b ?c ?d ?e ?f ?g ?h ?i] => destruct (build a b c d e f g h i) end; injection H as <- _; auto. }
  destruct G as (G1 & G2 & G3). unfold b_score. rewrite G1, G2, G3. unfold np_dot. rewrite HL, Nat.eqb_refl. reflexivity.
Qed.
Lemma c78_lengths f : length (f_w f) = length (f_x f) ->
  (forall c, f_score f [c] = Ok (score (f_w f) (f_t f) (map (fun v => v + c) (f_x f)))) /\
  (forall d, length d <> length (f_x f) -> length d <> 1%nat -> f_score f d = Err ValueError).
Proof.
  intro HL. unfold f_score, np_add, np_dot, score. split.
  - intro c. cbn [length]. destruct (Nat.eqb_spec (length (f_x f)) 1%nat) as [E|E].
    + destruct (f_x f) as [|v [|? ?]]; try discriminate E. change (vadd [v] [c]) with [v + c]. cbn [map bind length] in HL |- *. rewrite HL. cbn [Nat.eqb bind]. f_equal. ring.
    + destruct (f_x f) as [|v [|v2 l]]; [|exfalso; apply E; reflexivity|]; cbn [bind]; rewrite map_length, HL, Nat.eqb_refl; cbn [bind]; f_equal; ring.
  - intros d H1 H2. rewrite (proj2 (Nat.eqb_neq (length (f_x f)) (length d))) by auto. destruct d as [|c [|c' d]]; [| exfalso; apply H2; reflexivity |].
    + destruct (f_x f) as [|v [|? ?]]; cbn [length] in *; [congruence| |reflexivity]. cbn [bind map length]. now rewrite HL.
    + destruct (f_x f) as [|v [|? ?]]; cbn [length] in *; [reflexivity| |reflexivity]. cbn [bind map length]. rewrite HL. reflexivity.
Qed.
Lemma c78_single f c d : f_x f = [c] -> length d = length (f_w f) -> f_score f d = Ok (score (f_w f) (f_t f) (map (fun v => c + v) d)).
Proof.
  intros Hx HL. unfold f_score, np_add, np_dot, score. rewrite Hx. cbn [length].
  destruct d as [|v [|v' d]]; cbn [length Nat.eqb bind map] in *; rewrite <- HL; cbn [length map]; rewrite ?map_length, ?Nat.eqb_refl; cbn [bind vadd]; f_equal; try ring.
Qed.
Lemma c78_errors b x : (b_score b (Some x) = Err ValueError <-> length x <> length (bd_w b)) /\ (bd_x b = None -> b_score b None = Err TypeError).
Proof.
  unfold b_score, np_dot. split; [|intros ->; reflexivity]. destruct (Nat.eqb_spec (length (bd_w b)) (length x)); cbn; split; intro H; congruence.
Qed.
