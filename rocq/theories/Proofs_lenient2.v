(** Concrete scenarios for C130. *)
From Verif Require Import Spec_lenient Spec_widen Proofs_props_element Proofs_props_actionset Proofs_actionset Proofs_registry Proofs_builder Proofs_builder3 Proofs_builder6 Proofs_builder8 Proofs_concrete Proofs_scen Proofs_scen2 Proofs_binding Proofs_session Proofs_flipset3 Proofs_lenient.
#[local] Open Scope string_scope.
#[local] Open Scope list_scope.
#[local] Open Scope Qc_scope.

Definition other_t (c : scenario) (t : Qc) : scenario := mk (sc_env c) (sc_X c) (sc_names c) (sc_y c) (sc_ops c) (sc_kind c) (sc_w c) t (sc_cost c) (sc_x c).
Lemma created_shape E k A w t ct b : mk_builder E k A (coef_args w t) ct None = Ok b ->
  exists A', (if alignment_known A then Ok A else set_alignment A {| k_clf := None; k_classifier := None; k_coefs := None; k_intercept := None; a_pos := [AVec (map Fin w)] |}) = Ok A' /\
    b = {| bd_kind := k; bd_w := w; bd_t := t; bd_A := A'; bd_cost := ct; bd_actionable := actionable_positions A'; bd_min := 0; bd_max := Z.of_nat (length (actionable_positions A')); bd_x := None; bd_mip := None; bd_sol := None; bd_calls := 0%nat |}.
Proof.
  intro H. unfold mk_builder in H. rewrite coef_parse in H. cbn [bind] in H. bnd H as u Hu. bnd H as A' HA. injection H as <-. exists A'. split; [exact HA|reflexivity].
Qed.
#[local] Transparent sc_builder sc_aset.
Lemma other_shape c t b b' : sc_builder c = Ok b -> sc_builder (other_t c t) = Ok b' ->
  bd_A b' = bd_A b /\ bd_w b' = bd_w b /\ bd_cost b' = bd_cost b /\ bd_max b' = bd_max b /\ bd_kind b = sc_kind c /\ bd_kind b' = sc_kind c /\ bd_cost b = sc_cost c /\ bd_t b = sc_t c /\ bd_t b' = t.
Proof.
  unfold sc_builder. intros H H'. bnd H as A HA. change (sc_aset (other_t c t)) with (sc_aset c) in H'. rewrite HA in H'. cbn [bind] in H'. change (sc_args (sc_w c) (sc_t c)) with (coef_args (sc_w c) (sc_t c)) in H.
  change (mk_builder (sc_env c) (sc_kind c) A (coef_args (sc_w c) t) (sc_cost c) None = Ok b') in H'. apply created_shape in H, H'. destruct H as (A1 & K & ->), H' as (A2 & K' & ->). rewrite K in K'. injection K' as <-. cbn. auto 12.
Qed.
#[local] Opaque sc_builder sc_aset.
Lemma other_case c t' (pre : builder -> bool) (u u' : option (list Qc * list Qc * Qc) -> bool) : ok_env (sc_env c) ->
  sc_check c (fun b b0 => pre b && fit_test b0 u) = true -> sc_check (other_t c t') (fun b b0 => pre b && fit_test b0 u') = true ->
  exists b b' b0 b0', (forall sv, assigned (sc_env c) sv b (sc_x c) b0) /\ (forall sv, assigned (sc_env c) sv b' (sc_x c) b0') /\ bd_A b' = bd_A b /\ bd_w b' = bd_w b /\ bd_cost b' = bd_cost b /\ bd_max b' = bd_max b /\ bd_kind b = sc_kind c /\ bd_kind b' = sc_kind c /\ bd_cost b = sc_cost c /\
    bd_t b = sc_t c /\ bd_t b' = t' /\ pre b = true /\ pre b' = true /\
    forall sv, sound_solver sv -> finishing_solver sv -> (exists b1 r, fit sv b0 = Ok (b1, r) /\ u (view r) = true) /\ exists b1 r, fit sv b0' = Ok (b1, r) /\ u' (view r) = true.
Proof.
  intros HE H H'. apply sc_check_ok in H, H'. destruct H as (b & b0 & HR & HT), H' as (b' & b0' & HR' & HT'). apply andb_true_iff in HT, HT'. destruct HT as [HT1 HT2], HT' as [HT1' HT2'].
  destruct (other_shape c t' b b' (sc_run_builder _ _ _ HR) (sc_run_builder _ _ _ HR')) as (S1 & S2 & S3 & S4 & S5 & S6 & S7 & S8 & S9).
  exists b, b', b0, b0'. split; [exact (sc_assigned _ _ _ HR)|]. split; [exact (sc_assigned _ _ _ HR')|]. do 9 (split; [assumption|]). split; [exact HT1|]. split; [exact HT1'|]. intros sv Hs Hf.
  split; [exact (sc_fit _ _ _ _ HR HE HT2 sv Hs Hf)|exact (sc_fit _ _ _ _ HR' HE HT2' sv Hs Hf)].
Qed.
Definition regularb (E : env) (x : list Qc) (b : builder) : bool := good_setupb E b x && strictb E (bd_A b) x && resolvableb (bd_A b) x.
Lemma regularb_ok E x b : regularb E x b = true -> plain_setup E b x /\ regular E (bd_A b) x.
Proof.
  unfold regularb. intro H. apply andb_true_iff in H. destruct H as [H H3]. apply andb_true_iff in H. destruct H as [H1 H2]. split; [eapply good_setupb_ok; eassumption|]. split; [now apply strictb_ok|now apply resolvableb_ok].
Qed.
Definition some_cost (p : Qc -> bool) (v : option (list Qc * list Qc * Qc)) : bool := match v with Some (_, _, c) => p c | None => false end.
Lemma two_costs (E : env) sv b0 b0' (p p' : Qc -> bool) : (exists b1 r, fit sv b0 = Ok (b1, r) /\ some_cost p (view r) = true) /\ (exists b1 r, fit sv b0' = Ok (b1, r) /\ some_cost p' (view r) = true) ->
  exists b1 s b1' s', fit sv b0 = Ok (b1, Some s) /\ fit sv b0' = Ok (b1', Some s') /\ p (s_cost s) = true /\ p' (s_cost s') = true.
Proof.
  intros ((b1 & [s|] & F1 & T1) & b1' & [s'|] & F2 & T2); try discriminate T1; try discriminate T2. exists b1, s, b1', s'. auto.
Qed.
Lemma lenient_pair c t' (m : Qc -> Qc -> Prop) (p p' : Qc -> bool) : ok_env (sc_env c) -> at_least_as_lenient 1 (sc_t c) t' -> sc_y c = 1%Z ->
  sc_check c (fun b b0 => (regularb (sc_env c) (sc_x c) b && (as_y (bd_A b) =? 1)%Z) && fit_test b0 (some_cost p)) = true -> sc_check (other_t c t') (fun b b0 => (regularb (sc_env c) (sc_x c) b && (as_y (bd_A b) =? 1)%Z) && fit_test b0 (some_cost p')) = true ->
  (forall v v', p v = true -> p' v' = true -> m v v') ->
  exists b b' b0 b0', (forall sv, assigned (sc_env c) sv b (sc_x c) b0) /\ (forall sv, assigned (sc_env c) sv b' (sc_x c) b0') /\ bd_kind b = sc_kind c /\ bd_kind b' = sc_kind c /\ bd_A b' = bd_A b /\ bd_w b' = bd_w b /\ at_least_as_lenient (as_y (bd_A b)) (bd_t b) (bd_t b') /\
    bd_cost b = sc_cost c /\ bd_cost b' = sc_cost c /\ bd_max b' = bd_max b /\ plain_setup (sc_env c) b (sc_x c) /\ plain_setup (sc_env c) b' (sc_x c) /\ regular (sc_env c) (bd_A b) (sc_x c) /\
    forall sv, sound_solver sv -> finishing_solver sv -> exists b1 s b1' s', fit sv b0 = Ok (b1, Some s) /\ fit sv b0' = Ok (b1', Some s') /\ m (s_cost s) (s_cost s').
Proof.
  intros HE HT HY H H' HM. destruct (other_case c t' (fun b => regularb (sc_env c) (sc_x c) b && (as_y (bd_A b) =? 1)%Z) (some_cost p) (some_cost p') HE H H') as (b & b' & b0 & b0' & A1 & A2 & A3 & A4 & A5 & A6 & A7 & A8 & A9 & A10 & A11 & P & P' & HF).
  apply andb_true_iff in P, P'. destruct P as [P Y], P' as [P' _]. apply Z.eqb_eq in Y. apply regularb_ok in P, P'. destruct P as [P1 P2], P' as [P1' _].
  exists b, b', b0, b0'. split; [exact A1|]. split; [exact A2|]. split; [exact A7|]. split; [exact A8|]. split; [exact A3|]. split; [exact A4|]. split; [rewrite Y, A10, A11; exact HT|]. split; [exact A9|]. split; [congruence|]. split; [exact A6|].
  split; [exact P1|]. split; [exact P1'|]. split; [exact P2|]. intros sv Hs Hf. destruct (two_costs (sc_env c) sv b0 b0' p p' (HF sv Hs Hf)) as (b1 & s & b1' & s' & F1 & F2 & T1 & T2). exists b1, s, b1', s'. auto.
Qed.
(** Cost type 'max': a more lenient intercept raises the cost. *)
Definition sc130 k := mk env_ab tab3 ["a"; "b"; "c"] 1 [] k [z 3; z 2; z 2] (- z 4) CMax [z 0; z 0; z 0].
Definition below (m v : Qc) : bool := v <=? m.
Definition above (m v : Qc) : bool := negb (v <=? m).
Lemma lenient_dearer k : exists E b b' x b0 b0', ok_env E /\ density E /\ (forall sv, assigned E sv b x b0) /\ (forall sv, assigned E sv b' x b0') /\ bd_kind b = k /\ bd_kind b' = k /\ bd_A b' = bd_A b /\ bd_w b' = bd_w b /\ at_least_as_lenient (as_y (bd_A b)) (bd_t b) (bd_t b') /\
  bd_cost b = CMax /\ bd_cost b' = CMax /\ bd_max b' = bd_max b /\ plain_setup E b x /\ plain_setup E b' x /\ regular E (bd_A b) x /\
  forall sv, sound_solver sv -> finishing_solver sv -> exists b1 s b1' s', fit sv b0 = Ok (b1, Some s) /\ fit sv b0' = Ok (b1', Some s') /\ s_cost s < s_cost s'.
Proof.
  destruct (lenient_pair (sc130 k) (- z 3) (fun v v' => v < v') (below (qfrac 500000 1000001)) (above (qfrac 500000 1000001)) env_ab_ok) as (b & b' & b0 & b0' & H).
  - unfold at_least_as_lenient. cbn. apply qle_iff. reflexivity.
  - reflexivity.
  - destruct k; vm_compute; reflexivity.
  - destruct k; vm_compute; reflexivity.
  - unfold below, above. intros v v' H1 H2. apply qle_iff in H1. eapply Qcle_lt_trans; [exact H1|]. apply negb_true_iff in H2. apply Qcnot_le_lt. intro N. apply qle_iff in N. congruence.
  - exists env_ab, b, b', [z 0; z 0; z 0], b0, b0'. split; [exact env_ab_ok|]. split; [exact env_ab_density|]. exact H.
Qed.
(** Sums: a more lenient intercept makes the answer strictly cheaper. *)
Definition sc130c k ct := mk env0 tab2 ["a"; "b"] 1 [] k [z 1; z 1] (- z 5) ct [z 0; z 1].
Lemma lenient_cheaper k ct : ct <> CMax -> exists b b' x b0 b0', (forall sv, assigned env0 sv b x b0) /\ (forall sv, assigned env0 sv b' x b0') /\ bd_kind b = k /\ bd_kind b' = k /\ bd_A b' = bd_A b /\ bd_w b' = bd_w b /\ at_least_as_lenient (as_y (bd_A b)) (bd_t b) (bd_t b') /\
  bd_cost b = ct /\ bd_cost b' = ct /\ bd_max b' = bd_max b /\ plain_setup env0 b x /\ plain_setup env0 b' x /\ regular env0 (bd_A b) x /\
  forall sv, sound_solver sv -> finishing_solver sv -> exists b1 s b1' s', fit sv b0 = Ok (b1, Some s) /\ fit sv b0' = Ok (b1', Some s') /\ s_cost s' < s_cost s.
Proof.
  intro NC. assert (W : exists m, sc_check (sc130c k ct) (fun b b0 => (regularb env0 [z 0; z 1] b && (as_y (bd_A b) =? 1)%Z) && fit_test b0 (some_cost (above m))) = true /\ sc_check (other_t (sc130c k ct) (- z 3)) (fun b b0 => (regularb env0 [z 0; z 1] b && (as_y (bd_A b) =? 1)%Z) && fit_test b0 (some_cost (below m))) = true).
  { destruct ct; [| |now elim NC].
    - exists (qfrac 6 10). destruct k; split; vm_compute; reflexivity.
    - exists (z 2). destruct k; split; vm_compute; reflexivity. }
  destruct W as (m & W1 & W2).
  destruct (lenient_pair (sc130c k ct) (- z 3) (fun v v' => v' < v) (above m) (below m) env0_ok) as (b & b' & b0 & b0' & H).
  - unfold at_least_as_lenient. cbn. apply qle_iff. reflexivity.
  - reflexivity.
  - exact W1.
  - exact W2.
  - unfold below, above. intros v v' H1 H2. apply qle_iff in H2. eapply Qcle_lt_trans; [exact H2|]. apply negb_true_iff in H1. apply Qcnot_le_lt. intro N. apply qle_iff in N. congruence.
  - exists b, b', [z 0; z 1], b0, b0'. exact H.
Qed.
