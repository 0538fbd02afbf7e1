(** C89-C93: rescaled, mirrored, relaxed and repeated questions. *)
From Verif Require Import Proofs_props_element Proofs_props_actionset Spec_compare Proofs_mip Proofs_info Proofs_vec Proofs_build Proofs_enum Proofs_session Proofs_recourse Proofs_exchange Proofs_builder Proofs_builder4 Proofs_flipset3 Proofs_builder6 Proofs_builder7 Proofs_compare.
#[local] Open Scope string_scope.
#[local] Open Scope list_scope.
#[local] Open Scope Qc_scope.

Lemma assigned_y E sv b x b0 : ok_env E -> assigned E sv b x b0 -> (as_y (bd_A b) = 1 \/ as_y (bd_A b) = -1)%Z.
Proof. intros HE HA. destruct (assigned_ready E sv b x b0 HE HA) as (ms & R). apply (rd_wf _ _ _ _ _ R). Qed.
Lemma map_id' {A} (l : list A) : map (fun a => a) l = l.
Proof. apply map_id. Qed.
Lemma re_id l : map (re (fun q => q)) l = l.
Proof. rewrite <- (map_id l) at 2. apply map_ext. intro i. now destruct i. Qed.

(** ** Wider limits, more lenient classifiers, other solvers *)
Lemma relaxed E sv sv' b b' x b0 b0' : ok_env E -> sound_solver sv -> sound_solver sv' -> finishing_solver sv' ->
  assigned E sv b x b0 -> assigned E sv' b' x b0' -> bd_w b' = bd_w b -> bd_A b' = bd_A b -> bd_cost b' = bd_cost b ->
  (if (0 <? as_y (bd_A b))%Z then bd_t b <= bd_t b' else bd_t b' <= bd_t b) -> (bd_min b' <= bd_min b)%Z -> (bd_max b <= bd_max b')%Z ->
  answers_related (no_worse (bd_cost b)) sv sv' b0 b0'.
Proof.
  intros HE S1 S2 F2 A1 A2 QW QA QC HT Hlo Hhi. apply (compare_gen E sv sv' b b' x b0 b0' (fun q => q)); auto.
  - rewrite QA. symmetry. apply with_y_id.
  - now rewrite map_id'.
  - intros s infos. rewrite re_id, QA, QW, !score_row_iff. destruct (0 <? as_y (bd_A b))%Z; intro H.
    + eapply Qcle_trans; [|exact H]. apply Qcopp_le_compat. apply Qcplus_le_compat; [apply Qcle_refl|exact HT].
    + eapply Qcle_trans; [exact H|]. apply Qcopp_le_compat. apply Qcplus_le_compat; [apply Qcle_refl|exact HT].
Qed.
Lemma lenient_thm E sv sv' b b' x b0 b0' : ok_env E -> sound_solver sv -> sound_solver sv' -> finishing_solver sv' ->
  assigned E sv b x b0 -> assigned E sv' b' x b0' -> more_lenient b b' -> answers_related (no_worse (bd_cost b)) sv sv' b0 b0'.
Proof.
  intros HE S1 S2 F2 A1 A2 (QW & (QA & QC & QL & QH) & HT). apply (relaxed E sv sv' b b' x b0 b0'); auto; lia.
Qed.
Lemma limits_thm E sv sv' b b' x b0 b0' : ok_env E -> sound_solver sv -> sound_solver sv' -> finishing_solver sv' ->
  assigned E sv b x b0 -> assigned E sv' b' x b0' -> wider_limits b b' -> answers_related (no_worse (bd_cost b)) sv sv' b0 b0'.
Proof.
  intros HE S1 S2 F2 A1 A2 (QW & QT & QA & QC & QL & QH). apply (relaxed E sv sv' b b' x b0 b0'); auto. rewrite QT. destruct (_ <? _)%Z; apply Qcle_refl.
Qed.
Lemma solver_thm E sv sv' b b' x b0 b0' : ok_env E -> sound_solver sv -> finishing_solver sv -> sound_solver sv' -> finishing_solver sv' ->
  assigned E sv b x b0 -> assigned E sv' b' x b0' -> same_question b b' -> answers_related (same_answer (bd_cost b)) sv sv' b0 b0'.
Proof.
  intros HE S1 F1 S2 F2 A1 A2 (QW & QT & QA & QC & QL & QH). apply related_same.
  - apply (relaxed E sv sv' b b' x b0 b0'); auto; try lia. rewrite QT. destruct (_ <? _)%Z; apply Qcle_refl.
  - rewrite <- QC. apply (relaxed E sv' sv b' b x b0' b0); auto; try lia. rewrite QT. destruct (_ <? _)%Z; apply Qcle_refl.
Qed.

(** ** Rescaling *)
Lemma dot_scale k : forall w x, dot (map (Qcmult k) w) x = k * dot w x.
Proof. induction w as [|a w IH]; intros [|c x]; cbn [map dot]; try ring. rewrite IH. ring. Qed.
Lemma dot_opp : forall w x, dot (map Qcopp w) x = - dot w x.
Proof. induction w as [|a w IH]; intros [|c x]; cbn [map dot]; try ring. rewrite IH. ring. Qed.
Lemma scale_le k a b : 0 < k -> (k * a <= k * b <-> a <= b).
Proof.
  intro Hk. split; intro H.
  - destruct (Qclt_le_dec b a) as [L|L]; [|exact L]. exfalso. rewrite (Qcmult_comm k a), (Qcmult_comm k b) in H. apply (Qcmult_lt_compat_r _ _ _ Hk) in L. exact (Qclt_not_le _ _ L H).
  - rewrite (Qcmult_comm k a), (Qcmult_comm k b). apply Qcmult_le_compat_r; [exact H|]. now apply Qclt_le_weak.
Qed.
Lemma scale_score k y s w x t infos : 0 < k -> row_ok s (score_row y (dot (map (Qcmult k) w) x + k * t) (map (re (Qcmult k)) infos)) = row_ok s (score_row y (dot w x + t) infos).
Proof.
  intro Hk. apply bool_iff. rewrite !score_row_iff, score_terms_lin, dot_scale. replace (- (k * dot w x + k * t)) with (k * - (dot w x + t)) by ring. destruct (0 <? y)%Z; apply scale_le; exact Hk.
Qed.
Lemma unscale k b b' : 0 < k -> rescaled k b b' -> rescaled (/ k) b' b.
Proof.
  intros Hk (QW & QT & QA & QC & QL & QH). assert (Hn : k <> 0) by (intro Q; rewrite Q in Hk; exact (Qclt_not_eq _ _ Hk eq_refl)). split; [|split; [|repeat split; congruence]].
  - rewrite QW, map_map, <- (map_id (bd_w b)) at 1. apply map_ext. intro a. rewrite Qcmult_assoc, (Qcmult_comm (/ k) k), Qcmult_inv_r by exact Hn. ring.
  - rewrite QT, Qcmult_assoc, (Qcmult_comm (/ k) k), Qcmult_inv_r by exact Hn. ring.
Qed.
Lemma inv_pos k : 0 < k -> 0 < / k.
Proof.
  intro Hk. destruct (Qclt_le_dec 0 (/ k)) as [L|L]; [exact L|]. exfalso. assert (Hn : k <> 0) by (intro Q; rewrite Q in Hk; exact (Qclt_not_eq _ _ Hk eq_refl)).
  pose proof (Qcmult_le_compat_r _ _ k L (Qclt_le_weak _ _ Hk)) as K. rewrite (Qcmult_comm (/ k) k), Qcmult_inv_r, Qcmult_0_l in K by exact Hn. now apply K.
Qed.
Lemma scale_half E sv sv' k b b' x b0 b0' : ok_env E -> sound_solver sv -> sound_solver sv' -> finishing_solver sv' ->
  assigned E sv b x b0 -> assigned E sv' b' x b0' -> 0 < k -> rescaled k b b' -> answers_related (no_worse (bd_cost b)) sv sv' b0 b0'.
Proof.
  intros HE S1 S2 F2 A1 A2 Hk (QW & QT & QA & QC & QL & QH). apply (compare_gen E sv sv' b b' x b0 b0' (Qcmult k)); auto; try lia.
  - rewrite QA. symmetry. apply with_y_id.
  - intros s infos H. rewrite QA, QW, QT, scale_score; assumption.
Qed.
Lemma scale_thm E sv sv' k b b' x b0 b0' : ok_env E -> sound_solver sv -> finishing_solver sv -> sound_solver sv' -> finishing_solver sv' ->
  assigned E sv b x b0 -> assigned E sv' b' x b0' -> 0 < k -> rescaled k b b' -> answers_related (same_answer (bd_cost b)) sv sv' b0 b0'.
Proof.
  intros HE S1 F1 S2 F2 A1 A2 Hk HR. apply related_same.
  - exact (scale_half E sv sv' k b b' x b0 b0' HE S1 S2 F2 A1 A2 Hk HR).
  - replace (bd_cost b) with (bd_cost b') by apply HR. exact (scale_half E sv' sv (/ k) b' b x b0' b0 HE S2 S1 F1 A2 A1 (inv_pos k Hk) (unscale k b b' Hk HR)).
Qed.

(** ** Mirroring *)
Lemma opp_score y s w x t infos : (y = 1 \/ y = -1)%Z -> row_ok s (score_row (- y) (dot (map Qcopp w) x + - t) (map (re Qcopp) infos)) = row_ok s (score_row y (dot w x + t) infos).
Proof.
  intro Hy. apply bool_iff. rewrite !score_row_iff, score_terms_opp, dot_opp. replace (- (- dot w x + - t)) with (- - (dot w x + t)) by ring.
  assert (K : forall a b : Qc, - a <= - b <-> b <= a). { intros a b. split; intro H; [|now apply Qcopp_le_compat]. apply Qcopp_le_compat in H. now rewrite !Qcopp_involutive in H. }
  destruct Hy as [-> | ->]; cbn [Z.opp Z.ltb Z.compare]; apply K.
Qed.
Lemma unmirror b b' : mirrored b b' -> mirrored b' b.
Proof.
  intros (QW & QT & QA & QC & QL & QH). split; [|split; [|split; [|repeat split; congruence]]].
  - rewrite QW, map_map, <- (map_id (bd_w b)) at 1. apply map_ext. intro a. ring.
  - rewrite QT. ring.
  - rewrite QA. cbn [with_y as_y]. rewrite Z.opp_involutive. destruct (bd_A b); reflexivity.
Qed.
Lemma mirror_half E sv sv' b b' x b0 b0' : ok_env E -> sound_solver sv -> sound_solver sv' -> finishing_solver sv' ->
  assigned E sv b x b0 -> assigned E sv' b' x b0' -> mirrored b b' -> answers_related (no_worse (bd_cost b)) sv sv' b0 b0'.
Proof.
  intros HE S1 S2 F2 A1 A2 (QW & QT & QA & QC & QL & QH). pose proof (assigned_y E sv b x b0 HE A1) as Hy. apply (compare_gen E sv sv' b b' x b0 b0' Qcopp); auto; try lia.
  - rewrite QA at 1. f_equal. rewrite QA. reflexivity.
  - intros s infos H. rewrite QA, QW, QT. cbn [with_y as_y]. rewrite opp_score; assumption.
Qed.
Lemma mirror_thm E sv sv' b b' x b0 b0' : ok_env E -> sound_solver sv -> finishing_solver sv -> sound_solver sv' -> finishing_solver sv' ->
  assigned E sv b x b0 -> assigned E sv' b' x b0' -> mirrored b b' -> answers_related (same_answer (bd_cost b)) sv sv' b0 b0'.
Proof.
  intros HE S1 F1 S2 F2 A1 A2 HR. apply related_same.
  - exact (mirror_half E sv sv' b b' x b0 b0' HE S1 S2 F2 A1 A2 HR).
  - replace (bd_cost b) with (bd_cost b') by apply HR. exact (mirror_half E sv' sv b' b x b0' b0 HE S2 S1 F1 A2 A1 (unmirror b b' HR)).
Qed.

(** ** Whether an assignment succeeds *)
Definition build_res (E : env) (A : action_set) (ct : cost_type) (w x : list Qc) : res unit :=
  let! infos := get_build_info E A ct w x in let! _ := mapM (subset_rows PyMIP infos) (cons_list A) in
  match ct, infos with CMax, _ | _, _ :: _ => Ok tt | _, [] => Err KeyError end.
Lemma build_result E k A ct w t lo hi x : match build E k A ct w t lo hi x with Ok _ => Ok tt | Err e => Err e end = build_res E A ct w x.
Proof.
  unfold build, build_res. destruct (get_build_info E A ct w x) as [infos|]; [|reflexivity]. cbn [bind]. fold (cons_list A). pose proof (subs_same infos (cons_list A)) as K.
  assert (KK : match mapM (subset_rows k infos) (cons_list A), mapM (subset_rows PyMIP infos) (cons_list A) with Ok _, Ok _ => True | Err e, Err e' => e = e' | _, _ => False end).
  { destruct k; [|destruct (mapM (subset_rows PyMIP infos) (cons_list A)); [exact I|reflexivity]].
    destruct (mapM (subset_rows CPX infos) (cons_list A)), (mapM (subset_rows PyMIP infos) (cons_list A)); auto. }
  destruct (mapM (subset_rows k infos) (cons_list A)), (mapM (subset_rows PyMIP infos) (cons_list A)); try (destruct KK; fail); cbn [bind]; [|now rewrite KK].
  cbv zeta. destruct ct, infos; reflexivity.
Qed.
Lemma set_x_result E b x : snd (set_x E b x) = if Nat.eqb (length x) (length (bd_w b)) then build_res E (bd_A b) (bd_cost b) (bd_w b) x else Err AssertionError.
Proof.
  unfold set_x. destruct (Nat.eqb _ _); [|reflexivity]. rewrite <- (build_result E (bd_kind b) (bd_A b) (bd_cost b) (bd_w b) (bd_t b) (bd_min b) (bd_max b) x).
  destruct (build _ _ _ _ _ _ _ _ _); reflexivity.
Qed.
Lemma build_res_re E A ct w x g y' : check_same g (as_y A) y' w -> build_res E (with_y A y') ct (map g w) x = build_res E A ct w x.
Proof.
  intro HC. unfold build_res. rewrite gbi_re by exact HC. destruct (get_build_info E A ct w x) as [infos|]; [|reflexivity]. cbn [bind].
  change (cons_list (with_y A y')) with (cons_list A). unfold re. rewrite subs_re. destruct (mapM _ _); [|reflexivity]. cbn [bind]. destruct ct, infos; reflexivity.
Qed.
Lemma assign_relaxed E b b' x : bd_w b' = bd_w b -> bd_A b' = bd_A b -> bd_cost b' = bd_cost b -> snd (set_x E b' x) = snd (set_x E b x).
Proof. intros QW QA QC. now rewrite !set_x_result, QW, QA, QC. Qed.
Lemma qsign_scale k a : 0 < k -> qsign (k * a) = qsign a.
Proof.
  intro Hk. assert (K : forall p q, (k * p <? k * q) = (p <? q)).
  { intros p q. apply bool_iff. rewrite !qlt_iff. split; intro H.
    - destruct (Qclt_le_dec p q) as [L|L]; [exact L|]. exfalso. apply (proj2 (scale_le k _ _ Hk)) in L. exact (Qclt_not_le _ _ H L).
    - destruct (Qclt_le_dec (k * p) (k * q)) as [L|L]; [exact L|]. exfalso. apply (proj1 (scale_le k _ _ Hk)) in L. exact (Qclt_not_le _ _ H L). }
  unfold qsign. rewrite <- (K 0 a), <- (K a 0). replace (k * 0) with 0 by ring. reflexivity.
Qed.
Lemma qsign_opp a : qsign (- a) = (- qsign a)%Z.
Proof.
  assert (K1 : (0 <? - a) = (a <? 0)) by (apply bool_iff; rewrite !qlt_iff; split; intro H; qlra).
  assert (K2 : (- a <? 0) = (0 <? a)) by (apply bool_iff; rewrite !qlt_iff; split; intro H; qlra).
  unfold qsign. rewrite K1, K2. destruct (0 <? a) eqn:A, (a <? 0) eqn:B; try reflexivity. exfalso. apply qlt_iff in A. apply qlt_iff in B. qlra.
Qed.
Lemma qabs_opp a : qabs (- a) = qabs a.
Proof. unfold qabs. destruct (qle_spec 0 a), (qle_spec 0 (- a)); try (apply Qcle_antisym; qlra). Qed.
Lemma tiny_close w j wj : tiny_free w -> nth_error w j = Some wj -> isclose0 wj = (wj =? 0).
Proof.
  intros HT Hj. apply bool_iff. unfold isclose0. rewrite qle_iff, qeq_iff. split; intro H.
  - destruct (HT j wj Hj) as [Q|Q]; [exact Q|]. exfalso. change atol with (qfrac 1 100000000) in H. exact (Qclt_not_le _ _ Q H).
  - subst. vm_compute. intro Q. discriminate Q.
Qed.
Lemma assign_scaled E b b' k x : 0 < k -> rescaled k b b' -> tiny_free (bd_w b) -> tiny_free (bd_w b') -> snd (set_x E b' x) = snd (set_x E b x).
Proof.
  intros Hk (QW & QT & QA & QC & QL & QH) T1 T2. rewrite !set_x_result, QW, QC, map_length, QA. destruct (Nat.eqb _ _); [|reflexivity].
  rewrite <- (with_y_id (bd_A b)) at 1. apply build_res_re. intros j wj Hj. split; [|now rewrite qsign_scale].
  rewrite (tiny_close _ _ _ T1 Hj). assert (Hj' : nth_error (bd_w b') j = Some (k * wj)) by (rewrite QW, nth_error_map, Hj; reflexivity). rewrite (tiny_close _ _ _ T2 Hj').
  apply bool_iff. rewrite !qeq_iff. split; intro H; [|subst; ring]. apply Qcmult_integral in H. destruct H as [H|H]; [|exact H]. rewrite H in Hk. now apply Qclt_not_eq in Hk.
Qed.
Lemma assign_mirrored E b b' x : mirrored b b' -> snd (set_x E b' x) = snd (set_x E b x).
Proof.
  intros (QW & QT & QA & QC & QL & QH). rewrite !set_x_result, QW, QC, map_length, QA. destruct (Nat.eqb _ _); [|reflexivity].
  apply build_res_re. intros j wj Hj. split; [unfold isclose0; now rewrite qabs_opp|]. rewrite qsign_opp. f_equal. ring.
Qed.

(** ** Creation *)
Definition vec_args (w : list Qc) : cargs := {| k_clf := None; k_classifier := None; k_coefs := None; k_intercept := None; a_pos := [AVec (map Fin w)] |}.
Lemma align_re A w g y' : (forall a, (if (0 <? y')%Z then qsign (g a) else (- qsign (g a))%Z) = (if (0 <? as_y A)%Z then qsign a else (- qsign a)%Z)) ->
  set_alignment (with_y A y') (vec_args (map g w)) = match set_alignment A (vec_args w) with Ok A' => Ok (with_y A' y') | Err e => Err e end.
Proof.
  intro H. unfold set_alignment, vec_args. rewrite !parse_vec. cbn [bind]. rewrite map_length. change (as_len (with_y A y')) with (as_len A). destruct (passert _); [|reflexivity]. cbn [bind].
  cbn [with_y as_y as_elems]. rewrite map_map. rewrite (map_ext _ (fun w0 => if (0 <? as_y A)%Z then qsign w0 else (- qsign w0)%Z) H). reflexivity.
Qed.
Lemma create_re E kd kd' A a a' ct w t t' g y' : parse_classifier_args a = Ok (w, t) -> parse_classifier_args a' = Ok (map g w, t') ->
  (forall a, (if (0 <? y')%Z then qsign (g a) else (- qsign (g a))%Z) = (if (0 <? as_y A)%Z then qsign a else (- qsign a)%Z)) ->
  alike (fun b b' => bd_w b = w /\ bd_t b = t /\ as_y (bd_A b) = as_y A /\ bd_w b' = map g w /\ bd_t b' = t' /\ bd_A b' = with_y (bd_A b) y' /\ bd_cost b' = bd_cost b /\ bd_min b' = bd_min b /\ bd_max b' = bd_max b)
    (mk_builder E kd A a ct None) (mk_builder E kd' (with_y A y') a' ct None).
Proof.
  intros H1 H2 HG. unfold mk_builder. rewrite H1, H2. cbn [bind]. rewrite map_length. change (as_len (with_y A y')) with (as_len A). destruct (passert _); [|reflexivity]. cbn [bind].
  fold (vec_args w) (vec_args (map g w)). change (alignment_known (with_y A y')) with (alignment_known A). destruct (alignment_known A).
  - cbn [bind alike]. repeat split.
  - rewrite (align_re A w g y' HG). destruct (set_alignment A (vec_args w)) as [A'|] eqn:EA; [|reflexivity]. cbn [bind alike]. repeat split.
    destruct (set_alignment_spec _ _ _ EA) as (w1 & t1 & _ & _ & _ & _ & Ey & _). exact Ey.
Qed.
Lemma create_scaled E kd kd' A a a' ct w t k : 0 < k -> parse_classifier_args a = Ok (w, t) -> parse_classifier_args a' = Ok (map (Qcmult k) w, k * t) ->
  alike (rescaled k) (mk_builder E kd A a ct None) (mk_builder E kd' A a' ct None).
Proof.
  intros Hk H1 H2. pose proof (create_re E kd kd' A a a' ct w t (k * t) (Qcmult k) (as_y A) H1 H2) as K. rewrite with_y_id in K.
  assert (HG : forall c, (if (0 <? as_y A)%Z then qsign (k * c) else (- qsign (k * c))%Z) = (if (0 <? as_y A)%Z then qsign c else (- qsign c)%Z)) by (intro c; now rewrite qsign_scale). specialize (K HG).
  destruct (mk_builder E kd A a ct None), (mk_builder E kd' A a' ct None); try exact K. cbn [alike] in *. destruct K as (W & T & Y & W' & T' & QA & QC & QL & QH).
  split; [congruence|]. split; [congruence|]. repeat split; auto. rewrite QA, <- Y. apply with_y_id.
Qed.
Lemma create_mirrored E kd kd' A a a' ct w t : aset_reachable E A -> parse_classifier_args a = Ok (w, t) -> parse_classifier_args a' = Ok (map Qcopp w, - t) ->
  alike mirrored (mk_builder E kd A a ct None) (mk_builder E kd' (with_y A (- as_y A)) a' ct None).
Proof.
  intros HA H1 H2. pose proof (create_re E kd kd' A a a' ct w t (- t) Qcopp (- as_y A) H1 H2) as K.
  assert (HG : forall c, (if (0 <? - as_y A)%Z then qsign (- c) else (- qsign (- c))%Z) = (if (0 <? as_y A)%Z then qsign c else (- qsign c)%Z)).
  { intro c. rewrite qsign_opp, Z.opp_involutive. destruct (reachable_wf _ _ HA) as (_ & _ & _ & _ & _ & [-> | ->]); reflexivity. }
  specialize (K HG). destruct (mk_builder E kd A a ct None), (mk_builder E kd' _ a' ct None); try exact K. cbn [alike] in *. destruct K as (W & T & Y & W' & T' & QA & QC & QL & QH).
  split; [congruence|]. split; [congruence|]. repeat split; auto. now rewrite QA, Y.
Qed.
Lemma aset_mirrored X names custom dflt dst : alike (fun A A' => A' = with_y A (- as_y A)) (mk_action_set X names 1 custom dflt dst) (mk_action_set X names (-1) custom dflt dst).
Proof.
  unfold mk_action_set. destruct (passert (check_variable_names names)); [|reflexivity]. cbn [bind]. destruct (passert _); [|reflexivity]. cbn [bind]. destruct (passert _); [|reflexivity]. cbn [bind].
  destruct (mapM _ _); reflexivity.
Qed.
