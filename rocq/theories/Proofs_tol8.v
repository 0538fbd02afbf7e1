(** Audits under a tolerance. *)
From Verif Require Import Proofs_num Proofs_props_element Proofs_props_actionset Spec_tolerance Proofs_mip Proofs_info Proofs_vec Proofs_build Proofs_enum Proofs_tol Proofs_registry
  Proofs_actionset Proofs_recourse Proofs_subset Proofs_session Proofs_far Proofs_builder Proofs_builder2 Proofs_builder3 Proofs_exchange Proofs_concrete Proofs_builder6 Proofs_builder7 Proofs_builder8 Proofs_tol2 Proofs_tol3 Proofs_tol5 Proofs_tol7.
From Verif Require Import Spec_audit Proofs_audit Proofs_audit2 Proofs_audit3.
#[local] Open Scope list_scope.
#[local] Open Scope Qc_scope.

(** ** Alignment does not matter *)
Lemma sbf_fine d A A' : same_but_flips A A' -> fine_for d A -> fine_for d A'.
Proof.
  intros SB (H1 & H2 & H3). split; [exact H1|]. split; [now rewrite (sbf_len _ _ SB)|]. intros e He. apply In_nth_error in He. destruct He as (j & Hj).
  destruct (sbf_elem _ _ _ _ SB Hj) as (e0 & f & He0 & ->). exact (H3 e0 (nth_error_In _ _ He0)).
Qed.
Lemma sbf_changes M A A' x : same_but_flips A A' -> changes_up_to M A x -> changes_up_to M A' x.
Proof. intros SB [H1 H2]. split; [exact H1|]. intros j e xj v He Hx Hp. destruct (sbf_elem _ _ _ _ SB He) as (e0 & f & He0 & ->). exact (H2 j e0 xj v He0 Hx Hp). Qed.
Lemma sbf_prices E ct K A A' x : same_but_flips A A' -> prices_up_to E ct K A x -> prices_up_to E ct K A' x.
Proof. intros SB [H1 H2]. split; [exact H1|]. intros j e xj v p He Hx Hp Hm. destruct (sbf_elem _ _ _ _ SB He) as (e0 & f & He0 & ->). exact (H2 j e0 xj v p He0 Hx Hp Hm). Qed.
Lemma sbf_close d M A A' a g : same_but_flips A A' -> close_to d M A' a g -> close_to d M A a g.
Proof. intros SB [H1 H2]. split; [exact H1|]. intros j e aj gj He Ha Hg. destruct (sbf_elem' _ _ _ _ SB He) as (f & He'). exact (H2 j _ aj gj He' Ha Hg). Qed.
Lemma sbf_cost_slack d K A A' : same_but_flips A A' -> cost_slack d K A' = cost_slack d K A.
Proof.
  intros (_ & _ & _ & H). unfold cost_slack. f_equal. induction H as [|e e' l l' (f & ->) H IH]; cbn [map]; [reflexivity|]. now rewrite IH.
Qed.

(** ** Scores of close actions *)
Lemma qabs_bound v r : - r <= v -> v <= r -> qabs v <= r.
Proof. intros H1 H2. apply qabs_le. now split. Qed.
Lemma dot_close : forall w a g (b : list Qc), length a = length w -> length g = length w -> length b = length w ->
  (forall j aj gj bj, nth_error a j = Some aj -> nth_error g j = Some gj -> nth_error b j = Some bj -> qabs (aj - gj) <= bj) ->
  qabs (dot w a - dot w g) <= dot (map qabs w) b.
Proof.
  induction w as [|c w IH]; intros [|p a] [|q g] [|r b] La Lg Lb H; try discriminate La; try discriminate Lg; try discriminate Lb; cbn [dot map].
  - apply qabs_bound; apply qle_iff; reflexivity.
  - assert (H1 : qabs (p - q) <= r) by (exact (H 0%nat p q r eq_refl eq_refl eq_refl)).
    assert (H2 : qabs (dot w a - dot w g) <= dot (map qabs w) b) by (apply IH; [now injection La|now injection Lg|now injection Lb|]; intros j; exact (H (S j))).
    replace (c * p + dot w a - (c * q + dot w g)) with (c * (p - q) + (dot w a - dot w g)) by ring.
    eapply Qcle_trans; [apply qabs_plus|]. rewrite qabs_mul. assert (H3 : qabs c * qabs (p - q) <= qabs c * r) by (apply mul_le_l; [apply qabs_nonneg|exact H1]). qlra.
Qed.
Lemma close_score d M A w t x a g : length (as_elems A) = as_len A -> length w = as_len A -> length x = as_len A -> length g = as_len A -> close_to d M A a g ->
  qabs (score w t (vadd x a) - score w t (vadd x g)) <= action_slack d M A w.
Proof.
  intros He Hw Hx Hg [Hl H]. unfold score, action_slack. assert (Ha : length a = as_len A) by congruence. rewrite (dot_vadd w x a), (dot_vadd w x g) by congruence. replace (dot w x + dot w a + t - (dot w x + dot w g + t)) with (dot w a - dot w g) by ring.
  apply dot_close; [congruence|congruence|rewrite map_length; congruence|]. intros j aj gj bj Haj Hgj Hb. rewrite nth_error_map in Hb. destruct (nth_error (as_elems A) j) as [e|] eqn:Ee; [|discriminate Hb].
  injection Hb as <-. exact (H j e aj gj Ee Haj Hgj).
Qed.
Lemma close_on_side d r y s s' : on_side_within d y s -> qabs (s - s') <= r -> on_side_within (d + r) y s'.
Proof. unfold on_side_within. intros H K. apply qabs_le in K. destruct K as [K1 K2]. destruct (0 <? y)%Z; qlra. Qed.

Lemma side_improving y wj e xj v : (y = 1 \/ y = -1)%Z -> wj <> 0 -> e_flip e = Some (if (y =? 1)%Z then qsign wj else (- qsign wj)%Z) -> on_side y (wj * (v - xj)) -> improving e xj v.
Proof.
  intros Hy Hz Hf H. unfold improving. rewrite Hf. destruct (qle_spec v xj) as [Hvx|Hvx].
  - destruct (Qc_eq_dec v xj) as [->|N]; [split; intros _; apply Qcle_refl|].
    assert (AT : attains y (wj * (v - xj))).
    { unfold on_side, attains in *. assert (wj * (v - xj) <> 0) by (intro Z0; apply Qcmult_integral in Z0; destruct Z0 as [Z0|Z0]; [auto|]; apply N; replace v with (v - xj + xj) by ring; rewrite Z0; ring).
      destruct (0 <? y)%Z; [destruct (Qcle_lt_or_eq _ _ H) as [|K]; [auto|now rewrite <- K in *]|destruct (Qcle_lt_or_eq _ _ H) as [|K]; [auto|now rewrite K in *]]. }
    destruct (sign_move y wj _ Hy AT) as [S1 S2]. split; intro Q; [specialize (S1 Q)|specialize (S2 Q)]; qlra.
  - assert (AT : attains y (wj * (v - xj))).
    { unfold on_side, attains in *. assert (wj * (v - xj) <> 0) by (intro Z0; apply Qcmult_integral in Z0; destruct Z0 as [Z0|Z0]; [auto|]; qlra).
      destruct (0 <? y)%Z; [destruct (Qcle_lt_or_eq _ _ H) as [|K]; [auto|now rewrite <- K in *]|destruct (Qcle_lt_or_eq _ _ H) as [|K]; [auto|now rewrite K in *]]. }
    destruct (sign_move y wj _ Hy AT) as [S1 S2]. split; intro Q; [specialize (S1 Q)|specialize (S2 Q)]; qlra.
Qed.

Theorem tol_audit {I} E sv k A w t b (X : list (I * list Qc)) y b' out d : ok_env E -> solver_within d sv -> finishing_solver sv -> density E ->
  aset_reachable E A -> fine_for d A -> auditor_used E sv k A w t b -> audit E sv b (table_of X) y = (b', Ok out) ->
  Forall2 (fun p q => fst q = fst p /\ (snd q = None <-> has_outcome y (score w t (snd p))) /\ forall f c, snd q = Some (f, c) -> tolerably_judged E d A w t (snd p) f c) X out.
Proof.
  intros HE HS HF HDn HA HD HUs H. destruct (used_fresh _ _ _ _ _ _ _ HA HUs) as (HR & F & FM).
  apply audit_ok in H. destruct H as (X0 & E0 & HN & HL & Hlab & o & Ho & _ & ->). apply table_inj in E0. subst X0.
  apply Forall2_map_r. intros [i r] Hp. cbn [fst snd]. split; [reflexivity|].
  pose proof (fr_w _ _ _ _ _ _ _ F) as Ew. pose proof (fr_t _ _ _ _ _ _ _ F) as Et.
  assert (Hin : In r (map snd X)) by (apply in_map_iff; exists (i, r); auto).
  pose proof (HL _ Hp) as HLr. cbn [snd] in HLr. assert (HLx : length r = as_len A) by (rewrite HLr, Ew; apply F).
  split.
  { rewrite <- Ew, <- Et, <- to_audit_iff. apply (result_none E sv b y (map snd X) b' o r Ho Hin). }
  intros f c Hq. destruct (to_audit (bd_w b) (bd_t b) y r) eqn:T; [|apply (result_none _ _ _ _ _ _ _ r Ho Hin) in T; congruence].
  destruct (result_judged E sv b y (map snd X) b' o r HR Ho Hin T) as (v & Hv & bi & b0 & b1 & s & SP & HAs & Hf & ->). rewrite Hv in Hq. injection Hq as Hq.
  assert (Fi : fresh E k A w t CMax bi) by (eapply fresh_same; eauto). pose proof (fr_sbf _ _ _ _ _ _ _ Fi) as SB. pose proof SB as (S1 & S2 & S3 & S4).
  pose proof (fr_w _ _ _ _ _ _ _ Fi) as Wi. pose proof (fr_t _ _ _ _ _ _ _ Fi) as Ti. pose proof (fr_cost _ _ _ _ _ _ _ Fi) as Ci.
  assert (FMi : flips_match (bd_A bi) (bd_w bi)) by (rewrite Wi; destruct SP as (_ & _ & _ & SA & _); now rewrite SA).
  assert (HDi : fine_for d (bd_A bi)) by (eapply sbf_fine; eauto).
  assert (HLg : log_ok E (bd_cost bi)) by (rewrite Ci; intro Q; discriminate Q).
  assert (Hmax : forall a, permitted_action A r a -> (Z.of_nat (n_changed a) <= bd_max bi)%Z) by (intros a Ha; eapply fresh_max; eauto).
  assert (HG : orderly E A w r -> current_percentiles A -> denied (as_y A) (score w t r) -> good_setup E bi r).
  { intros G1 G3 G5. split; [rewrite Wi; now apply (sbf_orderly E A)|]. split; [exact FMi|]. split; [eapply sbf_current; eauto|]. split; [rewrite (fr_min _ _ _ _ _ _ _ Fi); lia|]. now rewrite S3, Wi, Ti. }
  destruct s as [s|]; cbn [verdict_of] in Hq; injection Hq as <- <-; [left|right].
  - split; [reflexivity|]. exists (s_cost s). split; [reflexivity|]. intros M K HM HK.
    assert (HKi : prices_up_to E (bd_cost bi) K (bd_A bi) r) by (rewrite Ci; eapply sbf_prices; eauto).
    destruct (tol_max E sv bi r b0 d M K b1 s HE HS HAs HDi (sbf_changes _ _ _ _ SB HM) Ci HKi Hf) as (g & cs & m & (P1 & P2 & P3 & P4) & H2 & H3 & H4 & H5 & H6 & H7 & H8).
    rewrite S3, Wi, Ti in P4. apply (sbf_permitted _ _ _ _ SB) in P1. apply (sbf_close _ _ _ _ _ _ SB) in P3. rewrite (sbf_cost_slack _ _ _ _ SB) in H7, H8. rewrite Ci in H3.
    exists (s_actions s), g, cs, m. split; [exact P1|]. split; [destruct P2; lia|].
    split. { intro HO. apply (sbf_compliant _ _ _ _ SB). apply H2; [exact FMi|]. rewrite Wi. now apply (sbf_orderly E A). }
    split; [exact P3|]. split; [exact P4|].
    split. { eapply close_on_side; [exact P4|]. apply close_score; [exact (wf_len _ _ (reachable_wf _ _ HA))|apply F|exact HLx|exact (proj1 P1)|exact P3]. }
    split; [exact (sbf_costs' _ _ _ _ _ _ _ SB H3)|]. split; [exact H4|]. split; [exact H5|]. split; [exact H7|].
    intros HO HCu HRg Hden a' cs' m' j e xj u v p q Pa Ca Sa Cs Lg Hj Hx (wj & Hw & Hwz & Su & Sv) Pu Pv Mu Mv Hlt.
    destruct (sbf_elem' _ _ _ _ SB Hj) as (f & Hj').
    assert (Yi : (as_y A = 1 \/ as_y A = -1)%Z) by (destruct (reachable_wf _ _ HA) as (_ & _ & _ & _ & _ & Y); exact Y).
    assert (FL : e_flip (with_flip e f) = Some (if (as_y A =? 1)%Z then qsign wj else (- qsign wj)%Z)) by (rewrite <- S3; apply (proj2 FMi) with (j := j); [exact Hj'|now rewrite Wi]).
    eapply (H8 HF HDn HLg (HG HO HCu Hden) (sbf_regular _ _ _ _ SB HRg) a' cs' m' j (with_flip e f) xj u v p q).
    + now apply (sbf_permitted _ _ _ _ SB).
    + now apply Hmax.
    + now rewrite S3, Wi, Ti.
    + now apply (sbf_compliant _ _ _ _ SB).
    + rewrite Ci. now apply (sbf_costs _ _ _ _ _ _ _ SB).
    + exact Lg.
    + exact Hj'.
    + exact Hx.
    + exists wj. rewrite Wi. auto.
    + exact Pu.
    + exact (side_improving _ _ _ _ _ Yi Hwz FL Su).
    + exact Pv.
    + exact (side_improving _ _ _ _ _ Yi Hwz FL Sv).
    + rewrite Ci. exact Mu.
    + rewrite Ci. exact Mv.
    + exact Hlt.
  - split; [reflexivity|]. split; [reflexivity|]. intros HO HCu Hden a Pa Ma Ca Sa.
    refine (tol_none E sv bi r b0 d b1 a HE HS HF HDn HLg HAs HDi (HG HO HCu Hden) Hf _ _ _ _ _).
    + now apply (sbf_permitted _ _ _ _ SB).
    + now apply (sbf_movable _ _ _ _ SB).
    + now apply Hmax.
    + now apply (sbf_compliant _ _ _ _ SB).
    + now rewrite S3, Wi, Ti.
Qed.
