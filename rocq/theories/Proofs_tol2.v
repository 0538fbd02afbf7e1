(** Builders driven by solvers that are right up to a tolerance. *)
From Verif Require Import Proofs_num Proofs_props_element Proofs_props_actionset Spec_tolerance Proofs_mip Proofs_info Proofs_vec Proofs_build Proofs_enum Proofs_tol Proofs_registry.
#[local] Open Scope list_scope.
#[local] Open Scope Qc_scope.

Definition drop1 (m : mip) : mip := {| m_vars := m_vars m; m_rows := tl (m_rows m); m_sos := m_sos m; m_obj := m_obj m |}.
Definition dropms (ms : mipstate) : mipstate := {| ms_mip := drop1 (ms_mip ms); ms_infos := ms_infos ms |}.
(** The score of a point: the constant plus the effect of its changes. *)
Definition sgain (infos : list info) (s : assignment) : Qc := qsum (map (fun i => i_coef i * s (VA (i_idx i))) infos).

Record tgood (b : builder) (ms : mipstate) (y : Z) (sc : Qc) (N : nat) (P : choice -> Prop) : Prop := {
  tg_mip : bd_mip b = Some ms;
  tg_drop : good (with_mip b (Some (dropms ms)) (bd_sol b)) (dropms ms) P;
  tg_head : m_rows (ms_mip ms) = score_row y sc (ms_infos ms) :: tl (m_rows (ms_mip ms));
  tg_count : forall r, In r (tl (m_rows (ms_mip ms))) -> plain_row (ms_infos ms) r ->
     counting (ms_infos ms) N r \/ exists i, In i (ms_infos ms) /\ (r = set_row (bd_kind b) i \/ r = pick_row i);
  tg_len : (length (ms_infos ms) <= N)%nat;
  tg_lb : forall i k q, In i (ms_infos ms) -> In (udecl i k q) (m_vars (ms_mip ms)) -> q = 0 \/ q = 1 }.

Lemma tg_shape b ms y sc N P : tgood b ms y sc N P -> shape (bd_kind b) (bd_cost b) (ms_infos ms) (ms_mip ms).
Proof.
  intros [T1 T2 T3 T4 T5 T6]. pose proof (gd_shape _ _ _ T2) as SH. cbn [with_mip bd_kind bd_cost dropms ms_infos ms_mip] in SH.
  destruct SH as [S1 S2 S3 S4 S5 S6 S7]. cbn [drop1 m_vars m_rows m_sos m_obj] in *. split; auto.
  - intros r Hr. rewrite T3 in Hr. destruct Hr as [<-|Hr]; [left; apply score_row_plain|auto].
  - intros i r Hi Hr. rewrite T3. right. eauto.
Qed.
Lemma tg_passes b ms y sc N P ch : tgood b ms y sc N P ->
  (passes (ms_infos ms) (ms_mip ms) ch <-> P ch /\ on_side y (sc + gain (ms_infos ms) ch)).
Proof.
  intro T. pose proof (gd_pass _ _ _ (tg_drop _ _ _ _ _ _ T) ch) as GP. pose proof (gd_wf _ _ _ (tg_drop _ _ _ _ _ _ T)) as HW.
  cbn [dropms ms_infos ms_mip] in GP, HW. rewrite <- GP. rewrite <- (score_row_ok (ms_infos ms) HW). unfold passes. cbn [drop1 m_rows m_vars]. split.
  - intros (Hc & HR & HB). split; [split; [exact Hc|split; [|exact HB]]|].
    + intros r Hr. apply HR. rewrite (tg_head _ _ _ _ _ _ T). now right.
    + apply HR; [rewrite (tg_head _ _ _ _ _ _ T); now left|apply score_row_plain].
  - intros ((Hc & HR & HB) & HS). split; [exact Hc|]. split; [|exact HB]. intros r Hr P0. rewrite (tg_head _ _ _ _ _ _ T) in Hr.
    destruct Hr as [<-|Hr]; [exact HS|auto].
Qed.
Lemma score_within d y sc infos s : row_within d s (score_row y sc infos) -> on_side_within d y (sc + sgain infos s).
Proof.
  unfold row_within, score_row, on_side_within, sgain. intros [H1 H2].
  assert (EV : eval s (map (fun i => (i_coef i, VA (i_idx i))) infos) = qsum (map (fun i => i_coef i * s (VA (i_idx i))) infos)) by apply eval_map_coef.
  destruct (0 <? y)%Z; [specialize (H1 _ eq_refl)|specialize (H2 _ eq_refl)]; cbn [row_ge row_le r_terms] in *; rewrite EV in *; qlra.
Qed.

Section Tol.
Context (d : Qc).
Lemma tol_passes b ms y sc N P s : tgood b ms y sc N P -> fine_infos d (ms_infos ms) -> d * qz (1 + Z.of_nat N) < 1 -> meets_within d (ms_mip ms) s ->
  let ch := ch_near (ms_infos ms) s in near_agree d (ms_infos ms) s ch /\ P ch /\ on_side_within d y (sc + sgain (ms_infos ms) s).
Proof.
  intros T HD HN HM ch. pose proof (gd_wf _ _ _ (tg_drop _ _ _ _ _ _ T)) as HW. cbn [dropms ms_infos] in HW.
  pose proof (tol_agree _ _ _ HW d HD _ _ (tg_shape _ _ _ _ _ _ T) HM) as NA. fold ch in NA. split; [exact NA|].
  destruct HM as (HV & HR & _). rewrite Forall_forall in HV, HR. split.
  - apply (gd_pass _ _ _ (tg_drop _ _ _ _ _ _ T) ch). cbn [dropms ms_infos ms_mip drop1]. unfold passes. cbn [m_rows m_vars]. split; [apply NA|]. split.
    + intros r Hr HP. destruct (tg_count _ _ _ _ _ _ T r Hr HP) as [C|(i & Hi & [->| ->])].
      * apply (counting_ok _ d HD s ch N r NA HN C). apply HR. rewrite (tg_head _ _ _ _ _ _ T). now right.
      * apply (set_row_ok _ _ ch (ms_infos ms) i (assign_agree _ _ HW (proj1 NA)) (wfi' _ HW i Hi) Hi).
      * apply row_ok_eq. apply (agree_pick (ms_infos ms) _ ch i (assign_agree _ _ HW (proj1 NA)) Hi).
    + intros i k q Hi Hk Hd. destruct (tg_lb _ _ _ _ _ _ T i k q Hi Hd) as [->| ->]; [apply bit_nonneg, hot_bit|].
      destruct (HV _ Hd) as (_ & Hlb & _). cbn in Hlb. destruct NA as [_ NA]. destruct (NA i Hi) as [NU _]. specialize (NU k Hk).
      pose proof (fine_half d _ i HW HD Hi) as F. pose proof two_halves as T2. apply qabs_le in NU. destruct NU as [N1 N2].
      destruct (hot_bit (ch (i_idx i)) k) as [E0|E0]; rewrite E0 in *; [exfalso; qlra|apply Qcle_refl].
  - apply score_within. apply HR. rewrite (tg_head _ _ _ _ _ _ T). now left.
Qed.

(** What one call of fit returns. *)
Definition titem (infos : list info) (n : nat) (a : assignment) (s : sol) : Prop := s_actions s = scatter n infos (fun i => a (VA (i_idx i))).
Lemma tfit sv b ms y sc N P : tgood b ms y sc N P -> fine_infos d (ms_infos ms) -> d * qz (1 + Z.of_nat N) < 1 -> solver_within d sv ->
  exists b' r o, fit sv b = Ok (b', r) /\ o = sv (bd_calls b) (ms_mip ms) /\ tgood b' ms y sc N P /\ same_settings b b' /\ bd_sol b' = Some o /\
    bd_calls b' = S (bd_calls b) /\
    match r with
    | None => conclusive o -> forall ch, P ch -> ~ on_side y (sc + gain (ms_infos ms) ch)
    | Some s => exists a g, (o = SOptimal a g \/ o = SFeasible a) /\ titem (ms_infos ms) (length (bd_w b)) a s /\
        near_agree d (ms_infos ms) a (ch_near (ms_infos ms) a) /\ P (ch_near (ms_infos ms) a) /\ on_side_within d y (sc + sgain (ms_infos ms) a) /\
        (conclusive o -> bd_cost b <> CMax -> forall ch, P ch -> on_side y (sc + gain (ms_infos ms) ch) -> s_cost s <= qsum (chosen_costs (ms_infos ms) ch) + d)
    end.
Proof.
  intros T HD HN HS. pose proof tg_passes as TP. pose proof (tg_shape _ _ _ _ _ _ T) as SH.
  pose proof (gd_wf _ _ _ (tg_drop _ _ _ _ _ _ T)) as HW. cbn [dropms ms_infos] in HW.
  unfold fit, solve_mip. rewrite (tg_mip _ _ _ _ _ _ T). cbn [bind].
  set (o := sv (bd_calls b) (ms_mip ms)). set (b' := with_mip (with_call b) (Some ms) (Some o)).
  assert (V : valid_within d (ms_mip ms) o) by apply HS.
  exists b', (solution_info (bd_kind b) (bd_cost b) (length (bd_w b)) ms o), o. split; [reflexivity|]. split; [reflexivity|]. split.
  { destruct T as [T1 T2 T3 T4 T5 T6]. split; auto. destruct T2 as [G1 G2 G3 G4 G5 G6]. split; auto. }
  split; [repeat split|]. split; [reflexivity|]. split; [reflexivity|].
  unfold solution_info. destruct (exposed (bd_kind b) o) as [a|] eqn:Ex.
  - assert (HO : exists g, o = SOptimal a g \/ o = SFeasible a).
    { unfold exposed in Ex. destruct (bd_kind b), o as [a' [|]|a'| |]; try discriminate Ex; injection Ex as ->;
      first [exists false; right; reflexivity|eexists; left; reflexivity]. }
    destruct HO as (g & HO). exists a, g. split; [exact HO|]. split.
    { unfold titem. cbn [s_actions]. rewrite <- (np_put_scatter _ _ _ (proj2 HW)). reflexivity. }
    assert (HM : meets_within d (ms_mip ms) a) by (destruct HO as [HO|HO]; rewrite HO in V; apply V).
    destruct (tol_passes b ms y sc N P a T HD HN HM) as (N1 & N2 & N3). split; [exact N1|]. split; [exact N2|]. split; [exact N3|].
    intros Hc Hct ch HP HSd. destruct HO as [HO|HO]; rewrite HO in *; [|destruct Hc]. destruct V as [_ V].
    destruct (proj2 (encode _ _ _ HW (ms_mip ms) ch SH) (proj2 (TP _ _ _ _ _ _ ch T) (conj HP HSd))) as [Hsat Hok].
    specialize (V _ Hsat). rewrite (objective_sum _ _ _ HW _ _ ch SH Hct (assign_agree _ _ HW Hok)) in V. cbn [s_cost]. destruct (bd_cost b); try exact V. congruence.
  - intros Hc ch HP HSd. unfold exposed in Ex. destruct o as [a' [|]|a'| |]; try destruct Hc; [destruct (bd_kind b); discriminate Ex|].
    cbn in V. apply (infeasible_choice _ _ _ HW _ SH V ch). apply (TP _ _ _ _ _ _ ch T). auto.
Qed.

(** Excluding an item: with a tolerance of at most [atol], the effect is that of the rounded point. *)
Lemma close_hot infos a ch i k : wf_infos infos -> fine_infos d infos -> d <= atol -> near_agree d infos a ch -> In i infos -> (k < nopt i)%nat ->
  isclose0 (a (VU (i_idx i) k)) = isclose0 (assign infos ch (VU (i_idx i) k)).
Proof.
  intros HW HD Ha [_ NA] Hi Hk. destruct (NA i Hi) as [NU _]. specialize (NU k Hk). cbn [assign]. unfold isclose0.
  pose proof (fine_half d _ i HW HD Hi) as F. pose proof two_halves as T2.
  destruct (hot_bit (ch (i_idx i)) k) as [E0|E0]; rewrite E0 in *.
  - replace (a (VU (i_idx i) k) - 0) with (a (VU (i_idx i) k)) in NU by ring. replace (qabs 0 <=? atol) with true by reflexivity. apply qle_iff. qlra.
  - replace (qabs 1 <=? atol) with false by reflexivity. apply not_true_is_false. intro H. apply qle_iff in H. apply qabs_le in H, NU. destruct H, NU.
    assert (atol < half) by reflexivity. qlra.
Qed.
Lemma drop_set_lower v q m : drop1 (set_lower v q m) = set_lower v q (drop1 m).
Proof. reflexivity. Qed.
Lemma drop_lower_all l : forall m, drop1 (fold_left (fun m v => set_lower v 1 m) l m) = fold_left (fun m v => set_lower v 1 m) l (drop1 m).
Proof. induction l as [|v l IH]; intro m; [reflexivity|]. cbn [fold_left]. now rewrite IH, drop_set_lower. Qed.
Lemma rows_lower_all l : forall m, m_rows (fold_left (fun m v => set_lower v 1 m) l m) = m_rows m.
Proof. induction l as [|v l IH]; intro m; [reflexivity|]. cbn [fold_left]. now rewrite IH. Qed.
Lemma lb_lower_all infos l : forall m, (forall i k q, In i infos -> In (udecl i k q) (m_vars m) -> q = 0 \/ q = 1) ->
  forall i k q, In i infos -> In (udecl i k q) (m_vars (fold_left (fun m v => set_lower v 1 m) l m)) -> q = 0 \/ q = 1.
Proof.
  induction l as [|v l IH]; intros m H; [exact H|]. cbn [fold_left]. apply IH. intros i k q Hi Hd. apply set_lower_vars in Hd.
  destruct Hd as (d0 & H0 & E0). destruct (mvar_eqb (v_var d0) v).
  - right. exact (f_equal v_lb E0).
  - apply (H i k q Hi). now rewrite E0.
Qed.

Lemma tremove et b ms y sc N P a g : tgood b ms y sc N P -> fine_infos d (ms_infos ms) -> d <= atol ->
  (bd_sol b = Some (SOptimal a g) \/ bd_sol b = Some (SFeasible a)) -> forall ch, near_agree d (ms_infos ms) a ch ->
  exists b' ms', remove_solution et b = Ok b' /\ ms_infos ms' = ms_infos ms /\ same_settings b b' /\ bd_calls b' = bd_calls b /\
    tgood b' ms' y sc N (fun ch' => P ch' /\ excl et (bd_kind b) (ms_infos ms) ch ch').
Proof.
  intros T HD Ha HS ch NA. pose proof T as T'. destruct T as [T1 T2 T3 T4 T5 T6].
  pose proof (gd_wf _ _ _ T2) as HW. cbn [dropms ms_infos] in HW.
  set (a0 := assign (ms_infos ms) ch). set (b2 := with_mip b (Some (dropms ms)) (Some (SFeasible a0))).
  assert (G2 : good b2 (dropms ms) P) by (destruct T2 as [G1 G2 G3 G4 G5 G6]; split; auto).
  destruct (remove_spec et b2 (dropms ms) P a0 g G2 (or_intror eq_refl) ch (assign_agree _ _ HW (proj1 NA))) as (b3 & ms3 & R3 & I3 & SS3 & C3 & G3).
  pose proof (gd_mip _ _ _ G3) as M3. cbn [dropms ms_infos] in I3.
  assert (HC : forall v, In v (map off_var (ms_infos ms)) \/ In v (map null_var (ms_infos ms)) -> isclose0 (a v) = isclose0 (a0 v)).
  { intros v Hv. assert (exists i k, In i (ms_infos ms) /\ (k < nopt i)%nat /\ v = VU (i_idx i) k) as (i & k & Hi & Hk & ->).
    { destruct Hv as [Hv|Hv]; apply in_map_iff in Hv; destruct Hv as (i & <- & Hi); exists i; eexists; (split; [exact Hi|split; [|reflexivity]]);
      [pose proof (wi_len _ (wfi' _ HW i Hi)); lia|apply (wi_null _ (wfi' _ HW i Hi))]. }
    apply (close_hot (ms_infos ms) a ch i k HW HD Ha NA Hi Hk). }
  destruct et.
  - (* mutually exclusive *)
    set (on := filter (fun v => isclose0 (a v)) (map off_var (ms_infos ms))).
    assert (EO : on = filter (fun v => isclose0 (a0 v)) (map off_var (ms_infos ms))) by (apply filter_ext_in; intros v Hv; apply HC; now left).
    set (ms' := {| ms_mip := fold_left (fun m v => set_lower v 1 m) on (ms_mip ms); ms_infos := ms_infos ms |}).
    exists (with_mip b (Some ms') (bd_sol b)), ms'. split.
    { cbn [remove_solution]. unfold remove_all_features, with_solution. rewrite T1. destruct HS as [-> | ->]; reflexivity. }
    split; [reflexivity|]. split; [repeat split|]. split; [reflexivity|].
    assert (E3 : b3 = with_mip b2 (Some (dropms ms')) (bd_sol b2) /\ ms3 = dropms ms').
    { cbn [remove_solution] in R3. unfold remove_all_features, with_solution in R3. cbn [b2 with_mip bd_mip bd_sol dropms ms_mip ms_infos] in R3.
      rewrite <- EO in R3. injection R3 as <-. cbn [with_mip bd_mip] in M3. injection M3 as <-. unfold ms', dropms. cbn [ms_mip ms_infos]. rewrite drop_lower_all. split; reflexivity. }
    destruct E3 as [-> ->]. constructor.
    + reflexivity.
    + destruct G3 as [A1 A2 A3 A4 A5 A6]. split; auto.
    + cbn [ms' ms_mip ms_infos]. rewrite rows_lower_all. exact T3.
    + cbn [ms' ms_mip ms_infos]. rewrite rows_lower_all. exact T4.
    + exact T5.
    + cbn [ms' ms_mip ms_infos]. intros i k q. apply lb_lower_all. exact T6.
  - (* distinct subsets *)
    set (r := exclusion_row (excl_vars (bd_kind b) (ms_infos ms)) a).
    assert (HE : forall v, In v (excl_vars (bd_kind b) (ms_infos ms)) -> isclose0 (a v) = isclose0 (a0 v)) by (intros v Hv; apply HC; unfold excl_vars in Hv; destruct (bd_kind b); auto).
    assert (ER : r = exclusion_row (excl_vars (bd_kind b) (ms_infos ms)) a0).
    { unfold r, exclusion_row. f_equal; [apply map_ext_in; intros v Hv; now rewrite (HE v Hv)|].
      do 4 f_equal. apply filter_ext_in. intros v Hv. now rewrite (HE v Hv). }
    set (ms' := {| ms_mip := add_row r (ms_mip ms); ms_infos := ms_infos ms |}).
    exists (with_mip b (Some ms') (bd_sol b)), ms'. split.
    { cbn [remove_solution]. unfold remove_feature_combination, with_solution. rewrite T1. destruct HS as [-> | ->]; reflexivity. }
    split; [reflexivity|]. split; [repeat split|]. split; [reflexivity|].
    assert (TL : tl (m_rows (ms_mip ms) ++ [r]) = tl (m_rows (ms_mip ms)) ++ [r]) by (rewrite T3; reflexivity).
    assert (E3 : b3 = with_mip b2 (Some (dropms ms')) (bd_sol b2) /\ ms3 = dropms ms').
    { cbn [remove_solution] in R3. unfold remove_feature_combination, with_solution in R3. cbn [b2 with_mip bd_mip bd_sol bd_kind dropms ms_mip ms_infos] in R3.
      rewrite <- ER in R3. injection R3 as <-. cbn [with_mip bd_mip] in M3. injection M3 as <-. unfold ms', dropms, drop1, add_row. cbn [ms_mip ms_infos m_rows m_vars m_sos m_obj].
      rewrite TL. split; reflexivity. }
    destruct E3 as [-> ->]. constructor.
    + reflexivity.
    + destruct G3 as [A1 A2 A3 A4 A5 A6]. split; auto.
    + cbn [ms' ms_mip ms_infos add_row m_rows]. rewrite T3 at 1. rewrite TL. reflexivity.
    + cbn [ms' ms_mip ms_infos add_row m_rows]. rewrite TL. intros r' Hr' P'. apply in_app_or in Hr'. destruct Hr' as [Hr'|[<-|[]]]; [auto|left].
      unfold r, exclusion_row, counting. cbn [row_le r_terms r_lo r_hi]. split; [|split; [|split]].
      * rewrite map_length. unfold excl_vars. destruct (bd_kind b); rewrite map_length; exact T5.
      * intros c v Hin. apply in_map_iff in Hin. destruct Hin as (v0 & E0 & Hv). apply pair_equal_spec in E0. destruct E0 as [<- ->].
        split; [destruct (isclose0 (a v)); auto|].
        unfold excl_vars in Hv. destruct (bd_kind b); apply in_map_iff in Hv; destruct Hv as (i & <- & Hi); exists i; eexists; (split; [exact Hi|split; [|reflexivity]]);
          [apply (wi_null _ (wfi' _ HW i Hi))|pose proof (wi_len _ (wfi' _ HW i Hi)); lia].
      * intros q Hq. discriminate Hq.
      * intros q Hq. injection Hq as <-. eauto.
    + exact T5.
    + exact T6.
Qed.
End Tol.
