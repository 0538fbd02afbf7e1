(** What a freshly built MIP accepts, in terms of choices of one option per feature. *)
From Verif Require Import Proofs_props_element Proofs_props_actionset Spec_recourse Proofs_mip Proofs_info Proofs_vec.
#[local] Open Scope list_scope.
#[local] Open Scope Qc_scope.

Definition moved (ch : choice) (i : info) : bool := negb (Nat.eqb (ch (i_idx i)) 0).
Definition size_ch (infos : list info) (ch : choice) : nat := length (filter (moved ch) infos).
Definition gain (infos : list info) (ch : choice) : Qc := qsum (map (fun i => i_coef i * act i (ch (i_idx i))) infos).
Definition lit (ch : choice) (i : info) : bool := negb (Nat.eqb (ch (i_idx i)) (i_knull i)).
Definition subset_ok (infos : list info) (ch : choice) (c : slc) : Prop :=
  exists l, Forall2 (fun j i => nth_error infos j = Some i) (c_indices c) l /\
    (c_lb c <= Z.of_nat (length (filter (lit ch) l)) <= c_ub c)%Z.
Definition accept (A : action_set) (w : list Qc) (t : Qc) (lo hi : Z) (x : list Qc) (infos : list info) (ch : choice) : Prop :=
  ch_ok infos ch /\ on_side (as_y A) (dot w x + t + gain infos ch) /\
  (Z.max lo 1 <= Z.of_nat (size_ch infos ch) <= hi)%Z /\
  Forall (fun p => subset_ok infos ch (snd p)) (r_cons (as_cons A)).

Lemma count_compl {A} (p : A -> bool) l : (Z.of_nat (length (filter p l)) + Z.of_nat (length (filter (fun a => negb (p a)) l)) = Z.of_nat (length l))%Z.
Proof. induction l as [|a l IH]; [reflexivity|]. cbn [filter]. destruct (p a); cbn [length negb]; lia. Qed.
Lemma qsum_hot_count (infos : list info) (ch : choice) (k : info -> nat) l :
  qsum (map (assign infos ch) (map (fun i => VU (i_idx i) (k i)) l)) =
  qz (Z.of_nat (length l) - Z.of_nat (length (filter (fun i => negb (Nat.eqb (ch (i_idx i)) (k i))) l))).
Proof.
  rewrite map_map. rewrite <- (count_compl (fun i => Nat.eqb (ch (i_idx i)) (k i)) l).
  rewrite Z.add_simpl_r, count_qsum. f_equal. apply map_ext. intro i. cbn. unfold hot, onez. now rewrite Nat.eqb_sym.
Qed.

Section Rows.
Context (infos : list info) (W : wf_infos infos).
Implicit Types (ch : choice).
Lemma wfi' i : In i infos -> wf_info i.
Proof. apply (proj1 (Forall_forall _ _) (proj1 W)). Qed.
Lemma assign_act ch i : In i infos -> assign infos ch (VA (i_idx i)) = act i (ch (i_idx i)).
Proof. intro Hi. cbn. now rewrite (info_at_In _ _ (proj2 W) Hi). Qed.

Lemma score_row_plain y sc : plain_row infos (score_row y sc infos).
Proof.
  intros c v Hin. unfold score_row in Hin. assert (H : In (c, v) (map (fun i => (i_coef i, VA (i_idx i))) infos)) by (destruct (0 <? y)%Z; exact Hin).
  apply in_map_iff in H. destruct H as (i & E1 & Hi). apply pair_equal_spec in E1. destruct E1 as [_ <-]. exists i. auto.
Qed.
Lemma score_row_ok y sc ch : row_ok (assign infos ch) (score_row y sc infos) = true <-> on_side y (sc + gain infos ch).
Proof.
  assert (E : eval (assign infos ch) (map (fun i => (i_coef i, VA (i_idx i))) infos) = gain infos ch).
  { rewrite eval_map_coef. unfold gain. f_equal. apply map_ext_in. intros i Hi. now rewrite assign_act. }
  unfold score_row, on_side. destruct (0 <? y)%Z; [rewrite row_ok_ge|rewrite row_ok_le]; rewrite E; split; intro; qlra.
Qed.
Lemma off_plain c v : In (c, v) (sum_of (map off_var infos)) -> plain_var infos v.
Proof.
  unfold sum_of. rewrite map_map. intro H. apply in_map_iff in H. destruct H as (i & E1 & Hi). apply pair_equal_spec in E1. destruct E1 as [_ <-].
  exists i. split; [exact Hi|]. right. exists 0%nat. split; [|reflexivity]. pose proof (wi_len _ (wfi' i Hi)). lia.
Qed.
Lemma off_eval ch : eval (assign infos ch) (sum_of (map off_var infos)) = qz (Z.of_nat (length infos) - Z.of_nat (size_ch infos ch)).
Proof. rewrite eval_sum_of. unfold off_var. now rewrite (qsum_hot_count infos ch (fun _ => 0%nat) infos). Qed.
Lemma max_row_ok hi ch : row_ok (assign infos ch) (max_items_row hi infos) = true <-> (Z.of_nat (size_ch infos ch) <= hi)%Z.
Proof. unfold max_items_row. rewrite row_ok_ge, off_eval, qz_le. lia. Qed.
Lemma min_row_ok lo ch : row_ok (assign infos ch) (min_items_row lo infos) = true <-> (Z.max lo 1 <= Z.of_nat (size_ch infos ch))%Z.
Proof. unfold min_items_row. rewrite row_ok_le, off_eval, qz_le. lia. Qed.

Lemma null_vars_spec js vs : mapM (fun j => of_option IndexError (nth_error (map null_var infos) j)) js = Ok vs ->
  exists l, Forall2 (fun j i => nth_error infos j = Some i) js l /\ vs = map null_var l.
Proof.
  intro H. apply mapM_ok in H. induction H as [|j v js vs H1 H2 (l & IH1 & IH2)]; [exists []; split; [constructor|reflexivity]|].
  rewrite nth_error_map in H1. destruct (nth_error infos j) as [i|] eqn:Ei; [|discriminate H1]. cbn in H1. injection H1 as <-.
  exists (i :: l). split; [now constructor|]. cbn. now rewrite IH2.
Qed.
Lemma Forall2_nth_In (js : list nat) (l : list info) i : Forall2 (fun j i => nth_error infos j = Some i) js l -> In i l -> In i infos.
Proof. induction 1 as [|j i' js l H1 H2 IH]; [intros []|]. intros [<-|Hin]; [eapply nth_error_In, H1|auto]. Qed.

Lemma subset_rows_plain k p c rs r : subset_rows k infos (p, c) = Ok rs -> In r rs -> plain_row infos r.
Proof.
  intros H Hr. unfold subset_rows in H. bnd H as vs Hvs. destruct (null_vars_spec _ _ Hvs) as (l & Hl & ->).
  assert (P : forall c0 v, In (c0, v) (neg_sum_of (map null_var l)) -> plain_var infos v).
  { intros c0 v Hin. unfold neg_sum_of in Hin. rewrite map_map in Hin. apply in_map_iff in Hin. destruct Hin as (i & E1 & Hi).
    apply pair_equal_spec in E1. destruct E1 as [_ <-]. pose proof (Forall2_nth_In _ _ _ Hl Hi) as Hi'. exists i. split; [exact Hi'|]. right.
    exists (i_knull i). split; [apply (wi_null _ (wfi' i Hi'))|reflexivity]. }
  destruct k; injection H as <-; [destruct Hr as [<-|[]]|destruct Hr as [<-|[<-|[]]]]; exact P.
Qed.
Lemma subset_rows_ok k p c rs ch : subset_rows k infos (p, c) = Ok rs ->
  ((forall r, In r rs -> row_ok (assign infos ch) r = true) <-> subset_ok infos ch c).
Proof.
  intros H. unfold subset_rows in H. bnd H as vs Hvs. destruct (null_vars_spec _ _ Hvs) as (l & Hl & ->).
  set (q := Z.of_nat (length (filter (lit ch) l))).
  assert (EV : eval (assign infos ch) (neg_sum_of (map null_var l)) = qz (q - Z.of_nat (length (c_indices c)))).
  { rewrite eval_neg_sum_of. unfold null_var. rewrite (qsum_hot_count infos ch i_knull l), <- qz_opp, (Forall2_length _ _ _ Hl). f_equal. unfold q, lit. lia. }
  assert (SO : subset_ok infos ch c <-> (c_lb c <= q <= c_ub c)%Z).
  { split; [|intro Hq; exists l; auto]. intros (l' & Hl' & Hq). assert (l' = l); [|subst l'; exact Hq].
    clear - Hl Hl'. revert l' Hl'. induction Hl as [|j i js l H1 H2 IH]; intros l' Hl'; inversion Hl'; subst; [reflexivity|].
    f_equal; [congruence|auto]. }
  rewrite SO. destruct k; injection H as <-.
  - split.
    + intro HR. specialize (HR _ (or_introl eq_refl)). apply row_ok_rng in HR. rewrite EV, <- qz_plus, !qz_le in HR. lia.
    + intros Hq r [<-|[]]. apply row_ok_rng. rewrite EV, <- qz_plus, !qz_le. lia.
  - split.
    + intro HR. pose proof (HR _ (or_introl eq_refl)) as R1. pose proof (HR _ (or_intror (or_introl eq_refl))) as R2.
      apply row_ok_ge in R1. apply row_ok_le in R2. rewrite EV, <- qz_minus, qz_le in R1, R2. lia.
    + intros Hq r [<-|[<-|[]]]; [apply row_ok_ge|apply row_ok_le]; rewrite EV, <- qz_minus, qz_le; lia.
Qed.
Lemma set_row_plain k i : In i infos -> plain_row infos (set_row k i).
Proof.
  intros Hi c v Hin. assert (H : v = VA (i_idx i) \/ In (c, v) (combine (i_actions i) (uvars i))).
  { destruct k; cbn in Hin; [destruct Hin as [E1|Hin]; [apply pair_equal_spec in E1; left; symmetry; apply E1|now right]|].
    apply in_app_or in Hin. destruct Hin as [Hin|[E1|[]]]; [now right|]. apply pair_equal_spec in E1; left; symmetry; apply E1. }
  exists i. split; [exact Hi|]. destruct H as [->|H]; [now left|]. right. apply in_combine_r in H. unfold uvars in H.
  apply in_map_iff in H. destruct H as (k' & <- & Hk). apply in_seq in Hk. exists k'. split; [unfold nopt; lia|reflexivity].
Qed.
Lemma pick_row_plain i : In i infos -> plain_row infos (pick_row i).
Proof.
  intros Hi c v Hin. cbn in Hin. unfold sum_of in Hin. apply in_map_iff in Hin. destruct Hin as (v' & E1 & Hv).
  apply pair_equal_spec in E1. destruct E1 as [_ <-]. unfold uvars in Hv. apply in_map_iff in Hv. destruct Hv as (k' & <- & Hk). apply in_seq in Hk.
  exists i. split; [exact Hi|]. right. exists k'. split; [unfold nopt; lia|reflexivity].
Qed.
Lemma not_plain_cost k i : ~ plain_row infos (def_cost_row k i) /\ ~ plain_row infos (set_max_row i).
Proof.
  split; intro P.
  - destruct k; destruct (P _ _ (or_introl eq_refl)) as (i' & _ & [E1|(q & _ & E1)]); discriminate E1.
  - destruct (P _ _ (or_introl eq_refl)) as (i' & _ & [E1|(q & _ & E1)]); discriminate E1.
Qed.
End Rows.

(** ** The whole program *)
Definition mip_bounded (infos : list info) (m : mip) : Prop :=
  forall i k b, In i infos -> In (udecl i k b) (m_vars m) -> b <= 1.

Lemma In_uvars_decl infos d : In d (map uvar_decl (flat_map uvars infos)) -> exists i k, In i infos /\ (k < nopt i)%nat /\ d = udecl i k 0.
Proof.
  intro H. apply in_map_iff in H. destruct H as (v & <- & Hv). apply in_flat_map in Hv. destruct Hv as (i & Hi & Hv).
  unfold uvars in Hv. apply in_map_iff in Hv. destruct Hv as (k & <- & Hk). apply in_seq in Hk. exists i, k.
  split; [exact Hi|]. split; [unfold nopt; lia|reflexivity].
Qed.
Lemma uvars_decl_In infos i k : In i infos -> (k < nopt i)%nat -> In (udecl i k 0) (map uvar_decl (flat_map uvars infos)).
Proof.
  intros Hi Hk. change (udecl i k 0) with (uvar_decl (VU (i_idx i) k)). apply in_map. apply in_flat_map. exists i. split; [exact Hi|].
  unfold uvars. apply in_map. apply in_seq. unfold nopt in Hk. lia.
Qed.

Definition base_rows (k : backend) (A : action_set) (w : list Qc) (t : Qc) (lo hi : Z) (x : list Qc) (infos : list info) (subs : list (list row)) : list row :=
  score_row (as_y A) (dot w x + t) infos :: flat_map (fun i => [set_row k i; pick_row i]) infos
              ++ [max_items_row hi infos; min_items_row lo infos] ++ concat subs.
Lemma In_base_rows k A w t lo hi x infos subs r : In r (base_rows k A w t lo hi x infos subs) <->
  r = score_row (as_y A) (dot w x + t) infos \/ (exists i, In i infos /\ (r = set_row k i \/ r = pick_row i)) \/
  r = max_items_row hi infos \/ r = min_items_row lo infos \/ exists rs, In rs subs /\ In r rs.
Proof.
  unfold base_rows. cbn [In]. rewrite !in_app_iff, in_flat_map, in_concat. cbn [In]. split.
  - intros [H|[(i & Hi & [H|[H|[]]])|[[H|[H|[]]]|H]]]; auto 10; right; left; exists i; auto.
  - intros [H|[(i & Hi & [H|H])|[H|[H|H]]]]; auto 10; right; left; exists i; split; auto; cbn; auto.
Qed.

Lemma build_inv E k A ct w t lo hi x ms : build E k A ct w t lo hi x = Ok ms ->
  exists subs, get_build_info E A ct w x = Ok (ms_infos ms) /\
    mapM (subset_rows k (ms_infos ms)) (combine (seq 0 (length (r_cons (as_cons A)))) (map snd (r_cons (as_cons A)))) = Ok subs /\
    m_obj (ms_mip ms) = obj_of ct (ms_infos ms) /\ m_sos (ms_mip ms) = map uvars (ms_infos ms) /\
    m_vars (ms_mip ms) = map avar_decl (ms_infos ms) ++ map uvar_decl (flat_map uvars (ms_infos ms)) ++
       (match ct with CMax => map cvar_decl (VMax :: map (fun i => VC (i_idx i)) (ms_infos ms)) | _ => [] end) /\
    m_rows (ms_mip ms) = base_rows k A w t lo hi x (ms_infos ms) subs ++
       (match ct with CMax => flat_map (fun i => [def_cost_row k i; set_max_row i]) (ms_infos ms) | _ => [] end) /\
    (ct <> CMax -> ms_infos ms <> []).
Proof.
  unfold build. intro H. bnd H as infos Hi. bnd H as subs Hs. exists subs. cbv zeta in H.
  destruct ct.
  1,2: bnd H as u Hu; injection H as <-; cbn [ms_infos ms_mip m_obj m_sos m_vars m_rows]; rewrite !app_nil_r;
    (repeat split; auto); intros _ ->; discriminate Hu.
  injection H as <-. cbn [ms_infos ms_mip m_obj m_sos m_vars m_rows]. rewrite <- !app_assoc. repeat split; auto.
  unfold base_rows. cbn [app]. now rewrite <- !app_assoc.
Qed.

Lemma build_shape E k A ct w t lo hi x ms : wf_infos (ms_infos ms) -> build E k A ct w t lo hi x = Ok ms ->
  shape k ct (ms_infos ms) (ms_mip ms) /\ mip_bounded (ms_infos ms) (ms_mip ms) /\
  forall ch, passes (ms_infos ms) (ms_mip ms) ch <-> accept A w t lo hi x (ms_infos ms) ch.
Proof.
  intros HW H. destruct (build_inv _ _ _ _ _ _ _ _ _ _ H) as (subs & HI & HS & HO & Hsos & HV & HR & HNe).
  set (infos := ms_infos ms) in *. set (m := ms_mip ms) in *. clearbody m infos. clear H ms.
  apply mapM_ok in HS.
  assert (HSub : forall rs, In rs subs -> exists p c, In c (map snd (r_cons (as_cons A))) /\ subset_rows k infos (p, c) = Ok rs).
  { intros rs Hrs. apply In_nth_error in Hrs. destruct Hrs as (q & Hq). apply Forall2_nth in HS. destruct HS as [HL HN].
    match type of HL with length ?l = _ => destruct (nth_error l q) as [[p c]|] eqn:Ep end.
    2:{ apply nth_error_None in Ep. assert (q < length subs)%nat by (apply nth_error_Some; congruence). lia. }
    specialize (HN _ _ _ Ep Hq). exists p, c. split; [|exact HN]. apply nth_error_In in Ep. eapply in_combine_r, Ep. }
  assert (HSub2 : forall c, In c (map snd (r_cons (as_cons A))) -> exists p rs, In rs subs /\ subset_rows k infos (p, c) = Ok rs).
  { intros c Hc. apply In_nth_error in Hc. destruct Hc as (q & Hq).
    assert (Lq : (q < length (r_cons (as_cons A)))%nat) by (rewrite <- (map_length snd); apply nth_error_Some; congruence).
    assert (Ep : nth_error (combine (seq 0 (length (r_cons (as_cons A)))) (map snd (r_cons (as_cons A)))) q = Some (q, c)).
    { apply nth_error_nth with (d := c) in Hq. rewrite (nth_error_nth' _ (0%nat, c)).
      - rewrite combine_nth by (now rewrite seq_length, map_length). rewrite seq_nth by exact Lq. now rewrite Hq.
      - rewrite combine_length, seq_length, map_length. lia. }
    apply Forall2_nth in HS. destruct HS as [HL HN]. destruct (nth_error subs q) as [rs|] eqn:Er.
    - exists q, rs. split; [eapply nth_error_In, Er|]. exact (HN _ _ _ Ep Er).
    - apply nth_error_None in Er. assert (q < length (combine (seq 0 (length (r_cons (as_cons A)))) (map snd (r_cons (as_cons A)))))%nat by (apply nth_error_Some; congruence).
      lia. }
  assert (HB : mip_bounded infos m).
  { intros i q b Hi Hd. rewrite HV in Hd. rewrite !in_app_iff in Hd. destruct Hd as [Hd|[Hd|Hd]].
    - apply in_map_iff in Hd. destruct Hd as (i' & E1 & _). apply (f_equal v_bin) in E1. discriminate E1.
    - apply In_uvars_decl in Hd. destruct Hd as (i' & q' & _ & _ & E1). apply (f_equal v_lb) in E1. cbn in E1. rewrite E1. discriminate.
    - destruct ct; [destruct Hd|destruct Hd|]. apply in_map_iff in Hd. destruct Hd as (v & E1 & _). apply (f_equal v_bin) in E1. discriminate E1. }
  assert (SH : shape k ct infos m).
  { split.
    - intros d Hd. rewrite HV in Hd. rewrite !in_app_iff in Hd. destruct Hd as [Hd|[Hd|Hd]].
      + left. apply in_map_iff in Hd. destruct Hd as (i & <- & Hi). eauto.
      + right. left. apply In_uvars_decl in Hd. destruct Hd as (i & q & Hi & Hk & ->). eauto 10.
      + right. right. destruct ct; [destruct Hd|destruct Hd|]. split; [reflexivity|]. cbn [map In] in Hd. destruct Hd as [<-|Hd]; [now left|right].
        rewrite map_map in Hd. apply in_map_iff in Hd. destruct Hd as (i & <- & Hi). eauto.
    - intros i q Hi Hk. exists 0. rewrite HV, !in_app_iff. right. left. now apply uvars_decl_In.
    - intros ->. rewrite HV, !in_app_iff. right. right. now left.
    - intros r Hr. rewrite HR in Hr. apply in_app_or in Hr. destruct Hr as [Hr|Hr].
      + apply In_base_rows in Hr. destruct Hr as [->|[(i & Hi & [->| ->])|[->|[->|(rs & Hrs & Hr)]]]].
        * left. apply score_row_plain.
        * right. exists i. split; [exact Hi|]. now left.
        * right. exists i. split; [exact Hi|]. right. now left.
        * left. intros c v Hin. eapply off_plain; eauto.
        * left. intros c v Hin. eapply off_plain; eauto.
        * left. destruct (HSub _ Hrs) as (p & c & _ & Hsr). eapply subset_rows_plain; eauto.
      + right. destruct ct; [destruct Hr|destruct Hr|]. apply in_flat_map in Hr. destruct Hr as (i & Hi & Hr). exists i. split; [exact Hi|].
        right. right. split; [reflexivity|]. destruct Hr as [<-|[<-|[]]]; auto.
    - intros i r Hi [->|[->|(-> & Hr)]]; rewrite HR; apply in_or_app.
      + left. apply In_base_rows. eauto 10.
      + left. apply In_base_rows. eauto 10.
      + right. apply in_flat_map. exists i. split; [exact Hi|]. destruct Hr as [->| ->]; cbn; auto.
    - exact Hsos.
    - exact HO. }
  split; [exact SH|]. split; [exact HB|]. intro ch. split.
  - intros (Hc & HP & _).
    assert (RB : forall r, In r (base_rows k A w t lo hi x infos subs) -> plain_row infos r -> row_ok (assign infos ch) r = true).
    { intros r Hr. apply HP. rewrite HR. apply in_or_app. now left. }
    split; [exact Hc|]. split; [|split; [split|]].
    + apply (score_row_ok infos HW). apply RB; [apply In_base_rows; now left|apply score_row_plain].
    + apply (min_row_ok infos). apply RB; [apply In_base_rows; auto 10|]. intros c v Hin. eapply off_plain; eauto.
    + apply (max_row_ok infos). apply RB; [apply In_base_rows; auto 10|]. intros c v Hin. eapply off_plain; eauto.
    + rewrite Forall_forall. intros pc Hpc. destruct (HSub2 (snd pc)) as (p & rs & Hrs & Hsr); [now apply in_map|].
      apply (subset_rows_ok infos _ _ _ _ _ Hsr). intros r Hr. apply RB; [apply In_base_rows; right; right; right; right; eauto|].
      eapply subset_rows_plain; eauto.
  - intros (Hc & HSc & [Hmin Hmax] & HSb). split; [exact Hc|]. split.
    + intros r Hr P. rewrite HR in Hr. apply in_app_or in Hr. destruct Hr as [Hr|Hr].
      * apply In_base_rows in Hr. destruct Hr as [->|[(i & Hi & [->| ->])|[->|[->|(rs & Hrs & Hr)]]]].
        -- now apply (score_row_ok infos HW).
        -- apply (set_row_ok k _ ch infos i (assign_agree _ _ HW Hc) (wfi' infos HW i Hi) Hi).
        -- apply row_ok_eq. apply (agree_pick infos _ ch i (assign_agree _ _ HW Hc) Hi).
        -- now apply max_row_ok.
        -- now apply min_row_ok.
        -- destruct (HSub _ Hrs) as (p & c & Hin & Hsr). apply (subset_rows_ok infos _ _ _ _ _ Hsr); [|exact Hr].
           apply in_map_iff in Hin. destruct Hin as (pc & <- & Hpc). rewrite Forall_forall in HSb. now apply HSb.
      * exfalso. destruct ct; [destruct Hr|destruct Hr|]. apply in_flat_map in Hr. destruct Hr as (i & Hi & [<-|[<-|[]]]); revert P; apply (not_plain_cost infos k i).
    + intros i q b Hi Hk Hd. rewrite HV, !in_app_iff in Hd. destruct Hd as [Hd|[Hd|Hd]].
      * apply in_map_iff in Hd. destruct Hd as (i' & E1 & _). apply (f_equal v_bin) in E1. discriminate E1.
      * apply In_uvars_decl in Hd. destruct Hd as (i' & q' & _ & _ & E1). apply (f_equal v_lb) in E1. cbn in E1. rewrite E1. apply bit_nonneg, hot_bit.
      * destruct ct; [destruct Hd|destruct Hd|]. apply in_map_iff in Hd. destruct Hd as (v & E1 & _). apply (f_equal v_bin) in E1. discriminate E1.
Qed.
