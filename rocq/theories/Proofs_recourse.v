(** What the items returned by fit and populate mean for the individual; certificates. *)
From Verif Require Import Proofs_props_element Proofs_props_actionset Spec_recourse Proofs_mip Proofs_info Proofs_vec Proofs_build Proofs_enum Proofs_session.
#[local] Open Scope list_scope.
#[local] Open Scope Qc_scope.

Lemma info_ok_at E A ct w x infos i : Forall (info_ok E A ct w x) infos -> In i infos -> info_ok E A ct w x i.
Proof. intros H Hi. rewrite Forall_forall in H. now apply H. Qed.

Lemma size_pos infos ch : (1 <= Z.of_nat (size_ch infos ch))%Z -> exists i, In i infos /\ moved ch i = true.
Proof.
  unfold size_ch. destruct (filter (moved ch) infos) as [|i l] eqn:Ef; cbn [length]; [lia|]. intros _. exists i.
  assert (H : In i (filter (moved ch) infos)) by (rewrite Ef; now left). now apply filter_In in H.
Qed.
Lemma chosen_nonneg infos (HW : wf_infos infos) ch c : ch_ok infos ch -> In c (chosen_costs infos ch) -> 0 <= c.
Proof. intros Hc H. apply in_map_iff in H. destruct H as (i & <- & Hi). apply (cst_nonneg infos HW i _ Hi (Hc i Hi)). Qed.
Lemma moved_cost_pos infos (HW : wf_infos infos) ch i : ch_ok infos ch -> In i infos -> moved ch i = true -> 0 < cst i (ch (i_idx i)).
Proof.
  intros Hc Hi Hm. apply (wi_pos _ (wfi' _ HW i Hi)). unfold moved in Hm. apply negb_true_iff, Nat.eqb_neq in Hm. specialize (Hc i Hi). lia.
Qed.
Lemma qsum_pos l c : (forall v, In v l -> 0 <= v) -> In c l -> c <= qsum l.
Proof.
  induction l as [|a l IH]; [intros _ []|]. intros H [<-|Hin]; cbn.
  - assert (0 <= qsum l) by (apply qsum_nonneg; rewrite Forall_forall; intros; apply H; now right). qlra.
  - specialize (IH (fun v Hv => H v (or_intror Hv)) Hin). pose proof (H a (or_introl eq_refl)). qlra.
Qed.
Lemma qmaxl_In l d : qmaxl l d = d \/ In (qmaxl l d) l.
Proof.
  induction l as [|a l IH]; [now left|]. cbn [qmaxl]. unfold qmax. destruct (qle a (qmaxl l d)); [|right; now left].
  destruct IH as [IH|IH]; [now left|right; now right].
Qed.
Section Items.
Context (E : env) (A : action_set) (ct : cost_type) (w x : list Qc) (infos : list info) (n : nat).
Context (HW : wf_infos infos) (HF : Forall (info_ok E A ct w x) infos) (Hn : n = as_len A) (HL : length (as_elems A) = n)
        (Hw : length w = n) (Hx : length x = n).
Lemma idx_lt i : In i infos -> (i_idx i < n)%nat.
Proof.
  intro Hi. destruct (info_ok_at _ _ _ _ _ _ _ HF Hi) as (e & xj & HE). rewrite <- HL. apply nth_error_Some. rewrite (en_elem _ _ _ _ _ _ _ _ HE). congruence.
Qed.
Lemma act_zero i k : In i infos -> (k < nopt i)%nat -> (act i k = 0 <-> k = 0%nat).
Proof.
  intros Hi Hk. pose proof (wfi' _ HW i Hi) as Wi. split.
  - intro H. destruct k as [|k]; [reflexivity|]. exfalso. apply (wi_pos _ Wi (S k)); [lia|exact H].
  - intros ->. apply (wi_a0 _ Wi).
Qed.
Lemma moved_act ch i : ch_ok infos ch -> In i infos -> negb (act i (ch (i_idx i)) =? 0) = moved ch i.
Proof.
  intros Hc Hi. unfold moved. f_equal. destruct (qeq_spec (act i (ch (i_idx i))) 0) as [H|H].
  - apply (act_zero i _ Hi (Hc i Hi)) in H. now rewrite H.
  - symmetry. apply Nat.eqb_neq. intro E0. apply H. apply (act_zero i _ Hi (Hc i Hi)). exact E0.
Qed.
Lemma avec_changed ch : ch_ok infos ch -> n_changed (avec n infos ch) = size_ch infos ch.
Proof.
  intro Hc. unfold avec. rewrite (n_changed_scatter n infos _ (proj2 HW) idx_lt). unfold size_ch. f_equal.
  assert (G : forall l, (forall i, In i l -> In i infos) -> filter (fun i => negb (act i (ch (i_idx i)) =? 0)) l = filter (moved ch) l).
  { induction l as [|i l IH]; intro H; [reflexivity|]. cbn [filter]. rewrite (moved_act ch i Hc) by (apply H; now left).
    rewrite IH by (intros; apply H; now right). reflexivity. }
  apply G. auto.
Qed.
Lemma avec_changes ch j : ch_ok infos ch -> (changes (avec n infos ch) j <-> exists i, In i infos /\ i_idx i = j /\ moved ch i = true).
Proof.
  intro Hc. unfold avec. rewrite (changes_scatter n infos _ j (proj2 HW) idx_lt). split; intros (i & Hi & Hj & H); exists i; (split; [exact Hi|]; split; [exact Hj|]).
  - rewrite <- (moved_act ch i Hc Hi). apply negb_true_iff. now qbool.
  - rewrite <- (moved_act ch i Hc Hi) in H. apply negb_true_iff in H. now qbool.
Qed.
Lemma avec_nth ch j : (j < n)%nat -> nth_error (avec n infos ch) j = Some (match info_at infos j with Some i => act i (ch j) | None => 0 end).
Proof.
  intro L. unfold avec. rewrite scatter_nth, (proj2 (Nat.ltb_lt _ _) L). destruct (info_at infos j) as [i|] eqn:Ei; [|reflexivity].
  apply info_at_Some in Ei. destruct Ei as [_ <-]. reflexivity.
Qed.
Lemma cvec_nth ch j : (j < n)%nat -> nth_error (cvec n infos ch) j = Some (match info_at infos j with Some i => cst i (ch j) | None => 0 end).
Proof.
  intro L. unfold cvec. rewrite scatter_nth, (proj2 (Nat.ltb_lt _ _) L). destruct (info_at infos j) as [i|] eqn:Ei; [|reflexivity].
  apply info_at_Some in Ei. destruct Ei as [_ <-]. reflexivity.
Qed.
Lemma avec_permitted ch : ch_ok infos ch -> permitted_action A x (avec n infos ch).
Proof.
  intro Hc. split; [unfold avec; rewrite scatter_length; exact Hn|]. intros j e xj aj He Hxj Ha.
  assert (L : (j < n)%nat) by (rewrite <- HL; apply nth_error_Some; congruence). rewrite (avec_nth ch j L) in Ha.
  apply (f_equal (fun o => match o with Some q => q | None => 0 end)) in Ha. cbn in Ha. subst aj.
  destruct (info_at infos j) as [i|] eqn:Ei; [|left; ring]. apply info_at_Some in Ei. destruct Ei as [Hi <-].
  destruct (info_ok_at _ _ _ _ _ _ _ HF Hi) as (e' & xj' & HE). pose proof (en_elem _ _ _ _ _ _ _ _ HE) as E1. pose proof (en_x _ _ _ _ _ _ _ _ HE) as E2.
  rewrite He in E1. injection E1 as <-. rewrite Hxj in E2. assert (xj' = xj) by congruence. subst xj'. apply (en_perm _ _ _ _ _ _ _ _ HE). auto.
Qed.
Lemma avec_score ch t : score w t (vadd x (avec n infos ch)) = dot w x + t + gain infos ch.
Proof.
  unfold score. rewrite dot_vadd by (unfold avec; rewrite ?scatter_length; congruence). unfold avec. rewrite <- Hw at 1. rewrite dot_scatter.
  - unfold gain. assert (Q : map (fun i => nth (i_idx i) w 0 * act i (ch (i_idx i))) infos = map (fun i => i_coef i * act i (ch (i_idx i))) infos).
    { apply map_ext_in. intros i Hi. destruct (info_ok_at _ _ _ _ _ _ _ HF Hi) as (e & xj & HE). f_equal. apply nth_error_nth. apply (en_w _ _ _ _ _ _ _ _ HE). }
    rewrite Q. ring.
  - apply HW.
  - rewrite Hw. exact idx_lt.
Qed.
Lemma avec_costs ch : ch_ok infos ch -> action_costs E ct A x (avec n infos ch) (cvec n infos ch).
Proof.
  intro Hc. split; [unfold avec, cvec; now rewrite !scatter_length|]. intros j e xj aj c He Hxj Ha Hcj.
  assert (L : (j < n)%nat) by (rewrite <- HL; apply nth_error_Some; congruence). rewrite (avec_nth ch j L) in Ha. rewrite (cvec_nth ch j L) in Hcj.
  apply (f_equal (fun o => match o with Some q => q | None => 0 end)) in Ha, Hcj. cbn in Ha, Hcj. subst aj c.
  destruct (info_at infos j) as [i|] eqn:Ei; [|now left]. apply info_at_Some in Ei. destruct Ei as [Hi <-].
  destruct (info_ok_at _ _ _ _ _ _ _ HF Hi) as (e' & xj' & HE). pose proof (en_elem _ _ _ _ _ _ _ _ HE) as E1. pose proof (en_x _ _ _ _ _ _ _ _ HE) as E2.
  rewrite He in E1. injection E1 as <-. rewrite Hxj in E2. assert (xj' = xj) by congruence. subst xj'.
  pose proof (wfi' _ HW i Hi) as Wi. specialize (Hc i Hi). destruct (ch (i_idx i)) as [|k] eqn:Ek.
  - left. rewrite (wi_a0 _ Wi), (wi_c0 _ Wi). auto.
  - right. split; [apply (wi_pos _ Wi); lia|]. apply (en_cost _ _ _ _ _ _ _ _ HE). lia.
Qed.
Lemma cvec_sum ch : qsum (cvec n infos ch) = qsum (chosen_costs infos ch).
Proof. unfold cvec. rewrite (qsum_scatter n infos _ (proj2 HW) idx_lt). reflexivity. Qed.
Lemma cost_positive ch opt s : ch_ok infos ch -> (1 <= Z.of_nat (size_ch infos ch))%Z -> item_of ct n infos ch opt s -> 0 < s_cost s.
Proof.
  intros Hc Hs (_ & _ & H1 & H2 & _). destruct (size_pos infos ch Hs) as (i & Hi & Hm). pose proof (moved_cost_pos infos HW ch i Hc Hi Hm) as Hp.
  assert (Hin : In (cst i (ch (i_idx i))) (chosen_costs infos ch)) by (apply in_map_iff; eauto).
  assert (D : ct = CMax \/ ct <> CMax) by (destruct ct; auto; right; congruence). destruct D as [D|D].
  - specialize (H2 D). pose proof (proj2 (qmaxl_ge (chosen_costs infos ch) 0) _ Hin). qlra.
  - rewrite (H1 D). pose proof (qsum_pos (chosen_costs infos ch) _ (fun v => chosen_nonneg infos HW ch v Hc) Hin). qlra.
Qed.
Lemma cvec_largest ch : ch_ok infos ch -> (1 <= Z.of_nat (size_ch infos ch))%Z -> largest (cvec n infos ch) (qmaxl (chosen_costs infos ch) 0).
Proof.
  intros Hc Hs. destruct (size_pos infos ch Hs) as (i & Hi & Hm). pose proof (moved_cost_pos infos HW ch i Hc Hi Hm) as Hp.
  assert (Hin : In (cst i (ch (i_idx i))) (chosen_costs infos ch)) by (apply in_map_iff; eauto).
  pose proof (proj2 (qmaxl_ge (chosen_costs infos ch) 0) _ Hin) as Hle.
  split.
  - destruct (qmaxl_In (chosen_costs infos ch) 0) as [E0|H]; [exfalso; rewrite E0 in Hle; qlra|].
    apply in_map_iff in H. destruct H as (i' & E1 & Hi'). rewrite <- E1. apply nth_error_In with (n := i_idx i').
    rewrite cvec_nth by (now apply idx_lt). now rewrite (info_at_In _ _ (proj2 HW) Hi').
  - intros c Hcin. unfold cvec, scatter in Hcin. apply in_map_iff in Hcin. destruct Hcin as (j & <- & Hj).
    destruct (info_at infos j) as [i'|] eqn:Ei; [|apply (proj1 (qmaxl_ge _ _))]. apply info_at_Some in Ei. destruct Ei as [Hi' <-].
    apply (proj2 (qmaxl_ge (chosen_costs infos ch) 0)). apply in_map_iff. eauto.
Qed.
End Items.
