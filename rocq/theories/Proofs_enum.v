(** Evolution of the program under exclusions, solution objects, enumeration, existence of conclusive answers. *)
From Verif Require Import Proofs_props_element Proofs_props_actionset Spec_recourse Proofs_mip Proofs_info Proofs_vec Proofs_build.
#[local] Open Scope list_scope.
#[local] Open Scope Qc_scope.

(** ** Choices are finite *)
Definition same_ch (infos : list info) (ch ch' : choice) : Prop := forall i, In i infos -> ch (i_idx i) = ch' (i_idx i).
Lemma same_ch_sym infos a b : same_ch infos a b -> same_ch infos b a.
Proof. intros H i Hi. symmetry. auto. Qed.
Fixpoint choices (l : list info) : list choice :=
  match l with
  | [] => [fun _ => 0%nat]
  | i :: r => flat_map (fun k => map (fun (ch : choice) j => if Nat.eqb j (i_idx i) then k else ch j) (choices r)) (seq 0 (nopt i))
  end.
Lemma choices_complete l ch : ch_ok l ch -> exists ch', In ch' (choices l) /\ same_ch l ch ch'.
Proof.
  induction l as [|i l IH]; intro Hc; [exists (fun _ => 0%nat); split; [now left|intros ? []]|].
  destruct IH as (c' & Hin & Hs); [intros i' Hi'; apply Hc; now right|].
  exists (fun j => if Nat.eqb j (i_idx i) then ch (i_idx i) else c' j). split.
  - cbn [choices]. apply in_flat_map. exists (ch (i_idx i)). split; [apply in_seq; specialize (Hc i (or_introl eq_refl)); lia|].
    apply in_map_iff. exists c'. split; [reflexivity|exact Hin].
  - intros i' [<-|Hi'].
    + now rewrite Nat.eqb_refl.
    + destruct (Nat.eqb_spec (i_idx i') (i_idx i)) as [->|]; [reflexivity|now apply Hs].
Qed.

Lemma chosen_costs_same infos ch ch' : same_ch infos ch ch' -> chosen_costs infos ch = chosen_costs infos ch'.
Proof. intro H. apply map_ext_in. intros i Hi. now rewrite (H i Hi). Qed.
Lemma choice_cost_same ct infos ch ch' : same_ch infos ch ch' -> choice_cost ct infos ch = choice_cost ct infos ch'.
Proof. intro H. unfold choice_cost. now rewrite (chosen_costs_same _ _ _ H). Qed.
Lemma passes_same infos m ch ch' : wf_infos infos -> same_ch infos ch ch' -> passes infos m ch -> passes infos m ch'.
Proof.
  intros HW H (Hc & HR & HB). assert (Hc' : ch_ok infos ch') by (intros i Hi; rewrite <- (H i Hi); auto).
  split; [exact Hc'|]. split.
  - intros r Hr P. rewrite <- (HR r Hr P). apply (plain_ext infos _ _ ch'); [now apply assign_agree| |exact P].
    destruct (assign_agree _ _ HW Hc) as [_ HA]. split; [exact Hc'|]. intros i Hi. destruct (HA i Hi) as [H1 H2].
    rewrite <- (H i Hi). auto.
  - intros i k b Hi Hk Hd. rewrite <- (H i Hi). eauto.
Qed.

Lemma best_of {A} (f : A -> Qc) (l : list A) : l <> [] -> exists a, In a l /\ forall b, In b l -> f a <= f b.
Proof.
  induction l as [|a l IH]; [congruence|]. intros _. destruct l as [|b l]; [exists a; split; [now left|]; intros ? [<-|[]]; apply Qcle_refl|].
  destruct IH as (c & Hc & Hm); [discriminate|]. destruct (qle_spec (f a) (f c)) as [H|H].
  - exists a. split; [now left|]. intros d [<-|Hd]; [apply Qcle_refl|]. specialize (Hm d Hd). qlra.
  - exists c. split; [now right|]. intros d [<-|Hd]; [qlra|auto].
Qed.

(** Every program the builder poses has a correct conclusive answer. *)
Lemma has_answer bk ct infos m : wf_infos infos -> shape bk ct infos m -> exists o, conclusive o /\ valid_outcome m o.
Proof.
  intros HW SH. set (l := filter (fun ch => mip_sat m (assign infos ch) && forallb (fun i => Nat.ltb (ch (i_idx i)) (nopt i)) infos) (choices infos)).
  assert (HL : forall ch, In ch l -> passes infos m ch).
  { intros ch H. apply filter_In in H. destruct H as [_ H]. apply andb_true_iff in H. destruct H as [H1 H2].
    apply (encode bk ct infos HW m ch SH). split; [exact H1|]. intros i Hi. rewrite forallb_forall in H2. now apply Nat.ltb_lt, H2. }
  assert (HC : forall ch, passes infos m ch -> exists ch', In ch' l /\ same_ch infos ch ch').
  { intros ch HP. destruct (choices_complete infos ch (proj1 HP)) as (ch' & Hin & Hs). exists ch'. split; [|exact Hs].
    pose proof (passes_same _ _ _ _ HW Hs HP) as HP'. apply filter_In. split; [exact Hin|].
    apply (encode bk ct infos HW m ch' SH) in HP'. destruct HP' as [H1 H2]. rewrite H1. cbn [andb]. apply forallb_forall.
    intros i Hi. now apply Nat.ltb_lt, H2. }
  destruct l as [|c0 l0] eqn:El.
  - exists SInfeasible. split; [exact I|]. intro s. apply (choice_infeasible bk ct infos HW m SH). intros ch HP. destruct (HC ch HP) as (? & [] & _).
  - destruct (best_of (choice_cost ct infos) (c0 :: l0)) as (ch & Hin & Hm); [discriminate|].
    exists (SOptimal (assign infos ch) false). split; [exact I|].
    apply (choice_optimal bk ct infos HW m ch SH); [apply HL, Hin|]. intros ch' HP'. destruct (HC ch' HP') as (c2 & H2 & Hs).
    rewrite (choice_cost_same _ _ _ _ Hs). now apply Hm.
Qed.

(** ** Exclusions *)
Lemma shape_add_row bk ct infos m r : shape bk ct infos m -> plain_row infos r -> shape bk ct infos (add_row r m).
Proof.
  intros [H1 H2 H3 H4 H5 H6 H7] P. split; auto.
  - intros r' Hr. cbn in Hr. apply in_app_or in Hr. destruct Hr as [Hr|[<-|[]]]; auto.
  - intros i r' Hi Hs. cbn. apply in_or_app. left. eauto.
Qed.
Lemma passes_add_row infos m r ch : plain_row infos r ->
  (passes infos (add_row r m) ch <-> passes infos m ch /\ row_ok (assign infos ch) r = true).
Proof.
  intro P. unfold passes. cbn [add_row m_rows m_vars]. split.
  - intros (Hc & HR & HB). split; [split; [exact Hc|split; [|exact HB]]|].
    + intros r' Hr. apply HR, in_or_app. now left.
    + apply HR; [apply in_or_app; right; now left|exact P].
  - intros ((Hc & HR & HB) & Hr). split; [exact Hc|]. split; [|exact HB]. intros r' Hr' P'. apply in_app_or in Hr'. destruct Hr' as [Hr'|[<-|[]]]; auto.
Qed.

Lemma set_lower_vars v b m d : In d (m_vars (set_lower v b m)) <->
  exists d0, In d0 (m_vars m) /\ d = (if mvar_eqb (v_var d0) v then {| v_var := v_var d0; v_bin := v_bin d0; v_lb := b; v_ub := v_ub d0 |} else d0).
Proof.
  cbn. rewrite in_map_iff. split; intros (d0 & H1 & H2); exists d0; auto.
Qed.
Lemma idx_inj infos i i' : wf_infos infos -> In i infos -> In i' infos -> i_idx i = i_idx i' -> i = i'.
Proof.
  intros [_ HN] Hi Hi' E1. pose proof (info_at_In _ _ HN Hi) as F1. pose proof (info_at_In _ _ HN Hi') as F2. rewrite E1 in F1. congruence.
Qed.
Lemma udecl_inj i i' k k' b b' : udecl i k b = udecl i' k' b' -> i_idx i = i_idx i' /\ k = k' /\ b = b'.
Proof.
  intro H. pose proof (f_equal v_var H) as H1. pose proof (f_equal v_lb H) as H2. cbn in H1, H2. injection H1 as E1 E2. auto.
Qed.
Lemma lower_step infos i0 d0 i k b : In i infos -> In i0 infos -> wf_infos infos ->
  udecl i k b = (if mvar_eqb (v_var d0) (off_var i0) then {| v_var := v_var d0; v_bin := v_bin d0; v_lb := 1; v_ub := v_ub d0 |} else d0) ->
  (d0 = udecl i k b /\ (i <> i0 \/ k <> 0%nat)) \/ (i = i0 /\ k = 0%nat /\ b = 1 /\ exists b', d0 = udecl i k b').
Proof.
  intros Hi Hi0 HW H. destruct (mvar_eqb (v_var d0) (off_var i0)) eqn:M.
  - pose proof (f_equal v_var H) as Hv. cbn in Hv. rewrite <- Hv in M. cbn in M. apply andb_true_iff in M. destruct M as [M1 M2].
    apply Nat.eqb_eq in M1, M2. right. split; [eapply idx_inj; eauto|]. split; [exact M2|]. split; [exact (f_equal v_lb H)|].
    exists (v_lb d0). destruct d0 as [v0 n0 l0 u0]. cbn in *. subst v0. pose proof (f_equal v_bin H) as B1. pose proof (f_equal v_ub H) as B2. cbn in B1, B2. subst. reflexivity.
  - left. subst d0. split; [reflexivity|]. cbn in M. apply andb_false_iff in M. destruct M as [M|M]; apply Nat.eqb_neq in M; [left; congruence|now right].
Qed.
Lemma lower_off bk ct infos m i0 : wf_infos infos -> In i0 infos -> shape bk ct infos m -> mip_bounded infos m ->
  shape bk ct infos (set_lower (off_var i0) 1 m) /\ mip_bounded infos (set_lower (off_var i0) 1 m) /\
  forall ch, passes infos (set_lower (off_var i0) 1 m) ch <-> passes infos m ch /\ ch (i_idx i0) = 0%nat.
Proof.
  intros HW Hi0 [H1 H2 H3 H4 H5 H6 H7] HB. split; [|split].
  - split; auto.
    + intros d Hd. apply set_lower_vars in Hd. destruct Hd as (d0 & Hd0 & ->). destruct (H1 d0 Hd0) as [(i & Hi & ->)|[(i & k & b & Hi & Hk & ->)|(HM & [->|(i & Hi & ->)])]].
      * left. exists i. split; [exact Hi|reflexivity].
      * right. left. exists i, k. destruct (mvar_eqb (v_var (udecl i k b)) (off_var i0)); [exists 1|exists b]; auto.
      * right. right. split; [exact HM|]. now left.
      * right. right. split; [exact HM|]. right. exists i. split; [exact Hi|reflexivity].
    + intros i k Hi Hk. destruct (H2 i k Hi Hk) as (b & Hd).
      destruct (mvar_eqb (v_var (udecl i k b)) (off_var i0)) eqn:M; [exists 1|exists b]; apply set_lower_vars; exists (udecl i k b); rewrite M; auto.
    + intro HM. apply set_lower_vars. exists (cvar_decl VMax). split; [auto|reflexivity].
  - intros i k b Hi Hd. apply set_lower_vars in Hd. destruct Hd as (d0 & Hd0 & E0).
    destruct (lower_step infos i0 d0 i k b Hi Hi0 HW E0) as [[-> _]|(_ & _ & -> & _)]; [eapply HB; eauto|apply Qcle_refl].
  - intro ch. unfold passes. cbn [m_rows set_lower]. split.
    + intros (Hc & HR & HL).
      assert (Z0 : ch (i_idx i0) = 0%nat).
      { pose proof (wi_len _ (wfi' infos HW i0 Hi0)) as L. destruct (H2 i0 0%nat Hi0) as (b & Hd); [lia|].
        assert (Hd' : In (udecl i0 0 1) (m_vars (set_lower (off_var i0) 1 m))).
        { apply set_lower_vars. exists (udecl i0 0 b). split; [exact Hd|]. cbn. rewrite Nat.eqb_refl. reflexivity. }
        specialize (HL i0 0%nat 1 Hi0 ltac:(lia) Hd'). unfold hot in HL. destruct (Nat.eqb_spec 0 (ch (i_idx i0))) as [E0|N]; [now symmetry|].
        exfalso. apply HL. reflexivity. }
      split; [|exact Z0]. split; [exact Hc|]. split; [exact HR|]. intros i k b Hi Hk Hd.
      destruct (mvar_eqb (v_var (udecl i k b)) (off_var i0)) eqn:M.
      * cbn in M. apply andb_true_iff in M. destruct M as [M1 M2]. apply Nat.eqb_eq in M1, M2. rewrite M1, Z0, M2. change (hot 0 0) with 1. eapply HB; eauto.
      * apply HL; auto. apply set_lower_vars. exists (udecl i k b). rewrite M. auto.
    + intros ((Hc & HR & HL) & Z0). split; [exact Hc|]. split; [exact HR|]. intros i k b Hi Hk Hd.
      apply set_lower_vars in Hd. destruct Hd as (d0 & Hd0 & E0).
      destruct (lower_step infos i0 d0 i k b Hi Hi0 HW E0) as [[-> _]|(-> & -> & -> & _)]; [now apply HL|]. rewrite Z0. apply Qcle_refl.
Qed.
Lemma lower_many bk ct infos l : wf_infos infos -> (forall i, In i l -> In i infos) -> forall m, shape bk ct infos m -> mip_bounded infos m ->
  let m' := fold_left (fun m v => set_lower v 1 m) (map off_var l) m in
  shape bk ct infos m' /\ mip_bounded infos m' /\ forall ch, passes infos m' ch <-> passes infos m ch /\ forall i, In i l -> ch (i_idx i) = 0%nat.
Proof.
  intro HW. induction l as [|i l IH]; intros Hl m SH HB; cbn [map fold_left].
  - split; [exact SH|]. split; [exact HB|]. intro ch. split; [intro H; split; [exact H|intros ? []]|tauto].
  - destruct (lower_off bk ct infos m i HW (Hl i (or_introl eq_refl)) SH HB) as (S1 & B1 & P1).
    destruct (IH (fun i' Hi' => Hl i' (or_intror Hi')) _ S1 B1) as (S2 & B2 & P2). split; [exact S2|]. split; [exact B2|].
    intro ch. rewrite P2, P1. split.
    + intros ((H1 & H2) & H3). split; [exact H1|]. intros i' [<-|Hi']; auto.
    + intros (H1 & H2). split; [split; [exact H1|apply H2; now left]|]. intros i' Hi'. apply H2. now right.
Qed.

(** The exclusion row compares patterns of indicators. *)
Lemma exclusion_row_ok infos (sel : info -> nat) s ch ch' l : agree infos s ch -> (forall i, In i l -> In i infos /\ (sel i < nopt i)%nat) ->
  (row_ok (assign infos ch') (exclusion_row (map (fun i => VU (i_idx i) (sel i)) l) s) = true <->
   exists i, In i l /\ Nat.eqb (ch (i_idx i)) (sel i) <> Nat.eqb (ch' (i_idx i)) (sel i)).
Proof.
  intros [_ HA] Hl. unfold exclusion_row. rewrite row_ok_le.
  assert (G : forall l, (forall i, In i l -> In i infos /\ (sel i < nopt i)%nat) ->
    eval (assign infos ch') (map (fun v => (if isclose0 (s v) then - (1) else 1, v)) (map (fun i => VU (i_idx i) (sel i)) l)) =
    qz (Z.of_nat (length (filter (fun v => negb (isclose0 (s v))) (map (fun i => VU (i_idx i) (sel i)) l))) -
        Z.of_nat (length (filter (fun i => negb (Bool.eqb (Nat.eqb (ch (i_idx i)) (sel i)) (Nat.eqb (ch' (i_idx i)) (sel i)))) l)))).
  { clear l Hl. induction l as [|i l IH]; intro Hl; [cbn; rewrite eval_nil; symmetry; apply qz_0|].
    cbn [map filter]. rewrite eval_cons, IH by (intros; apply Hl; now right). destruct (Hl i (or_introl eq_refl)) as [Hi Hk].
    destruct (HA i Hi) as [_ Hu]. rewrite (Hu _ Hk). cbn [assign].
    assert (E1 : hot (ch (i_idx i)) (sel i) = onez (Nat.eqb (ch (i_idx i)) (sel i))) by (unfold hot, onez; now rewrite Nat.eqb_sym).
    assert (E2 : hot (ch' (i_idx i)) (sel i) = onez (Nat.eqb (ch' (i_idx i)) (sel i))) by (unfold hot, onez; now rewrite Nat.eqb_sym).
    rewrite E1, E2. set (p := length (filter (fun v => negb (isclose0 (s v))) (map (fun i0 => VU (i_idx i0) (sel i0)) l))).
    set (q := length (filter (fun i0 => negb (Bool.eqb (Nat.eqb (ch (i_idx i0)) (sel i0)) (Nat.eqb (ch' (i_idx i0)) (sel i0)))) l)).
    destruct (Nat.eqb (ch (i_idx i)) (sel i)), (Nat.eqb (ch' (i_idx i)) (sel i)); cbn [onez Bool.eqb negb];
      [change (isclose0 1) with false|change (isclose0 1) with false|change (isclose0 0) with true|change (isclose0 0) with true];
      cbn [negb length]; rewrite ?Nat2Z.inj_succ; unfold Z.succ; rewrite !qz_minus, ?qz_plus, ?qz_1; fold p q; ring. }
  rewrite (G l Hl), qz_le. split.
  - intro H. destruct (filter (fun i => negb (Bool.eqb (Nat.eqb (ch (i_idx i)) (sel i)) (Nat.eqb (ch' (i_idx i)) (sel i)))) l) as [|i0 r] eqn:F; [cbn in H; lia|].
    exists i0. assert (In i0 (i0 :: r)) as Hin by now left. rewrite <- F in Hin. apply filter_In in Hin. destruct Hin as [H1 H2]. split; [exact H1|].
    intro E0. rewrite E0, eqb_reflx in H2. discriminate H2.
  - intros (i & Hi & Hne). assert (Hin : In i (filter (fun i => negb (Bool.eqb (Nat.eqb (ch (i_idx i)) (sel i)) (Nat.eqb (ch' (i_idx i)) (sel i)))) l)).
    { apply filter_In. split; [exact Hi|]. apply negb_true_iff. now apply eqb_false_iff. }
    destruct (filter _ l); [destruct Hin|]. cbn [length]. lia.
Qed.

Definition excl (et : enum_type) (k : backend) (infos : list info) (ch ch' : choice) : Prop :=
  match et, k with
  | MutuallyExclusive, _ => forall i, In i infos -> moved ch i = true -> moved ch' i = false
  | DistinctSubsets, CPX => exists i, In i infos /\ lit ch i <> lit ch' i
  | DistinctSubsets, PyMIP => exists i, In i infos /\ moved ch i <> moved ch' i
  end.

(** ** Good builder states: a program, and the choices it accepts *)
Record good (b : builder) (ms : mipstate) (P : choice -> Prop) : Prop := {
  gd_mip : bd_mip b = Some ms; gd_wf : wf_infos (ms_infos ms);
  gd_shape : shape (bd_kind b) (bd_cost b) (ms_infos ms) (ms_mip ms);
  gd_bnd : mip_bounded (ms_infos ms) (ms_mip ms);
  gd_idx : forall i, In i (ms_infos ms) -> (i_idx i < length (bd_w b))%nat;
  gd_pass : forall ch, passes (ms_infos ms) (ms_mip ms) ch <-> P ch }.

Definition same_settings (b b' : builder) : Prop :=
  bd_kind b' = bd_kind b /\ bd_w b' = bd_w b /\ bd_t b' = bd_t b /\ bd_A b' = bd_A b /\ bd_cost b' = bd_cost b /\
  bd_actionable b' = bd_actionable b /\ bd_min b' = bd_min b /\ bd_max b' = bd_max b /\ bd_x b' = bd_x b.
Lemma same_settings_refl b : same_settings b b.
Proof. repeat split. Qed.
Lemma same_settings_trans a b c : same_settings a b -> same_settings b c -> same_settings a c.
Proof. unfold same_settings. intuition congruence. Qed.

Lemma remove_spec et b ms P s g : good b ms P -> (bd_sol b = Some (SOptimal s g) \/ bd_sol b = Some (SFeasible s)) ->
  forall ch, agree (ms_infos ms) s ch -> exists b' ms', remove_solution et b = Ok b' /\ ms_infos ms' = ms_infos ms /\ same_settings b b' /\
    bd_calls b' = bd_calls b /\ good b' ms' (fun ch' => P ch' /\ excl et (bd_kind b) (ms_infos ms) ch ch').
Proof.
  intros G HS ch HA. destruct G as [Gm GW GS GB GI GP]. destruct et; cbn [remove_solution].
  - unfold remove_all_features, with_solution. rewrite Gm.
    set (ms' := {| ms_mip := fold_left (fun m v => set_lower v 1 m) (filter (fun v => isclose0 (s v)) (map off_var (ms_infos ms))) (ms_mip ms); ms_infos := ms_infos ms |}).
    exists (with_mip b (Some ms') (bd_sol b)), ms'. split; [destruct HS as [-> | ->]; reflexivity|]. split; [reflexivity|]. split; [repeat split|]. split; [reflexivity|].
    assert (EF : filter (fun v => isclose0 (s v)) (map off_var (ms_infos ms)) = map off_var (filter (moved ch) (ms_infos ms))).
    { destruct HA as [_ HA]. assert (Q : forall l, (forall i, In i l -> In i (ms_infos ms)) -> filter (fun v => isclose0 (s v)) (map off_var l) = map off_var (filter (moved ch) l)).
      { induction l as [|i l IH]; intro Hl; [reflexivity|]. cbn [map filter].
        destruct (HA i (Hl i (or_introl eq_refl))) as [_ Hu]. unfold off_var at 1. rewrite Hu by (pose proof (wi_len _ (wfi' _ GW i (Hl i (or_introl eq_refl)))); lia).
        unfold moved at 1, hot. rewrite Nat.eqb_sym. destruct (Nat.eqb (ch (i_idx i)) 0).
        - change (isclose0 1) with false. cbn [negb]. apply IH. intros; apply Hl; now right.
        - change (isclose0 0) with true. cbn [negb map]. f_equal. apply IH. intros; apply Hl; now right. }
      apply Q. auto. }
    destruct (lower_many (bd_kind b) (bd_cost b) (ms_infos ms) (filter (moved ch) (ms_infos ms)) GW) with (m := ms_mip ms) as (S1 & B1 & P1); auto.
    { intros i Hi. apply filter_In in Hi. apply Hi. }
    rewrite <- EF in S1, B1, P1. split; auto. intro ch'. cbn [ms_infos ms_mip ms']. rewrite P1, GP. cbn [excl]. split; intros [H1 H2]; (split; [exact H1|]).
    + intros i Hi Hmv. unfold moved. rewrite (H2 i); [reflexivity|]. apply filter_In. auto.
    + intros i Hi. apply filter_In in Hi. destruct Hi as [Hi Hmv]. specialize (H2 i Hi Hmv). unfold moved in H2. apply negb_false_iff in H2. now apply Nat.eqb_eq.
  - unfold remove_feature_combination, with_solution. rewrite Gm.
    set (r := exclusion_row (excl_vars (bd_kind b) (ms_infos ms)) s).
    set (ms' := {| ms_mip := add_row r (ms_mip ms); ms_infos := ms_infos ms |}).
    exists (with_mip b (Some ms') (bd_sol b)), ms'. split; [destruct HS as [-> | ->]; reflexivity|]. split; [reflexivity|]. split; [repeat split|]. split; [reflexivity|].
    set (sel := fun i => match bd_kind b with CPX => i_knull i | PyMIP => 0%nat end).
    assert (EV : excl_vars (bd_kind b) (ms_infos ms) = map (fun i => VU (i_idx i) (sel i)) (ms_infos ms)) by (unfold excl_vars, sel; destruct (bd_kind b); reflexivity).
    assert (HL : forall i, In i (ms_infos ms) -> In i (ms_infos ms) /\ (sel i < nopt i)%nat).
    { intros i Hi. split; [exact Hi|]. unfold sel. pose proof (wi_len _ (wfi' _ GW i Hi)). pose proof (wi_null _ (wfi' _ GW i Hi)). destruct (bd_kind b); lia. }
    assert (PR : plain_row (ms_infos ms) r).
    { intros c v Hin. unfold r, exclusion_row in Hin. cbn in Hin. rewrite EV, map_map in Hin. apply in_map_iff in Hin. destruct Hin as (i & E1 & Hi).
      apply pair_equal_spec in E1. destruct E1 as [_ <-]. exists i. split; [exact Hi|]. right. exists (sel i). split; [now apply HL|reflexivity]. }
    split; auto.
    + cbn [ms_infos ms_mip ms']. now apply shape_add_row.
    + intro ch'. cbn [ms_infos ms_mip ms']. rewrite (passes_add_row _ _ _ _ PR), GP. unfold r. rewrite EV, (exclusion_row_ok (ms_infos ms) sel s ch ch' (ms_infos ms) HA HL).
      unfold excl, sel, lit, moved. destruct (bd_kind b); split; intros [H1 (i & Hi & Hne)]; (split; [exact H1|]); exists i; (split; [exact Hi|]);
        intro E0; apply Hne; [apply (f_equal negb) in E0; now rewrite !negb_involutive in E0|now rewrite E0|apply (f_equal negb) in E0; now rewrite !negb_involutive in E0|now rewrite E0].
Qed.

(** ** Solution objects *)
Definition avec n infos (ch : choice) : list Qc := scatter n infos (fun i => act i (ch (i_idx i))).
Definition cvec n infos (ch : choice) : list Qc := scatter n infos (fun i => cst i (ch (i_idx i))).
Lemma filter_cost_terms infos s ch i : agree infos s ch -> wf_info i -> In i infos ->
  map fst (filter (fun p => negb (s (snd p) =? 0)) (cost_terms i)) = [cst i (ch (i_idx i))].
Proof.
  intros [Hc HA] Wi Hi. destruct (HA i Hi) as [_ Hu]. specialize (Hc i Hi). unfold cost_terms, uvars, cst. pose proof (wi_len2 _ Wi) as L2.
  fold (nopt i). rewrite <- L2 in Hc, Hu |- *. revert Hc Hu. generalize (i_costs i) (ch (i_idx i)). intros l c.
  assert (G : forall l st, (forall k, (st <= k < st + length l)%nat -> s (VU (i_idx i) k) = hot c k) ->
    map fst (filter (fun p => negb (s (snd p) =? 0)) (combine l (map (VU (i_idx i)) (seq st (length l))))) =
    if (Nat.leb st c && Nat.ltb c (st + length l))%bool then [nth (c - st) l 0] else []).
  { clear. induction l as [|a l IH]; intros st Hs.
    - cbn [length combine map filter]. destruct (Nat.leb_spec st c); destruct (Nat.ltb_spec c (st + 0)); cbn [andb]; try reflexivity; lia.
    - cbn [length seq map combine filter snd]. rewrite (Hs st) by (cbn [length]; lia). unfold hot.
      assert (IH' := IH (S st) ltac:(intros k Hk; apply Hs; cbn [length]; lia)).
      destruct (Nat.eqb_spec st c) as [->|N].
      + change (negb (1 =? 0)) with true. cbn [map fst]. rewrite IH'. replace (Nat.leb (S c) c) with false by (symmetry; apply Nat.leb_gt; lia).
        rewrite Nat.leb_refl. replace (Nat.ltb c (c + S (length l))) with true by (symmetry; apply Nat.ltb_lt; lia).
        cbn [andb]. now rewrite Nat.sub_diag.
      + change (negb (0 =? 0)) with false. cbv iota. rewrite IH'. replace (Nat.leb (S st) c) with (Nat.leb st c).
        2:{ destruct (Nat.leb_spec st c); destruct (Nat.leb_spec (S st) c); try reflexivity; lia. }
        replace (st + S (length l))%nat with (S st + length l)%nat by lia. destruct (Nat.leb_spec st c); cbn [andb]; [|reflexivity].
        destruct (Nat.ltb c (S st + length l)); [|reflexivity]. replace (c - st)%nat with (S (c - S st)) by lia. reflexivity. }
  intros Hc Hu. rewrite G by (intros k Hk; apply Hu; lia). cbn [Nat.leb andb plus]. rewrite (proj2 (Nat.ltb_lt _ _) Hc). now rewrite Nat.sub_0_r.
Qed.
Lemma cost_values infos s ch : wf_infos infos -> agree infos s ch ->
  map fst (filter (fun p => negb (s (snd p) =? 0)) (flat_map cost_terms infos)) = map (fun i => cst i (ch (i_idx i))) infos.
Proof.
  intros HW HA. assert (G : forall l, (forall i, In i l -> In i infos) ->
    map fst (filter (fun p => negb (s (snd p) =? 0)) (flat_map cost_terms l)) = map (fun i => cst i (ch (i_idx i))) l).
  { induction l as [|i l IH]; intro Hl; [reflexivity|]. cbn [flat_map map]. rewrite filter_app, map_app, IH by (intros; apply Hl; now right).
    rewrite (filter_cost_terms infos s ch i HA (wfi' infos HW i (Hl i (or_introl eq_refl))) (Hl i (or_introl eq_refl))). reflexivity. }
  apply G. auto.
Qed.

(** The item reported for a choice; [opt]: the solver call was completed. *)
Definition item_of (ct : cost_type) (n : nat) (infos : list info) (ch : choice) (opt : Prop) (s : sol) : Prop :=
  s_actions s = avec n infos ch /\ s_costs s = cvec n infos ch /\
  (ct <> CMax -> s_cost s = qsum (chosen_costs infos ch)) /\
  (ct = CMax -> qmaxl (chosen_costs infos ch) 0 <= s_cost s) /\ (opt -> ct = CMax -> s_cost s = qmaxl (chosen_costs infos ch) 0).
Definition best (ct : cost_type) (infos : list info) (P : choice -> Prop) (ch : choice) : Prop :=
  forall ch', P ch' -> choice_cost ct infos ch <= choice_cost ct infos ch'.

Lemma fit_good sv b ms P : sound_solver sv -> good b ms P ->
  exists b' r o, fit sv b = Ok (b', r) /\ o = sv (bd_calls b) (ms_mip ms) /\ good b' ms P /\ same_settings b b' /\ bd_sol b' = Some o /\
    bd_calls b' = S (bd_calls b) /\ valid_outcome (ms_mip ms) o /\
    match r with
    | None => (conclusive o -> forall ch, ~ P ch)
    | Some s => exists ch a g, P ch /\ agree (ms_infos ms) a ch /\ (o = SOptimal a g \/ o = SFeasible a) /\
                 item_of (bd_cost b) (length (bd_w b)) (ms_infos ms) ch (conclusive o) s /\ (conclusive o -> best (bd_cost b) (ms_infos ms) P ch)
    end.
Proof.
  intros HS [Gm GW GS GB GI GP]. unfold fit, solve_mip. rewrite Gm. cbn [bind].
  set (o := sv (bd_calls b) (ms_mip ms)). set (b' := with_mip (with_call b) (Some ms) (Some o)).
  assert (V : valid_outcome (ms_mip ms) o) by apply HS.
  exists b', (solution_info (bd_kind b) (bd_cost b) (length (bd_w b)) ms o), o. split; [reflexivity|]. split; [reflexivity|].
  split; [split; auto|]. split; [repeat split|]. split; [reflexivity|]. split; [reflexivity|]. split; [exact V|].
  unfold solution_info. destruct (exposed (bd_kind b) o) as [a|] eqn:Ex.
  - assert (HO : exists g, o = SOptimal a g \/ o = SFeasible a).
    { unfold exposed in Ex. destruct (bd_kind b), o as [a' [|]|a'| |]; try discriminate Ex; injection Ex as ->;
      first [exists false; right; reflexivity|eexists; left; reflexivity]. }
    destruct HO as (g & HO). set (r := {| s_cost := _; s_actions := _; s_costs := _ |}).
    assert (Item : forall ch, agree (ms_infos ms) a ch -> P ch ->
       (bd_cost b <> CMax -> objective (ms_mip ms) a = qsum (chosen_costs (ms_infos ms) ch)) ->
       (bd_cost b = CMax -> (forall i, In i (ms_infos ms) -> a (VC (i_idx i)) = cst i (ch (i_idx i))) /\ qmaxl (chosen_costs (ms_infos ms) ch) 0 <= a VMax) ->
       s_actions r = avec (length (bd_w b)) (ms_infos ms) ch /\ s_costs r = cvec (length (bd_w b)) (ms_infos ms) ch /\
       (bd_cost b <> CMax -> s_cost r = qsum (chosen_costs (ms_infos ms) ch)) /\ (bd_cost b = CMax -> qmaxl (chosen_costs (ms_infos ms) ch) 0 <= s_cost r)).
    { intros ch HA HP HT HM. unfold r. cbn [s_actions s_costs s_cost]. split; [|split; [|split]].
      - unfold avec. rewrite <- (np_put_scatter _ _ _ (proj2 GW)). f_equal. apply map_ext_in. intros i Hi. apply (proj2 HA i Hi).
      - unfold cvec. rewrite <- (np_put_scatter _ _ _ (proj2 GW)). f_equal. destruct (bd_cost b) eqn:Ec.
        + apply (cost_values _ _ _ GW HA).
        + apply (cost_values _ _ _ GW HA).
        + apply map_ext_in. intros i Hi. apply (proj1 (HM eq_refl) i Hi).
      - intro N. rewrite <- (HT N). destruct (bd_cost b); congruence.
      - intro N. destruct (HM N) as [_ H]. destruct (bd_cost b); try discriminate N. exact H. }
    destruct HO as [HO|HO].
    + rewrite HO in V. destruct (optimal_choice _ _ _ GW _ _ _ GS V) as (ch & HA & HP & HB & HT & HM).
      exists ch, a, g. apply GP in HP.
      destruct (Item ch HA HP HT) as (I1 & I2 & I3 & I4).
      { intro N. destruct (HM N) as [H1 H2]. split; [exact H1|]. rewrite H2. apply Qcle_refl. }
      split; [exact HP|]. split; [exact HA|]. split; [now left|]. split.
      * repeat split; auto. intros _ N. destruct (HM N) as [_ H2]. unfold r. cbn [s_cost]. destruct (bd_cost b); try discriminate N. exact H2.
      * intros _ ch' HP'. apply HB. now apply GP.
    + rewrite HO in V. destruct (feasible_choice _ _ _ GW _ _ GS V) as (ch & HA & HP & HT & HM).
      exists ch, a, g. apply GP in HP. destruct (Item ch HA HP HT HM) as (I1 & I2 & I3 & I4).
      split; [exact HP|]. split; [exact HA|]. split; [now right|]. rewrite HO. split; [|intros []]. repeat split; auto. intros [].
  - intros Hc ch HP. apply GP in HP. unfold exposed in Ex. destruct o as [a' [|]|a'| |]; try destruct Hc; [destruct (bd_kind b); discriminate Ex|].
    cbn in V. exact (infeasible_choice _ _ _ GW _ GS V ch HP).
Qed.
Lemma finishing_good sv b ms P : finishing_solver sv -> good b ms P -> conclusive (sv (bd_calls b) (ms_mip ms)).
Proof. intros HF G. apply HF. eapply has_answer; [apply (gd_wf _ _ _ G)|apply (gd_shape _ _ _ G)]. Qed.

(** ** Enumeration *)
Definition step_of (k : backend) infos (P : choice -> Prop) (ec : enum_type * choice) : choice -> Prop :=
  fun ch' => P ch' /\ excl (fst ec) k infos (snd ec) ch'.
Definition after (k : backend) infos (P : choice -> Prop) (l : list (enum_type * choice)) : choice -> Prop := fold_left (step_of k infos) l P.
Fixpoint enum (fin : Prop) (k : backend) (ct : cost_type) infos (P : choice -> Prop) (l : list (enum_type * choice)) : Prop :=
  match l with
  | [] => True
  | ec :: r => P (snd ec) /\ (fin -> best ct infos P (snd ec)) /\ enum fin k ct infos (step_of k infos P ec) r
  end.
Lemma after_app k infos P l1 l2 : after k infos P (l1 ++ l2) = after k infos (after k infos P l1) l2.
Proof. unfold after. apply fold_left_app. Qed.
Lemma enum_app fin k ct infos l1 : forall P l2, enum fin k ct infos P (l1 ++ l2) <-> enum fin k ct infos P l1 /\ enum fin k ct infos (after k infos P l1) l2.
Proof.
  induction l1 as [|ec l1 IH]; intros P l2; cbn [app enum after fold_left]; [tauto|]. rewrite IH. unfold after. tauto.
Qed.
Lemma after_iff k infos l : forall P ch, after k infos P l ch <-> P ch /\ Forall (fun ec => excl (fst ec) k infos (snd ec) ch) l.
Proof.
  induction l as [|ec l IH]; intros P ch; cbn [after fold_left].
  - split; [intro H; split; [exact H|constructor]|tauto].
  - change (fold_left (step_of k infos) l (step_of k infos P ec)) with (after k infos (step_of k infos P ec) l). rewrite IH. unfold step_of.
    rewrite Forall_cons_iff. tauto.
Qed.

Lemma populate_good sv et : sound_solver sv -> forall fuel total b ms P, good b ms P ->
  match populate_loop sv fuel total et b with
  | None => exists chs, length chs = fuel /\ enum (finishing_solver sv) (bd_kind b) (bd_cost b) (ms_infos ms) P (map (pair et) chs)
  | Some (Err _) => False
  | Some (Ok (b', l)) => exists chs ms', Forall2 (fun ch s => item_of (bd_cost b) (length (bd_w b)) (ms_infos ms) ch (finishing_solver sv) s) chs l /\
      enum (finishing_solver sv) (bd_kind b) (bd_cost b) (ms_infos ms) P (map (pair et) chs) /\
      ms_infos ms' = ms_infos ms /\ same_settings b b' /\
      good b' ms' (after (bd_kind b) (ms_infos ms) P (map (pair et) chs)) /\
      (forall n, total = Some n -> (length l <= n)%nat) /\
      (finishing_solver sv -> total <> Some (length l) -> forall ch, ~ after (bd_kind b) (ms_infos ms) P (map (pair et) chs) ch)
  end.
Proof.
  intro HS. induction fuel as [|fuel IH]; intros total b ms P G.
  - cbn [populate_loop]. assert (D : total = Some 0%nat \/ total <> Some 0%nat) by (destruct total as [[|n]|]; auto; right; congruence).
    destruct D as [->|N].
    + exists [], ms. split; [constructor|]. split; [exact I|]. split; [reflexivity|]. split; [apply same_settings_refl|]. split; [exact G|].
      split; [intros n E0; injection E0 as <-; cbn; lia|]. intros _ H. cbn in H. congruence.
    + destruct total as [[|n]|]; [congruence|..]; exists []; split; try reflexivity; exact I.
  - cbn [populate_loop]. assert (D : total = Some 0%nat \/ total <> Some 0%nat) by (destruct total as [[|n]|]; auto; right; congruence).
    destruct D as [->|N].
    { exists [], ms. split; [constructor|]. split; [exact I|]. split; [reflexivity|]. split; [apply same_settings_refl|]. split; [exact G|].
      split; [intros n E0; injection E0 as <-; cbn; lia|]. intros _ H. cbn in H. congruence. }
    replace (match total with Some 0%nat => true | _ => false end) with false by (destruct total as [[|n]|]; congruence).
    destruct (fit_good sv b ms P HS G) as (b1 & r & o & EF & Ho & G1 & SS1 & Hsol & Hcalls & V & HR). rewrite EF. destruct r as [s|].
    + destruct HR as (ch & a & g & HP & HA & HO & HIt & HB).
      destruct (remove_spec et b1 ms P a g G1 ltac:(rewrite Hsol; destruct HO as [-> | ->]; auto) ch HA) as (b2 & ms2 & ER & EI & SS2 & _ & G2).
      rewrite ER. specialize (IH (option_map pred total) b2 ms2 _ G2).
      assert (FC : finishing_solver sv -> conclusive o) by (intro HF; rewrite Ho; eapply finishing_good; eauto).
      pose proof (same_settings_trans _ _ _ SS1 SS2) as SS.
      assert (K : bd_kind b1 = bd_kind b) by apply SS1. rewrite K in IH.
      destruct SS as (K2 & W2 & _ & _ & C2 & SSr). pose proof (conj K2 (conj W2 (conj (proj1 (proj2 (proj2 (same_settings_trans _ _ _ SS1 SS2)))) I))) as _.
      destruct (populate_loop sv fuel (option_map pred total) et b2) as [[[b3 l]|e]|] eqn:EL.
      * destruct IH as (chs & ms' & F2 & EN & EI' & SS3 & G3 & HT & HD). rewrite EI, ?K2, ?C2, ?W2 in *. exists (ch :: chs), ms'. split.
        { constructor; [|exact F2]. destruct HIt as (I1 & I2 & I3 & I4 & I5). repeat split; auto. }
        split; [cbn [map enum]; split; [exact HP|split; [intro HF; apply HB, FC, HF|exact EN]]|].
        split; [exact EI'|]. split; [exact (same_settings_trans _ _ _ (same_settings_trans _ _ _ SS1 SS2) SS3)|]. split; [exact G3|]. split.
        { intros n ->. destruct n as [|n]; [congruence|]. specialize (HT n eq_refl). cbn [length]. lia. }
        intros HF HN. cbn [map after fold_left]. apply HD; [exact HF|]. intro E0. apply HN. destruct total as [[|n]|]; [congruence| |discriminate E0].
        cbn in E0. injection E0 as ->. reflexivity.
      * exact IH.
      * destruct IH as (chs & HL & EN). rewrite EI, ?K2, ?C2 in EN. exists (ch :: chs). split; [cbn; now rewrite HL|].
        cbn [map enum]. split; [exact HP|]. split; [intro HF; apply HB, FC, HF|exact EN].
    + exists [], ms. split; [constructor|]. split; [exact I|]. split; [reflexivity|]. split; [exact SS1|]. split; [exact G1|]. split; [intros n ->; cbn; lia|].
      intros HF _. cbn. apply HR. rewrite Ho. eapply finishing_good; eauto.
Qed.
