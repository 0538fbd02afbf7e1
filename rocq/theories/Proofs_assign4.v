(** Exactly which individuals a builder accepts. *)
From Verif Require Import Proofs_props_element Proofs_props_actionset Spec_recourse Spec_settable Proofs_mip Proofs_info Proofs_vec Proofs_build Proofs_enum Proofs_session Proofs_recourse Proofs_subset Proofs_exchange Proofs_far Proofs_concrete Proofs_builder Proofs_builder2 Proofs_builder3 Proofs_builder4 Proofs_builder5 Proofs_assign Proofs_lineup.
#[local] Open Scope list_scope.
#[local] Open Scope Qc_scope.

Section Settable.
Context (E : env) (A : action_set) (ct : cost_type) (w x : list Qc).
Context (HE : ok_env E) (HD : density E) (HW : wf_aset E A) (HL : log_ok E ct) (HF : flips_match A w) (Hx : length x = as_len A) (Hw : length w = as_len A).
Context (HR : regular E A x).

Lemma elem_at j e : nth_error (as_elems A) j = Some e -> elem_reachable E e.
Proof. intro K. destruct HW as (_ & _ & HE' & _). rewrite Forall_forall in HE'. apply HE'. eapply nth_error_In, K. Qed.

(** Accepted features can be handled. *)
Lemma infos_handled infos : get_build_info E A ct w x = Ok infos -> forall j, takes_part A w x j -> handled A w x j.
Proof.
  intros HI j Hj. apply (line_members E A ct w x infos HE HW HI HF) in Hj. apply in_map_iff in Hj. destruct Hj as (i & <- & Hi).
  pose proof (build_info_spec E A ct w x infos HE HW HI) as (LX & [WI ND] & HFo & _ & (_ & HC2 & _) & _). rewrite Forall_forall in HFo, WI.
  destruct (HFo i Hi) as (e & xj & EN). pose proof (WI i Hi) as Wi.
  pose proof (en_elem _ _ _ _ _ _ _ _ EN) as He. pose proof (en_w _ _ _ _ _ _ _ _ EN) as Hwj. pose proof (en_x _ _ _ _ _ _ _ _ EN) as Hxj. pose proof (en_name _ _ _ _ _ _ _ _ EN) as Hn.
  exists e, (i_coef i), xj. split; [exact He|]. split; [exact Hwj|]. split; [exact Hxj|]. split.
  { pose proof (en_coef _ _ _ _ _ _ _ _ EN) as Q. apply qle_false in Q. exact Q. }
  intro HC. pose proof (proj2 (constrained_iff E A _ _ HE HW Hn) HC) as Hcn. destruct (proj2 HR _ _ _ He Hxj) as [HRp HRv].
  assert (OFF : forall v, permitted e xj v -> v <> xj -> exists k, (0 < k < nopt i)%nat /\ act i k = v - xj).
  { intros v Hp Hne. destruct (strict_price E ct e xj v (elem_at _ _ He) (fun pdf u => HD _ pdf u) HL (proj1 HR _ _ _ He Hxj) Hp Hne) as (p & Hmc & Hpp).
    destruct (HC2 _ e xj _ v p Hn He Hxj Hcn HRp Hp) as (i' & k & Hi' & Ei & Hk & Ha & _); auto.
    { unfold isclose0. apply qle_false. now apply HRv. }
    assert (i' = i). { apply (f_equal (info_at infos)) in Ei. rewrite !(info_at_In _ _ ND) in Ei by assumption. now injection Ei. } subst i'. exists k. auto. }
  split.
  - destruct (en_side _ _ _ _ _ _ _ _ EN) as [S1|S1]; [left|right]; intros v Hp; (destruct (Qc_eq_dec v xj) as [->|Hne]; [apply Qcle_refl|]); destruct (OFF v Hp Hne) as (k & Hk & Ha); specialize (S1 k Hk); rewrite Ha in S1; qlra.
  - intro P0. pose proof (en_null _ _ _ _ _ _ _ _ EN) as K. rewrite (proj2 (smem_iff _ _) Hcn) in K. cbn [andb] in K. destruct (qlt_spec 0 xj) as [_|Q]; [|qlra].
    pose proof (en_perm _ _ _ _ _ _ _ _ EN (i_knull i) (wi_null _ Wi)) as Hp. rewrite K in Hp. now replace (xj + - xj) with 0 in Hp by ring.
Qed.

(** Features that can be handled are accepted. *)
Lemma handled_infos : answers E A -> (forall j, takes_part A w x j -> handled A w x j) -> exists infos, get_build_info E A ct w x = Ok infos.
Proof.
  intros HAns HH. destruct HR as [HPc HRs]. pose proof (wf_len _ _ HW) as HLe. assert (HY : (as_y A = 1 \/ as_y A = -1)%Z) by apply HW.
  destruct (grid_total E A w x HE HW HF Hx HAns) as (grid & Hg). destruct (grid_spec _ _ _ _ HE HW Hg) as (_ & [_ HG] & _ & _).
  unfold get_build_info. cbv zeta. rewrite Hg. cbn [bind]. set (cn := constrained_names E (as_cons A)) in *.
  assert (HGd : forall p, In p grid -> make_info E ct (as_names A) cn w x (fst p) (fst (snd p)) (snd (snd p)) = Ok None \/
     exists i, make_info E ct (as_names A) cn w x (fst p) (fst (snd p)) (snd (snd p)) = Ok (Some i) /\ check_info (as_y A) cn i = true).
  { intros [n [a c]] Hp. destruct (HG n (a, c) Hp) as (j & e & xj & d & K1 & K2 & K3 & K4 & K5). cbn [fst snd].
    destruct (Nat.ltb_spec (length a) 2) as [L2|L2]; [left; unfold make_info; apply Nat.ltb_lt in L2; now rewrite L2|].
    destruct (nth_error w j) as [wj|] eqn:Kw; [|apply nth_error_None in Kw; assert (j < length (as_names A))%nat by (apply nth_error_Some; congruence); unfold as_len in *; lia].
    pose proof (proj2 HF j e wj K2 Kw) as Hfl. pose proof (elem_at _ _ K2) as Hre. destruct (HRs j e xj K2 K3) as [R1 R2]. pose proof (constrained_iff E A j n HE HW K1) as CI. fold cn in CI.
    (* some other value is offered *)
    assert (OV : exists v, permitted e xj v /\ (d = true -> improving e xj v) /\ v <> xj).
    { pose proof (feasible_values_spec _ _ _ _ _ _ _ _ K4) as (_ & Ea & _). cbn [negb] in Ea. pose proof (feasible_x_sorted e xj d R1 (inv_grid _ _ (reachable_inv _ _ Hre))) as HS.
      assert (HI : forall v, In v (feasible_x e xj d) -> permitted e xj v /\ (d = true -> improving e xj v)) by (intros v Hv; now apply (feasible_x_In e xj d v R1)).
      rewrite Ea, map_length in L2. destruct (feasible_x e xj d) as [|u [|v r]]; cbn in L2; try lia.
      destruct (Qc_eq_dec u xj) as [->|Hne]; [|exists u; destruct (HI u (or_introl eq_refl)); auto].
      exists v. destruct (HI v (or_intror (or_introl eq_refl))). split; [auto|split; [auto|]]. intros ->. inversion HS as [|? ? _ Q]; subst. rewrite Forall_forall in Q. specialize (Q _ (or_introl eq_refl)). qlra. }
    destruct OV as (v & V1 & V2 & V3).
    assert (TP : takes_part A w x j).
    { exists e, wj, xj, v. split; [exact K2|]. split; [exact Kw|]. split; [exact K3|]. split; [exact R1|]. split; [exact V1|]. split; [exact V3|].
      destruct K5 as [(K5 & K6 & K7)|[K5 K6]]; [right|left; now apply CI]. subst d. specialize (V2 eq_refl). unfold improving in V2. rewrite Hfl in V2.
      assert (W0 : wj <> 0). { intros ->. apply (compat_coef e _ Hfl); [exact K6|]. destruct (as_y A =? 1)%Z; reflexivity. }
      assert (M : forall p q, 0 < p -> 0 < q -> 0 < p * q) by (intros; now apply qmul_pos).
      assert (UP : (exists f, (if (as_y A =? 1)%Z then qsign wj else (- qsign wj)%Z) = f /\ (0 < f)%Z) -> xj < v).
      { intros (f & Ef & Lf). rewrite Ef in V2. destruct V2 as [V2 V2']. first [specialize (V2 Lf)|specialize (V2' Lf)]. destruct (Qcle_lt_or_eq xj v) as [?|Q]; auto; congruence. }
      assert (DN : (exists f, (if (as_y A =? 1)%Z then qsign wj else (- qsign wj)%Z) = f /\ (f < 0)%Z) -> v < xj).
      { intros (f & Ef & Lf). rewrite Ef in V2. destruct V2 as [V2 V2']. first [specialize (V2' Lf)|specialize (V2 Lf)]. destruct (Qcle_lt_or_eq v xj) as [?|Q]; auto; congruence. }
      unfold attains. destruct (qsign_spec wj) as [[S1 S2]|[[S1 S2]|[S1 S2]]]; [|congruence|]; rewrite S2 in UP, DN; destruct HY as [HY|HY]; rewrite HY in *; cbn [Z.eqb Pos.eqb Z.ltb Z.compare Z.opp] in *.
      - specialize (UP ltac:(exists 1%Z; split; [reflexivity|lia])). apply M; qlra.
      - specialize (DN ltac:(exists (-1)%Z; split; [reflexivity|lia])). assert (G : 0 < wj * (xj - v)) by (apply M; qlra). replace (wj * (xj - v)) with (- (wj * (v - xj))) in G by ring. qlra.
      - specialize (DN ltac:(exists (-1)%Z; split; [reflexivity|lia])). assert (G : 0 < - wj * (xj - v)) by (apply M; qlra). replace (- wj * (xj - v)) with (wj * (v - xj)) in G by ring. qlra.
      - specialize (UP ltac:(exists 1%Z; split; [reflexivity|lia])). assert (G : 0 < - wj * (v - xj)) by (apply M; qlra). replace (- wj * (v - xj)) with (- (wj * (v - xj))) in G by ring. qlra. }
    destruct (HH j TP) as (e' & wj' & xj' & Q1 & Q2 & Q3 & Q4 & Q5). rewrite K2 in Q1. injection Q1 as <-. rewrite Kw in Q2. injection Q2 as <-. rewrite K3 in Q3. injection Q3 as <-.
    assert (Hwj : isclose0 wj = false) by (apply qle_false; exact Q4).
    assert (Hw0 : wj <> 0) by now apply isclose0_false.
    destruct K5 as [(K5 & K6 & K7)|[K5 K6]]; subst d.
    - assert (Sgn : forall u, improving e xj u -> if (0 <? as_y A * qsign wj)%Z then xj <= u else u <= xj).
      { intros u Hv. unfold improving in Hv. rewrite Hfl in Hv. destruct (qsign_spec wj) as [[S1 S2]|[[S1 S2]|[S1 S2]]]; [|congruence|]; rewrite S2 in *; destruct HY as [HY|HY]; rewrite HY in *; cbn in Hv |- *; destruct Hv as [U1 U2].
        all: first [apply U1; lia | apply U2; lia]. }
      apply (entry_total E A ct w x n j e xj wj a c cn true (0 <? as_y A * qsign wj)%Z); auto; [intros pdf u; apply HD|apply HW|intros u u' P1 P2; apply (HPc j e xj K2 K3 u u' P1 P2)| |].
      + intros u _ Hu. exact (Sgn u (Hu eq_refl)).
      + intro Sm. exfalso. apply K7. now apply smem_iff.
    - pose proof (proj1 CI K6) as HC. destruct (Q5 HC) as [[W|W] W0].
      + apply (entry_total E A ct w x n j e xj wj a c cn false true); auto; [intros pdf u; apply HD|apply HW|intros u u' P1 P2; apply (HPc j e xj K2 K3 u u' P1 P2)|].
        intro Sm. exfalso. assert (smem n cn = true) by (now apply smem_iff). congruence.
      + apply (entry_total E A ct w x n j e xj wj a c cn false false); auto; [intros pdf u; apply HD|apply HW|intros u u' P1 P2; apply (HPc j e xj K2 K3 u u' P1 P2)|].
        intro Sm. exfalso. assert (smem n cn = true) by (now apply smem_iff). congruence. }
  clear HG Hg.
  assert (HM : exists l, mapM (fun p : string * gridentry => make_info E ct (as_names A) cn w x (fst p) (fst (snd p)) (snd (snd p))) grid = Ok l /\ forallb (check_info (as_y A) cn) (flat_map (fun o : option info => match o with Some i => [i] | None => [] end) l) = true).
  { induction grid as [|p grid IH]; [exists []; split; reflexivity|]. destruct IH as (l & Hl & Hc); [intros; apply HGd; now right|]. cbn [mapM].
    unfold dict, gridentry in *. destruct (HGd p (or_introl eq_refl)) as [Q|(i & Q & Hi)]; [exists (None :: l)|exists (Some i :: l)]; rewrite Q; cbn [bind]; rewrite Hl; cbn [bind]; (split; [reflexivity|]); cbn [flat_map app forallb]; [exact Hc|now rewrite Hi]. }
  destruct HM as (l & Hl & Hc). unfold dict, gridentry in *. rewrite Hl. cbn [bind]. rewrite Hc. cbn [passert bind]. eauto.
Qed.
End Settable.

Lemma same_members {T} (l m : list T) : NoDup l -> NoDup m -> (forall t, In t l <-> In t m) -> length l = length m.
Proof. intros H1 H2 H. apply Permutation_length, NoDup_Permutation; auto. Qed.

Lemma assign_iff E sv b x : ok_env E -> density E -> builder_reachable E sv b -> log_ok E (bd_cost b) -> flips_match (bd_A b) (bd_w b) ->
  length x = length (bd_w b) -> answers E (bd_A b) -> regular E (bd_A b) x ->
  (snd (set_x E b x) = Ok tt <-> settable (bd_A b) (bd_w b) x /\ (bd_cost b = CMax \/ exists j, takes_part (bd_A b) (bd_w b) x j)).
Proof.
  intros HE HD HB HL HF Hx HAns HR. destruct (reachable_sane E sv b HB) as (HW0 & Lw); pose proof (reachable_wf _ _ HW0) as HW.
  assert (Hx' : length x = as_len (bd_A b)) by congruence.
  unfold set_x. rewrite Hx, Nat.eqb_refl. unfold build.
  pose proof (infos_handled E (bd_A b) (bd_cost b) (bd_w b) x HE HD HW HL HF HR) as H1.
  pose proof (handled_infos E (bd_A b) (bd_cost b) (bd_w b) x HE HD HW HL HF Hx' Lw HR HAns) as H2.
  destruct (get_build_info E (bd_A b) (bd_cost b) (bd_w b) x) as [infos|err] eqn:HI; cbn [bind].
  2:{ cbn [snd]. split; [discriminate|]. intros [[S1 _] _]. destruct (H2 S1) as (? & Q). discriminate Q. }
  specialize (H1 infos eq_refl). clear H2.
  pose proof (line_members E _ _ _ _ infos HE HW HI HF) as LM. pose proof (build_info_spec _ _ _ _ _ infos HE HW HI) as (_ & [_ ND] & _).
  assert (SR : (exists subs, mapM (subset_rows (bd_kind b) infos) (combine (seq 0 (length (r_cons (as_cons (bd_A b))))) (map snd (r_cons (as_cons (bd_A b))))) = Ok subs) <-> forall j, constrained_at (bd_A b) j -> (j < length infos)%nat).
  { pose proof HW as (_ & _ & _ & _ & [[_ HK] _] & _). split.
    - intros (subs & Hs) j (id & c & Hst & Hj). apply mapM_ok in Hs. apply dget_In in Hst.
      assert (Hc : In c (map snd (r_cons (as_cons (bd_A b))))) by (apply in_map_iff; exists (id, c); auto). apply In_nth_error in Hc. destruct Hc as (p & Hc).
      assert (Hq : nth_error (combine (seq 0 (length (r_cons (as_cons (bd_A b))))) (map snd (r_cons (as_cons (bd_A b))))) p = Some (p, c)).
      { rewrite <- (map_length snd). rewrite combine_seq_nth, Hc. reflexivity. }
      apply Forall2_nth in Hs. destruct Hs as [LL Hs]. destruct (nth_error subs p) as [rs|] eqn:Er.
      2:{ apply nth_error_None in Er. assert (p < length (combine (seq 0 (length (r_cons (as_cons (bd_A b))))) (map snd (r_cons (as_cons (bd_A b))))))%nat by (apply nth_error_Some; congruence). lia. }
      specialize (Hs p _ _ Hq Er). unfold subset_rows in Hs. bnd Hs as vs Hvs. apply mapM_ok in Hvs. clear Hs.
      apply In_nth_error in Hj. destruct Hj as (q & Hj). apply Forall2_nth in Hvs. destruct Hvs as [LL2 Hvs]. destruct (nth_error vs q) as [v|] eqn:Ev.
      2:{ apply nth_error_None in Ev. assert (q < length (c_indices c))%nat by (apply nth_error_Some; congruence). lia. }
      specialize (Hvs q _ _ Hj Ev). rewrite nth_error_map in Hvs. destruct (nth_error infos j) eqn:Ei; [apply nth_error_Some; congruence|discriminate Hvs].
    - intro Hlt. apply mapM_total. intros [pos c] Hin. apply in_combine_r in Hin. apply in_map_iff in Hin. destruct Hin as ((id & c') & Ec & Hin). cbn in Ec. subst c'.
      assert (Hst : stored (as_cons (bd_A b)) id c) by (apply dget_of_In; assumption).
      unfold subset_rows. destruct (mapM_total (fun j => of_option IndexError (nth_error (map null_var infos) j)) (c_indices c)) as (vs & ->); [|cbn [bind]; eauto].
      intros j Hj. assert (Lj : (j < length infos)%nat) by (apply Hlt; exists id, c; auto). rewrite nth_error_map. destruct (nth_error infos j) eqn:Ei; [cbn; eauto|apply nth_error_None in Ei; lia]. }
  assert (ST : settable (bd_A b) (bd_w b) x <-> forall j, constrained_at (bd_A b) j -> (j < length infos)%nat).
  { split.
    - intros (_ & part & N & M & Q) j Hj. rewrite <- (map_length i_idx). rewrite <- (same_members part (map i_idx infos)); auto. intro t. now rewrite M, LM.
    - intro Q. split; [exact H1|]. exists (map i_idx infos). split; [exact ND|]. split; [exact LM|]. now rewrite map_length. }
  assert (NE : (exists j, takes_part (bd_A b) (bd_w b) x j) <-> infos <> []).
  { split; [intros (j & Hj) ->; apply LM in Hj; destruct Hj|]. destruct infos as [|i r]; [congruence|]. intros _. exists (i_idx i). apply LM. now left. }
  rewrite ST, <- SR, NE. clear ST SR NE LM ND H1.
  destruct (mapM (subset_rows (bd_kind b) infos) (combine (seq 0 (length (r_cons (as_cons (bd_A b))))) (map snd (r_cons (as_cons (bd_A b)))))) as [subs|err]; cbn [bind].
  2:{ cbn [snd]. split; [discriminate|]. intros ((subs & Q) & _). discriminate Q. }
  destruct (bd_cost b).
  - destruct infos; cbn [bind snd]; (split; [intro Q|intros [_ [Q|Q]]]); try discriminate Q; try (now contradict Q); auto. split; [eauto|right; discriminate].
  - destruct infos; cbn [bind snd]; (split; [intro Q|intros [_ [Q|Q]]]); try discriminate Q; try (now contradict Q); auto. split; [eauto|right; discriminate].
  - cbn [snd]. split; intro; [split; [eauto|now left]|reflexivity].
Qed.
