(** Proofs about the dictionaries returned by fit and populate: C84-C88. *)
From Verif Require Import Proofs_props_element Proofs_props_actionset Spec_info Proofs_mip Proofs_info Proofs_vec Proofs_build Proofs_enum Proofs_session Proofs_recourse Proofs_subset Proofs_exchange Proofs_far Proofs_concrete Proofs_builder Proofs_builder2 Proofs_builder5 Proofs_scen Proofs_scen2 Proofs_builder6 Proofs_builder8.
#[local] Open Scope string_scope.
#[local] Open Scope list_scope.
#[local] Open Scope Qc_scope.

Lemma dict_shows k ct n ms o rp : shows n (dict_of k ct n ms o rp) (solution_info k ct n ms o).
Proof.
  unfold dict_of, solution_info. destruct (counters k rp) as [[it pr] rm]. destruct (exposed k o) as [s|]; repeat split.
Qed.
Lemma shows_runtime n t d r : shows n d r -> shows n (with_runtime t d) r.
Proof. destruct r; exact (fun H => H). Qed.
Lemma get_dict_shows rp b : match get_dict rp b, get_solution b with
  | Ok d, Ok r => shows (length (bd_w b)) d r | Err e, Err e' => e = e' | _, _ => False end.
Proof. unfold get_dict, get_solution. destruct (bd_mip b), (bd_sol b); try reflexivity. apply dict_shows. Qed.
Lemma solve_w sv b b' : solve_mip sv b = Ok b' -> bd_w b' = bd_w b.
Proof. unfold solve_mip. destruct (bd_mip b); [|intro H; discriminate H]. intro H. injection H as <-. reflexivity. Qed.

(** fit_dict and fit. *)
Lemma fit_dict_fit sv rp t b : match fit_dict sv rp t b, fit sv b with
  | Ok (b1, d), Ok (b2, r) => b1 = b2 /\ shows (length (bd_w b)) d r /\ d_runtime d = Fin t | Err e, Err e' => e = e' | _, _ => False end.
Proof.
  unfold fit_dict, fit. destruct (solve_mip sv b) as [b1|] eqn:Hs; cbn [bind]; [|reflexivity]. pose proof (get_dict_shows rp b1) as K. rewrite (solve_w _ _ _ Hs) in K.
  destruct (get_dict rp b1) as [d|], (get_solution b1) as [r|]; cbn [bind]; try (destruct K; fail); [|exact K].
  split; [reflexivity|]. split; [|reflexivity]. now apply shows_runtime.
Qed.
Lemma c84_fit sv rp t b b1 d : fit_dict sv rp t b = Ok (b1, d) -> exists r, fit sv b = Ok (b1, r) /\ shows (length (bd_w b)) d r /\ d_runtime d = Fin t.
Proof. intro H. pose proof (fit_dict_fit sv rp t b) as K. rewrite H in K. destruct (fit sv b) as [[b2 r]|]; [|destruct K]. destruct K as (<- & K). eauto. Qed.
Lemma c84_report sv rp t b b1 d : fit_dict sv rp t b = Ok (b1, d) -> exists ms, bd_mip b = Some ms /\ reports (bd_kind b) (rp (bd_calls b) (ms_mip ms)) d.
Proof.
  unfold fit_dict, solve_mip. destruct (bd_mip b) as [ms|] eqn:Hm; [|intro H; discriminate H]. cbn [bind]. unfold get_dict. cbn [with_mip with_call bd_mip bd_sol bd_kind bd_cost bd_w bd_calls pred bind]. intro H.
  exists ms. split; [reflexivity|]. injection H as _ <-. unfold dict_of, counters, reports, solution_info. destruct (bd_kind b); destruct (exposed _ _); cbn; repeat split; intros; try congruence; try reflexivity.
Qed.
Lemma c84_fit_total sv rp t b b1 r : fit sv b = Ok (b1, r) -> exists d, fit_dict sv rp t b = Ok (b1, d) /\ shows (length (bd_w b)) d r.
Proof. intro H. pose proof (fit_dict_fit sv rp t b) as K. rewrite H in K. destruct (fit_dict sv rp t b) as [[b2 d]|]; [|destruct K]. destruct K as (-> & K & _). eauto. Qed.

(** populate. *)
Lemma loop_dicts sv rp et fuel : forall total b, match populate_dicts_loop sv rp fuel total et b, populate_loop sv fuel total et b with
  | None, None => True
  | Some (Ok (b1, l)), Some (Ok (b2, l')) => b1 = b2 /\ Forall2 shows_solution l l' /\ Forall (fun d => d_runtime d = Fin 0) l
  | Some (Err e), Some (Err e') => e = e'
  | _, _ => False end.
Proof.
  induction fuel as [|fuel IH]; intros total b; cbn [populate_dicts_loop populate_loop].
  { destruct (match total with Some 0%nat => true | _ => false end); repeat constructor. }
  destruct (match total with Some 0%nat => true | _ => false end); [repeat constructor|].
  unfold fit. destruct (solve_mip sv b) as [b1|]; cbn [bind]; [|reflexivity].
  assert (RT : forall d, get_dict rp b1 = Ok d -> d_runtime d = Fin 0).
  { intros d H. unfold get_dict in H. destruct (bd_mip b1), (bd_sol b1); try discriminate H. injection H as <-. unfold dict_of. destruct (counters _ _) as [[? ?] ?]. match goal with |- context [match ?a with _ => _ end] => destruct a end; [|reflexivity]. match goal with |- context [match ?a with _ => _ end] => destruct a end; reflexivity. }
  pose proof (get_dict_shows rp b1) as K.
  destruct (get_dict rp b1) as [d|], (get_solution b1) as [r|]; cbn [bind]; try (destruct K; fail); [|exact K].
  destruct r as [s|].
  - pose proof (proj1 K) as Kf. rewrite Kf. cbn [negb]. destruct (remove_solution et b1) as [b2|]; [|reflexivity]. specialize (IH (option_map pred total) b2).
    destruct (populate_dicts_loop sv rp fuel (option_map pred total) et b2) as [[[b3 l]|]|], (populate_loop sv fuel (option_map pred total) et b2) as [[[b4 l']|]|]; try (destruct IH; fail); auto.
    destruct IH as (-> & F & R). split; [reflexivity|]. split; constructor; auto.
  - rewrite (proj1 K). cbn [negb]. repeat constructor.
Qed.
Lemma parse_total_spec v n : parse_total v = Ok n <-> asks_for v n.
Proof.
  split.
  - destruct v as [|[|]|z|[| | |]| | | | | |]; cbn; intro H; try discriminate H.
    + injection H as <-. right. left. auto.
    + destruct (Z.leb_spec 1 z); [|discriminate H]. injection H as <-. left. exists (Z.to_nat z). split; [lia|]. split; [f_equal; lia|reflexivity].
    + injection H as <-. right. right. auto.
  - intros [(k & Hk & -> & ->)|[(-> & ->)|(-> & ->)]]; cbn; try reflexivity. destruct (Z.leb_spec 1 (Z.of_nat k)); [now rewrite Nat2Z.id|lia].
Qed.
Lemma parse_total_err v e : parse_total v = Err e -> e = AssertionError.
Proof. destruct v as [|[|]|z|[| | |]| | | | | |]; cbn; intro H; try discriminate H; try (injection H as <-; reflexivity). destruct (1 <=? z)%Z; [discriminate H|now injection H]. Qed.
Lemma parse_enum_spec v et : parse_enum v = Ok et <-> names_enum v et.
Proof.
  unfold names_enum. split.
  - destruct v; cbn [parse_enum]; try (destruct (hashable _); intro H; discriminate H).
    destruct (String.eqb_spec s "mutually_exclusive"); [intro H; injection H as <-; now subst|].
    destruct (String.eqb_spec s "distinct_subsets"); [intro H; injection H as <-; now subst|intro H; discriminate H].
  - intros ->. destruct et; reflexivity.
Qed.
Lemma parse_cost_spec v ct : parse_cost v = Ok ct <-> names_cost v ct.
Proof.
  unfold names_cost. split.
  - destruct v; cbn [parse_cost]; try (destruct (hashable _); intro H; discriminate H).
    destruct (String.eqb_spec s "total"); [intro H; injection H as <-; now subst|].
    destruct (String.eqb_spec s "local"); [intro H; injection H as <-; now subst|].
    destruct (String.eqb_spec s "max"); [intro H; injection H as <-; now subst|intro H; discriminate H].
  - intros ->. destruct ct; reflexivity.
Qed.
Lemma asks_nonzero v n : asks_for v n -> n <> Some 0%nat.
Proof. intros [(k & Hk & _ & ->)|[(_ & ->)|(_ & ->)]]; try discriminate. intro H. injection H as ->. lia. Qed.
Lemma populate_is_loop sv fuel n et b : n <> Some 0%nat -> bd_mip b <> None -> populate sv fuel n et b = populate_loop sv fuel n et b.
Proof. intros Hn Hm. unfold populate. destruct (bd_mip b); [|congruence]. destruct n as [[|n]|]; congruence. Qed.
Lemma c87_call sv rp fuel total et b n e : asks_for total n -> names_enum et e ->
  match populate_call sv rp fuel total et b, populate sv fuel n e b with
  | None, None => True
  | Some (Ok (b1, l)), Some (Ok (b2, l')) => b1 = b2 /\ Forall2 shows_solution l l' /\ Forall (fun d => d_runtime d = Fin 0) l
  | Some (Err e), Some (Err e') => e = e'
  | _, _ => False end.
Proof.
  intros Hn He. pose proof (asks_nonzero _ _ Hn) as N0. unfold populate_call. apply parse_total_spec in Hn. apply parse_enum_spec in He. rewrite Hn, He. cbn [bind].
  destruct (bd_mip b) eqn:Hm.
  - rewrite populate_is_loop by congruence. apply loop_dicts.
  - unfold populate. now rewrite Hm.
Qed.
Lemma c87_reject sv rp fuel total et b : (forall n e, ~ (asks_for total n /\ names_enum et e)) ->
  exists e, populate_call sv rp fuel total et b = Some (Err e) /\ (e = AssertionError \/ e = TypeError).
Proof.
  intro H. unfold populate_call. destruct (bd_mip b); [|eauto]. destruct (parse_total total) as [n|e] eqn:Hn; cbn [bind].
  - destruct (parse_enum et) as [t|e] eqn:He; cbn [bind].
    + exfalso. apply (H n t). split; [now apply parse_total_spec|now apply parse_enum_spec].
    + exists e. split; [reflexivity|]. destruct et; cbn [parse_enum] in He; try (destruct (hashable _); injection He as <-; auto; fail).
      destruct (String.eqb s _); [discriminate He|]. destruct (String.eqb s _); [discriminate He|]. injection He as <-. auto.
  - exists e. split; [reflexivity|]. left. eapply parse_total_err, Hn.
Qed.

Lemma c87_flip_ok E sv srt fuel total et ct f n e c : asks_for total n -> names_enum et e -> names_cost ct c ->
  f_populate_call E sv srt fuel total et ct f = f_populate E sv srt fuel n e c f.
Proof.
  intros H1 H2 H3. apply parse_total_spec in H1. apply parse_enum_spec in H2. apply parse_cost_spec in H3. unfold f_populate_call. rewrite H1, H2, H3. reflexivity.
Qed.
Lemma c87_flip_bad E sv srt fuel total et ct f : (forall n e c, ~ (asks_for total n /\ names_enum et e /\ names_cost ct c)) ->
  exists f' e, f_populate_call E sv srt fuel total et ct f = Some (f', Err e) /\ f_df f' = f_df f /\ (f' = f \/ exists b, f' = f_with_builder f (Some b)).
Proof.
  intro H. unfold f_populate_call. destruct (parse_enum et) as [e|er] eqn:He; cbn [bind]; [|eauto 6]. destruct (parse_cost ct) as [c|er] eqn:Hc; cbn [bind]; [|eauto 6].
  destruct (parse_total total) as [n|er] eqn:Hn.
  - exfalso. apply (H n e c). split; [now apply parse_total_spec|]. split; [now apply parse_enum_spec|now apply parse_cost_spec].
  - destruct (match f_builder f with Some b => Ok b | None => _ end) as [b|e']; eexists _, _; (split; [reflexivity|]); (split; [reflexivity|]); eauto.
Qed.

(** What a dictionary says about bounds. *)
Lemma fit_dict_feasible sv rp t b ms b1 d : bd_mip b = Some ms -> fit_dict sv rp t b = Ok (b1, d) -> d_feasible d = true ->
  exists a s, exposed (bd_kind b) (sv (bd_calls b) (ms_mip ms)) = Some a /\ solution_info (bd_kind b) (bd_cost b) (length (bd_w b)) ms (sv (bd_calls b) (ms_mip ms)) = Some s /\
    fit sv b = Ok (b1, Some s) /\ shows_solution d s /\ d_upperbound d = Fin (objective (ms_mip ms) a) /\ d_lowerbound d = rp_bound (rp (bd_calls b) (ms_mip ms)) /\ d_gap d = rp_gap (rp (bd_calls b) (ms_mip ms)).
Proof.
  intros Hm H Hf. destruct (c84_fit _ _ _ _ _ _ H) as (r & HF & HS & _). unfold fit_dict, solve_mip in H. rewrite Hm in H. cbn [bind] in H.
  unfold get_dict in H. cbn [with_mip with_call bd_mip bd_sol bd_kind bd_cost bd_w bd_calls pred] in H. injection H as Hb Hd.
  unfold fit, solve_mip in HF. rewrite Hm in HF. cbn [bind] in HF. unfold get_solution in HF. cbn [with_mip with_call bd_mip bd_sol bd_kind bd_cost bd_w bind] in HF. injection HF as HF1 HF2.
  revert Hd HF2. unfold dict_of. destruct (counters _ _) as [[it pr] rm]. unfold solution_info. destruct (exposed (bd_kind b) (sv (bd_calls b) (ms_mip ms))) as [a|] eqn:Ex.
  - intros <- <-. exists a. eexists. split; [reflexivity|]. split; [reflexivity|]. split; [|split; [exact HS|repeat split]].
    unfold fit, solve_mip. rewrite Hm. cbn [bind]. unfold get_solution. cbn [with_mip with_call bd_mip bd_sol bd_kind bd_cost bd_w bind]. unfold solution_info. rewrite Ex, <- Hb. reflexivity.
  - intros <- _. discriminate Hf.
Qed.
Lemma fit_dict_none sv rp t b b1 d : fit_dict sv rp t b = Ok (b1, d) -> d_feasible d = false -> fit sv b = Ok (b1, None) /\ d_lowerbound d = PosInf.
Proof.
  intros H Hf. destruct (c84_fit _ _ _ _ _ _ H) as ([s|] & HF & HS & _); cbn [shows] in HS.
  - destruct HS as (K & _). congruence.
  - split; [exact HF|]. apply HS.
Qed.
Lemma agree_same infos a ch ch' : agree infos a ch -> agree infos a ch' -> forall i, In i infos -> ch (i_idx i) = ch' (i_idx i).
Proof.
  intros [H1 H2] [H1' H2'] i Hi. destruct (H2 i Hi) as [_ K]. destruct (H2' i Hi) as [_ K']. specialize (H1 i Hi).
  specialize (K _ H1). specialize (K' _ H1). rewrite K in K'. unfold hot in K'. rewrite Nat.eqb_refl in K'.
  destruct (Nat.eqb_spec (ch (i_idx i)) (ch' (i_idx i))); [assumption|discriminate K'].
Qed.
Lemma shape_cost sv b ms P b1 s a : sound_solver sv -> good b ms P -> exposed (bd_kind b) (sv (bd_calls b) (ms_mip ms)) = Some a -> fit sv b = Ok (b1, Some s) ->
  exists ch, P ch /\ ch_ok (ms_infos ms) ch /\ s_actions s = avec (length (bd_w b)) (ms_infos ms) ch /\ s_costs s = cvec (length (bd_w b)) (ms_infos ms) ch /\
    objective (ms_mip ms) a = s_cost s + (match bd_cost b with CMax => epsilon (ms_infos ms) * qsum (chosen_costs (ms_infos ms) ch) | _ => 0 end).
Proof.
  intros HS G Ex HF. destruct (fit_good sv b ms P HS G) as (b' & r & o & HF' & -> & _ & _ & _ & _ & V & HR). rewrite HF in HF'. injection HF' as <- <-.
  destruct HR as (ch & a' & g & HP & Ha & Ho & HI & _). assert (a' = a) by (destruct Ho as [Ho|Ho]; rewrite Ho in Ex; unfold exposed in Ex; destruct (bd_kind b); try destruct g; congruence). subst a'.
  assert (HSat : mip_sat (ms_mip ms) a = true) by (destruct Ho as [Ho|Ho]; rewrite Ho in V; cbn in V; [apply V|exact V]).
  exists ch. split; [exact HP|]. pose proof (proj2 (gd_pass _ _ _ G ch) HP) as Pa. pose proof (proj2 (proj2 (encode _ _ _ (gd_wf _ _ _ G) _ _ (gd_shape _ _ _ G)) Pa)) as Ho'. split; [exact Ho'|]. split; [apply HI|]. split; [apply HI|].
  destruct HI as (_ & _ & I3 & I4 & _).
  assert (D : bd_cost b = CMax \/ bd_cost b <> CMax) by (destruct (bd_cost b); auto; right; congruence). destruct D as [D|D].
  - destruct (decode _ _ _ (gd_wf _ _ _ G) _ _ (gd_shape _ _ _ G) HSat) as (K1 & _ & _ & _ & K2). destruct (K2 D) as (K3 & _ & K4). rewrite D. rewrite K4.
    assert (s_cost s = a VMax).
    { unfold fit, solve_mip in HF. rewrite (gd_mip _ _ _ G) in HF. cbn [bind] in HF. unfold get_solution in HF. cbn [with_mip with_call bd_mip bd_sol bd_kind bd_cost bd_w bind] in HF. injection HF as _ HF.
      unfold solution_info in HF. rewrite Ex, D in HF. injection HF as <-. reflexivity. }
    f_equal; [congruence|]. f_equal. f_equal. unfold chosen_costs. apply map_ext_in. intros i Hi. now rewrite (agree_same _ _ _ _ K1 Ha i Hi).
  - rewrite (objective_sum _ _ _ (gd_wf _ _ _ G) _ _ ch (gd_shape _ _ _ G) D Ha), (I3 D). destruct (bd_cost b); try ring. congruence.
Qed.

Lemma session_state sv b l b' : session sv b l b' -> forall ms P, sound_solver sv -> good b ms P ->
  exists ms' P', good b' ms' P' /\ ms_infos ms' = ms_infos ms /\ same_settings b b' /\ forall ch, P' ch -> P ch.
Proof.
  induction 1 as [b|b b1 r l b2 HF HSes IH|b fuel total et b1 l1 l b2 HP HSes IH]; intros ms P HS G.
  - exists ms, P. auto using same_settings_refl.
  - destruct (fit_good sv b ms P HS G) as (b1' & r' & o & EF & Ho & G1 & SS1 & _ & _ & _ & HR). rewrite HF in EF. injection EF as <- <-.
    destruct (IH ms P HS G1) as (ms' & P' & G' & EI & SS & HPP). exists ms', P'. split; [exact G'|]. split; [exact EI|]. split; [eapply same_settings_trans; eauto|exact HPP].
  - destruct (populate_good' _ _ _ _ _ _ _ _ _ HS G HP) as (chs & ms1 & F2 & EN & EI & SS & G1 & _).
    destruct (IH ms1 _ HS G1) as (ms' & P' & G' & EI' & SS' & HPP). exists ms', P'. split; [exact G'|]. split; [congruence|]. split; [eapply same_settings_trans; eauto|].
    intros ch Hch. apply HPP in Hch. apply after_iff in Hch. apply Hch.
Qed.

Section Bounds.
Context (E : env) (sv : solver) (rp : reporter) (b : builder) (x : list Qc) (b0 : builder).
Context (HE : ok_env E) (HS : sound_solver sv) (HR : honest rp) (HA : assigned E sv b x b0).
Context (HD : density E) (HL : log_ok E (bd_cost b)) (HG : good_setup E b x) (HRg : regular E (bd_A b) x).

Lemma bound_below ms t b1 d ch : ready E b x b0 ms -> fit_dict sv rp t b0 = Ok (b1, d) -> d_feasible d = true \/ finishing_solver sv ->
  accept (bd_A b) (bd_w b) (bd_t b) (bd_min b) (bd_max b) x (ms_infos ms) ch -> fle (d_lowerbound d) (Fin (choice_cost (bd_cost b) (ms_infos ms) ch)).
Proof.
  intros R HF HO Hch. pose proof (rd_good _ _ _ _ _ R) as G. destruct (d_feasible d) eqn:Hf.
  - destruct (fit_dict_feasible _ _ _ _ _ _ _ (gd_mip _ _ _ G) HF Hf) as (a & s & _ & _ & _ & _ & _ & -> & _).
    destruct (rd_n _ _ _ _ _ R) as (_ & N2 & _).
    pose proof (proj2 (gd_pass _ _ _ G ch) Hch) as Pa. destruct (proj2 (encode _ _ _ (gd_wf _ _ _ G) _ _ (gd_shape _ _ _ G)) Pa) as [K1 K2].
    rewrite <- N2, <- (objective_assign _ _ _ (gd_wf _ _ _ G) _ _ (gd_shape _ _ _ G) K2). now apply HR.
  - exfalso. destruct HO as [HO|HO]; [discriminate HO|]. destruct (fit_dict_none _ _ _ _ _ _ HF Hf) as [HN _].
    destruct (fit_ready E sv b x b0 HS ms R) as (b1' & r & HF' & K). rewrite HN in HF'. injection HF' as <- <-. exact (K HO ch Hch).
Qed.
Lemma good_accept ms a : ready E b x b0 ms -> permitted_action (bd_A b) x a -> (Z.of_nat (n_changed a) <= bd_max b)%Z ->
  on_side (as_y (bd_A b)) (score (bd_w b) (bd_t b) (vadd x a)) -> compliant (bd_A b) x a ->
  accept (bd_A b) (bd_w b) (bd_t b) (bd_min b) (bd_max b) x (ms_infos ms) (counterpart (ms_infos ms) a).
Proof. intros R HP Hhi HO HC. destruct HG as (G1 & G2 & G3 & G4 & G5). eapply (counterpart_accepted E); eauto using rd_wf, rd_info, rd_w. Qed.
Lemma fle_trans p q f : fle f (Fin p) -> p <= q -> fle f (Fin q).
Proof. destruct f; cbn; auto. intros. qlra. Qed.
Lemma c85_sum t b1 d a cs : bd_cost b <> CMax -> fit_dict sv rp t b0 = Ok (b1, d) -> d_feasible d = true \/ finishing_solver sv ->
  permitted_action (bd_A b) x a -> (Z.of_nat (n_changed a) <= bd_max b)%Z -> on_side (as_y (bd_A b)) (score (bd_w b) (bd_t b) (vadd x a)) -> compliant (bd_A b) x a ->
  action_costs E (bd_cost b) (bd_A b) x a cs -> fle (d_lowerbound d) (Fin (qsum cs)).
Proof.
  intros Hc HF HO HP Hhi Hon HCp Hcs. destruct (assigned_ready E sv b x b0 HE HA) as (ms & R).
  pose proof (bound_below ms t b1 d _ R HF HO (good_accept ms a R HP Hhi Hon HCp)) as K. eapply fle_trans; [exact K|]. unfold choice_cost.
  destruct HG as (G1 & G2 & G3 & G4 & G5).
  assert (Q : qsum (chosen_costs (ms_infos ms) (counterpart (ms_infos ms) a)) <= qsum cs) by (eapply (counterpart_sum E); eauto using rd_wf, rd_info, rd_w).
  destruct (bd_cost b); [exact Q|exact Q|congruence].
Qed.
Lemma c85_max t b1 d a cs m j e xj u v c c' : bd_cost b = CMax -> fit_dict sv rp t b0 = Ok (b1, d) -> d_feasible d = true \/ finishing_solver sv ->
  permitted_action (bd_A b) x a -> (Z.of_nat (n_changed a) <= bd_max b)%Z -> on_side (as_y (bd_A b)) (score (bd_w b) (bd_t b) (vadd x a)) -> compliant (bd_A b) x a ->
  action_costs E (bd_cost b) (bd_A b) x a cs -> largest cs m ->
  nth_error (as_elems (bd_A b)) j = Some e -> nth_error x j = Some xj -> (exists wj, nth_error (bd_w b) j = Some wj /\ wj <> 0) ->
  permitted e xj u -> improving e xj u -> permitted e xj v -> improving e xj v ->
  move_cost E (bd_cost b) e xj u c -> move_cost E (bd_cost b) e xj v c' -> c < c' ->
  fle (d_lowerbound d) (Fin (m + (c' - c))).
Proof.
  intros Hct HF HO HP Hhi Hon HCp Hcs Hlg Hj Hx Hwj Pu Iu Pv Iv Mu Mv Hlt. destruct (assigned_ready E sv b x b0 HE HA) as (ms & R).
  pose proof (good_accept ms a R HP Hhi Hon HCp) as HAc. pose proof (bound_below ms t b1 d _ R HF HO HAc) as K. eapply fle_trans; [exact K|].
  destruct HG as (G1 & G2 & G3 & G4 & G5).
  destruct (price_step E b x b0 HE ms j e xj u v c c' HD HL G1 G2 HRg Hct R Hj Hx Hwj Pu Iu Pv Iv Mu Mv Hlt) as (i & k & k' & Hi & Hk & <- & <-).
  assert (Q2 : qmaxl (chosen_costs (ms_infos ms) (counterpart (ms_infos ms) a)) 0 <= m) by (eapply (counterpart_max E); eauto using rd_wf, rd_info, rd_w).
  assert (Ne : ms_infos ms <> []) by (intro E0; rewrite E0 in Hi; destruct Hi).
  destruct (eps_bounds E (bd_A b) (bd_cost b) (bd_w b) x (ms_infos ms) (as_len (bd_A b)) HE (rd_wf _ _ _ _ _ R) (rd_info _ _ _ _ _ R) eq_refl (rd_w _ _ _ _ _ R) HRg HD HL Ne) as [_ EB].
  specialize (EB _ i (proj1 HAc) Hi).
  destruct (x_min_diff E (bd_A b) (bd_cost b) (bd_w b) x (ms_infos ms) (as_len (bd_A b)) HE (rd_wf _ _ _ _ _ R) (rd_info _ _ _ _ _ R) eq_refl (rd_w _ _ _ _ _ R) HRg HD HL i k k' Hi Hk) as [_ MD].
  rewrite Hct. cbn [choice_cost]. qlra.
Qed.
End Bounds.

Section Upper.
Context (E : env) (sv : solver) (rp : reporter) (b : builder) (x : list Qc) (b0 : builder).
Context (HE : ok_env E) (HS : sound_solver sv) (HA : assigned E sv b x b0).
Lemma c86_equal l b1 t b2 d : bd_cost b <> CMax -> session sv b0 l b1 -> fit_dict sv rp t b1 = Ok (b2, d) -> d_upperbound d = d_cost d.
Proof.
  intros Hc Hs HF. destruct (assigned_ready E sv b x b0 HE HA) as (ms & R). destruct (rd_n _ _ _ _ _ R) as (_ & N2 & _).
  destruct (session_state sv b0 l b1 Hs ms _ HS (rd_good _ _ _ _ _ R)) as (ms' & P' & G' & EI & SS & HPP). destruct (d_feasible d) eqn:Hf.
  - destruct (fit_dict_feasible _ _ _ _ _ _ _ (gd_mip _ _ _ G') HF Hf) as (a & s & Ex & _ & HFit & (_ & -> & _) & -> & _).
    destruct (shape_cost _ _ _ _ _ _ _ HS G' Ex HFit) as (ch & _ & _ & _ & _ & ->). f_equal. destruct SS as (_ & _ & _ & _ & K & _). rewrite K, N2. destruct (bd_cost b); try ring. congruence.
  - destruct (c84_fit _ _ _ _ _ _ HF) as ([s|] & _ & K & _); cbn [shows] in K; [destruct K as [K _]; congruence|]. destruct K as (_ & -> & _ & _ & -> & _). reflexivity.
Qed.
Lemma c86_max l b1 t b2 d j e xj u v c c' : density E -> log_ok E (bd_cost b) -> orderly E (bd_A b) (bd_w b) x -> flips_match (bd_A b) (bd_w b) -> regular E (bd_A b) x ->
  bd_cost b = CMax -> session sv b0 l b1 -> fit_dict sv rp t b1 = Ok (b2, d) -> d_feasible d = true ->
  nth_error (as_elems (bd_A b)) j = Some e -> nth_error x j = Some xj -> (exists wj, nth_error (bd_w b) j = Some wj /\ wj <> 0) ->
  permitted e xj u -> improving e xj u -> permitted e xj v -> improving e xj v ->
  move_cost E (bd_cost b) e xj u c -> move_cost E (bd_cost b) e xj v c' -> c < c' ->
  exists p q, d_cost d = Fin p /\ d_upperbound d = Fin q /\ p < q /\ q <= p + (c' - c).
Proof.
  intros HD HL HU HFl HRg Hct Hs HF Hf Hj Hx Hwj Pu Iu Pv Iv Mu Mv Hlt. destruct (assigned_ready E sv b x b0 HE HA) as (ms & R). destruct (rd_n _ _ _ _ _ R) as (N1 & N2 & _).
  destruct (session_state sv b0 l b1 Hs ms _ HS (rd_good _ _ _ _ _ R)) as (ms' & P' & G' & EI & SS & HPP).
  destruct (fit_dict_feasible _ _ _ _ _ _ _ (gd_mip _ _ _ G') HF Hf) as (a & s & Ex & _ & HFit & (_ & Hcost & _) & HUp & _).
  destruct (shape_cost _ _ _ _ _ _ _ HS G' Ex HFit) as (ch & HP' & Hok & _ & _ & HObj). destruct SS as (_ & _ & _ & _ & K & _). rewrite K, N2, Hct, EI in HObj. rewrite EI in Hok.
  destruct (price_step E b x b0 HE ms j e xj u v c c' HD HL HU HFl HRg Hct R Hj Hx Hwj Pu Iu Pv Iv Mu Mv Hlt) as (i & k & k' & Hi & Hk & <- & <-).
  assert (Ne : ms_infos ms <> []) by (intro E0; rewrite E0 in Hi; destruct Hi).
  destruct (eps_bounds E (bd_A b) (bd_cost b) (bd_w b) x (ms_infos ms) (as_len (bd_A b)) HE (rd_wf _ _ _ _ _ R) (rd_info _ _ _ _ _ R) eq_refl (rd_w _ _ _ _ _ R) HRg HD HL Ne) as [EP EB].
  specialize (EB _ i Hok Hi).
  destruct (x_min_diff E (bd_A b) (bd_cost b) (bd_w b) x (ms_infos ms) (as_len (bd_A b)) HE (rd_wf _ _ _ _ _ R) (rd_info _ _ _ _ _ R) eq_refl (rd_w _ _ _ _ _ R) HRg HD HL i k k' Hi Hk) as [_ MD].
  exists (s_cost s). eexists. split; [exact Hcost|]. split; [exact HUp|]. rewrite HObj.
  destruct (HPP ch HP') as (_ & _ & Hz & _).
  assert (Hz' : (1 <= Z.of_nat (size_ch (ms_infos ms) ch))%Z) by lia.
  destruct (size_pos (ms_infos ms) ch Hz') as (i0 & Hi0 & Hm0). pose proof (moved_cost_pos (ms_infos ms) (rd_infos _ _ _ _ _ R) ch i0 Hok Hi0 Hm0) as Hp.
  assert (Hin : In (cst i0 (ch (i_idx i0))) (chosen_costs (ms_infos ms) ch)) by (apply in_map_iff; eauto).
  pose proof (qsum_pos (chosen_costs (ms_infos ms) ch) _ (fun v => chosen_nonneg (ms_infos ms) (rd_infos _ _ _ _ _ R) ch v Hok) Hin) as Hq.
  assert (SP : 0 < epsilon (ms_infos ms) * qsum (chosen_costs (ms_infos ms) ch)).
  { rewrite <- (Qcmult_0_l (qsum (chosen_costs (ms_infos ms) ch))). apply Qcmult_lt_compat_r; [qlra|exact EP]. }
  split; qlra.
Qed.
Lemma c86_above l b1 t b2 d : density E -> log_ok E (bd_cost b) -> orderly E (bd_A b) (bd_w b) x -> flips_match (bd_A b) (bd_w b) -> regular E (bd_A b) x ->
  bd_cost b = CMax -> session sv b0 l b1 -> fit_dict sv rp t b1 = Ok (b2, d) -> d_feasible d = true ->
  exists p q, d_cost d = Fin p /\ d_upperbound d = Fin q /\ p < q.
Proof.
  intros HD HL HU HFl HRg Hct Hs HF Hf. destruct (assigned_ready E sv b x b0 HE HA) as (ms & R). destruct (rd_n _ _ _ _ _ R) as (N1 & N2 & _).
  destruct (session_state sv b0 l b1 Hs ms _ HS (rd_good _ _ _ _ _ R)) as (ms' & P' & G' & EI & SS & HPP).
  destruct (fit_dict_feasible _ _ _ _ _ _ _ (gd_mip _ _ _ G') HF Hf) as (a & s & Ex & _ & HFit & (_ & Hcost & _) & HUp & _).
  destruct (shape_cost _ _ _ _ _ _ _ HS G' Ex HFit) as (ch & HP' & Hok & _ & _ & HObj). destruct SS as (_ & _ & _ & _ & K & _). rewrite K, N2, Hct, EI in HObj. rewrite EI in Hok.
  exists (s_cost s). eexists. split; [exact Hcost|]. split; [exact HUp|]. rewrite HObj.
  destruct (HPP ch HP') as (_ & _ & Hz & _).
  assert (Hz' : (1 <= Z.of_nat (size_ch (ms_infos ms) ch))%Z) by lia.
  destruct (size_pos (ms_infos ms) ch Hz') as (i0 & Hi0 & Hm0). pose proof (moved_cost_pos (ms_infos ms) (rd_infos _ _ _ _ _ R) ch i0 Hok Hi0 Hm0) as Hp.
  assert (Ne : ms_infos ms <> []) by (intro E0; rewrite E0 in Hi0; destruct Hi0).
  destruct (eps_bounds E (bd_A b) (bd_cost b) (bd_w b) x (ms_infos ms) (as_len (bd_A b)) HE (rd_wf _ _ _ _ _ R) (rd_info _ _ _ _ _ R) eq_refl (rd_w _ _ _ _ _ R) HRg HD HL Ne) as [EP EB].
  assert (Hin : In (cst i0 (ch (i_idx i0))) (chosen_costs (ms_infos ms) ch)) by (apply in_map_iff; eauto).
  pose proof (qsum_pos (chosen_costs (ms_infos ms) ch) _ (fun v => chosen_nonneg (ms_infos ms) (rd_infos _ _ _ _ _ R) ch v Hok) Hin) as Hq.
  assert (SP : 0 < epsilon (ms_infos ms) * qsum (chosen_costs (ms_infos ms) ch)).
  { rewrite <- (Qcmult_0_l (qsum (chosen_costs (ms_infos ms) ch))). apply Qcmult_lt_compat_r; [qlra|exact EP]. }
  qlra.
Qed.
Lemma c85_closed l b1 t b2 d : density E -> log_ok E (bd_cost b) -> orderly E (bd_A b) (bd_w b) x -> flips_match (bd_A b) (bd_w b) -> regular E (bd_A b) x ->
  bd_cost b = CMax -> session sv b0 l b1 -> fit_dict sv rp t b1 = Ok (b2, d) -> d_feasible d = true -> d_lowerbound d = d_upperbound d -> ~ fle (d_lowerbound d) (d_cost d).
Proof.
  intros HD HL HU HFl HRg Hct Hs HF Hf Hcl. destruct (c86_above l b1 t b2 d HD HL HU HFl HRg Hct Hs HF Hf) as (p & q & H1 & H2 & H3). rewrite Hcl, H1, H2. cbn. intro. qlra.
Qed.
End Upper.

(** ** Other cost types *)
Lemma other_accepted E k A a x b0 : mk_builder E k A a CTotal (Some x) = Ok b0 -> exists n ms, other_builder E k A a x = Ok (n, ms).
Proof.
  intro H. unfold mk_builder in *. unfold other_builder, mk_builder. bnd H as wt Hp. destruct wt as [w t]. rewrite Hp. cbn [bind]. bnd H as u Hu. rewrite Hu. cbn [bind].
  bnd H as A' HA'. rewrite HA'. cbn [bind]. cbv zeta in *. unfold set_x in H. cbn [bd_w bd_kind bd_A bd_cost bd_t bd_min bd_max] in *.
  destruct (Nat.eqb (length x) (length w)); [|discriminate H].
  destruct (build E k A' CTotal w t 0 _ x) as [ms|] eqn:HB; [|discriminate H]. unfold build in HB. unfold build_other.
  bnd HB as infos Hi. rewrite Hi. cbn [bind]. bnd HB as subs Hsb. rewrite Hsb. cbn [bind]. eauto.
Qed.
Lemma other_rejected_same E k A a x e : mk_builder E k A a CTotal (Some x) = Err e -> e <> KeyError -> other_builder E k A a x = Err e.
Proof.
  intros H Hne. unfold mk_builder in *. unfold other_builder, mk_builder. destruct (parse_classifier_args a) as [[w t]|e1]; cbn [bind] in *; [|congruence].
  destruct (passert _) as [u|e1]; cbn [bind] in *; [|congruence]. destruct (if alignment_known A then _ else _) as [A'|e1]; cbn [bind] in *; [|congruence].
  cbv zeta in *. unfold set_x in H. cbn [bd_w bd_kind bd_A bd_cost bd_t bd_min bd_max] in *.
  destruct (Nat.eqb (length x) (length w)); [|cbn [bind] in H; congruence]. unfold build in H. unfold build_other.
  destruct (get_build_info E A' CTotal w x) as [infos|e1]; cbn [bind] in *; [|congruence].
  destruct (mapM _ _) as [subs|e1]; cbn [bind] in *; [|congruence]. destruct infos; cbn [bind] in H; [congruence|discriminate H].
Qed.
Lemma other_no_action E sv k A a x n ms : sound_solver sv -> other_builder E k A a x = Ok (n, ms) -> forall s, fit_other sv k n ms <> Ok (Some s).
Proof.
  intros HS H s. unfold fit_other. destruct (exposed k (sv 0%nat (ms_mip ms))) as [p|] eqn:Ex; [|discriminate]. destruct (ms_infos ms) as [|i l] eqn:EI; [|discriminate].
  exfalso. assert (Sat : mip_sat (ms_mip ms) p = true).
  { pose proof (HS 0%nat (ms_mip ms)) as V. destruct (sv 0%nat (ms_mip ms)) as [q [|]|q| |]; unfold exposed in Ex; destruct k; try discriminate Ex; injection Ex as ->; cbn in V; tauto. }
  unfold other_builder in H. bnd H as b Hb. destruct (Nat.eqb _ _); [|discriminate H]. bnd H as ms' Hms. injection H as _ <-.
  unfold build_other in Hms. bnd Hms as infos Hi. bnd Hms as subs Hsb. injection Hms as <-. cbn [ms_infos ms_mip] in *. subst infos.
  unfold mip_sat in Sat. cbn [m_vars m_rows m_sos] in Sat. apply andb_true_iff in Sat. destruct Sat as [Sat _]. apply andb_true_iff in Sat. destruct Sat as [_ Sat].
  rewrite forallb_forall in Sat. specialize (Sat (min_items_row (bd_min b) [])).
  assert (Q : row_ok p (min_items_row (bd_min b) []) = true) by (apply Sat; cbn [flat_map app]; right; right; left; reflexivity).
  unfold row_ok, min_items_row, row_le in Q. cbn [r_lo r_hi r_terms map length] in Q. cbn [andb] in Q. destruct (qle_spec (eval p (sum_of (@nil mvar))) (qz (Z.of_nat 0 - Z.max (bd_min b) 1))) as [Q'|Q']; [clear Q; rename Q' into Q|discriminate Q]. unfold sum_of, eval in Q. cbn [map qsum fold_right] in Q.
  change 0 with (qz 0) in Q. apply (proj1 (qz_le _ _)) in Q. lia.
Qed.

(** ** Examples and refutations *)
Lemma c85_max_refuted : forall k, exists b b0 x, (forall sv, assigned env0 sv b x b0) /\ plain_setup env0 b x /\ regular env0 (bd_A b) x /\ bd_kind b = k /\ bd_cost b = CMax /\
  forall sv rp t, sound_solver sv -> finishing_solver sv -> exists b1 d, fit_dict sv rp t b0 = Ok (b1, d) /\ d_feasible d = true /\
    (d_lowerbound d = d_upperbound d -> ~ fle (d_lowerbound d) (d_cost d)).
Proof.
  intro k. destruct (regular_case k CMax) as (b & b0 & HA & HP & HR & _ & _ & Hk & Hc & _ & _ & _ & HF). exists b, b0, [z 0; z 1].
  split; [exact HA|]. split; [exact HP|]. split; [exact HR|]. split; [exact Hk|]. split; [exact Hc|]. intros sv rp t HS HFi. destruct (HF sv HS HFi) as (b1 & s & Hf).
  destruct (c84_fit_total sv rp t _ _ _ Hf) as (d & Hd & Hs). exists b1, d. split; [exact Hd|]. split; [apply Hs|]. destruct HP as (_ & G1 & G2 & _).
  apply (c85_closed env0 sv rp b [z 0; z 1] b0 env0_ok HS (HA sv) [] b0 t b1 d env0_density); auto.
  - intro Q. rewrite Hc in Q. discriminate Q.
  - constructor.
  - apply Hs.
Qed.
Lemma c85_stopped_refuted : forall k, exists b b0 x a sv, (forall sv', assigned env0 sv' b x b0) /\ plain_setup env0 b x /\ bd_kind b = k /\ acceptable b x a /\ sound_solver sv /\
  forall rp t, exists b1 d, fit_dict sv rp t b0 = Ok (b1, d) /\ d_lowerbound d = PosInf.
Proof.
  intro k. destruct (c42_stopped k) as (b & b0 & x & a & sv & HA & HP & Hk & HAc & HS & b1 & Hf). exists b, b0, x, a, sv. repeat (split; [assumption|]). intros rp t.
  destruct (c84_fit_total sv rp t _ _ _ Hf) as (d & Hd & Hs). exists b1, d. split; [exact Hd|]. apply Hs.
Qed.
