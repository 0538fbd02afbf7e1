(** C109: the builder's check of its own answers. *)
From Verif Require Import Proofs_props_element Proofs_props_actionset Spec_recourse Model_check Proofs_mip Proofs_info Proofs_vec Proofs_build Proofs_enum Proofs_session Proofs_recourse Proofs_exchange Proofs_concrete Proofs_builder Proofs_builder3 Proofs_builder6 Proofs_scen Proofs_num Proofs_runs.
#[local] Open Scope string_scope.
#[local] Open Scope list_scope.
#[local] Open Scope Qc_scope.

(** ** At most one negligible option *)
Lemma drop_one l : forall k p, nth_error (drop_bugs false l) (S k) = Some p -> is_bug (nth 0 (drop_bugs false l) (0, 0)) = true -> is_bug p = false.
Proof.
  induction l as [|q l IH]; intros k p; [destruct k; discriminate|]. cbn [drop_bugs]. destruct (is_bug q) eqn:B.
  - cbn. intros H _. eapply drop_bugs_clean, nth_error_In, H.
  - cbn [nth]. congruence.
Qed.
Definition crisp (i : info) : Prop := forall k, (0 < k < nopt i)%nat -> isclose0 (act i k) = false.
Lemma make_crisp E ct names cn w x n a c i : make_info E ct names cn w x n a c = Ok (Some i) -> act i 0 = 0 -> crisp i.
Proof.
  unfold make_info. destruct (Nat.ltb _ _); [discriminate|]. cbv zeta. intro H. do 6 (apply bind_ok in H; destruct H as (? & _ & H)). injection H as <-. unfold crisp, act, nopt. cbn [i_actions].
  set (d := drop_bugs false _). intros H0 k [K1 K2]. rewrite map_length in K2. destruct k as [|k]; [lia|].
  destruct (nth_error d (S k)) as [p|] eqn:Ep; [|apply nth_error_None in Ep; lia].
  assert (B : is_bug (nth 0 d (0, 0)) = true). { destruct d as [|q d']; [destruct k; discriminate|]. cbn in H0 |- *. unfold is_bug. rewrite H0, isclose0_0. apply orb_true_r. }
  pose proof (drop_one _ k p Ep B) as C. unfold is_bug in C. apply orb_false_iff in C. destruct C as [_ C].
  rewrite (nth_error_nth (map fst d) (S k) 0 (map_nth_error fst _ _ Ep)). exact C.
Qed.
Lemma infos_crisp E A ct w x infos : get_build_info E A ct w x = Ok infos -> (forall i, In i infos -> act i 0 = 0) -> forall i, In i infos -> crisp i.
Proof.
  intros H H0 i Hi. unfold get_build_info in H. cbv zeta in H. bnd H as grid Hg. bnd H as l Hl. bnd H as u Hu. injection H as <-.
  specialize (H0 i Hi). apply in_flat_map in Hi. destruct Hi as ([j|] & Hj & Hi); [|destruct Hi]. destruct Hi as [->|[]].
  apply mapM_ok in Hl. clear - Hl Hj H0. induction Hl as [|p o grid l H1 H2 IH]; [destruct Hj|]. destruct Hj as [->|Hj]; [|auto]. eapply make_crisp; eauto.
Qed.

(** ** Positions *)
Lemma positions_In p l j : In j (positions p l) <-> exists v, nth_error l j = Some v /\ p v = true.
Proof.
  unfold positions. rewrite in_map_iff. split.
  - intros ((k & v) & <- & H). apply filter_In in H. destruct H as [H1 H2]. cbn in *. exists v. split; [|exact H2]. apply In_nth_error in H1. destruct H1 as (m & Hm).
    assert (L : (m < length l)%nat). { assert (Q : (m < length (combine (seq 0 (length l)) l))%nat) by (apply nth_error_Some; congruence). rewrite combine_length, seq_length in Q. lia. }
    assert (K : nth_error (combine (seq 0 (length l)) l) m = Some (m, nth m l 0)).
    { rewrite nth_error_nth' with (d := (0%nat, 0)) by (rewrite combine_length, seq_length; lia). rewrite combine_nth by now rewrite seq_length. now rewrite seq_nth. }
    rewrite K in Hm. injection Hm as <- <-. apply nth_error_nth'. exact L.
  - intros (v & Hv & Hp). exists (j, v). split; [reflexivity|]. apply filter_In. split; [|exact Hp]. assert (L : (j < length l)%nat) by (apply nth_error_Some; congruence).
    apply nth_error_In with (n := j). rewrite nth_error_nth' with (d := (0%nat, 0)) by (rewrite combine_length, seq_length; lia). rewrite combine_nth by now rewrite seq_length. rewrite seq_nth by exact L. now rewrite (nth_error_nth _ _ 0 Hv).
Qed.
Lemma positions_length p l : length (positions p l) = length (filter p l).
Proof.
  unfold positions. rewrite map_length. generalize 0%nat. induction l as [|v l IH]; intro k; [reflexivity|]. cbn [length seq combine filter snd]. destruct (p v); cbn; now rewrite IH.
Qed.
Lemma filter_ext_nth {A} (p q : A -> bool) l : (forall j v, nth_error l j = Some v -> p v = q v) -> filter p l = filter q l.
Proof.
  intro H. induction l as [|a l IH]; [reflexivity|]. cbn. rewrite (H 0%nat a eq_refl), IH; [reflexivity|]. intros j v Hv. exact (H (S j) v Hv).
Qed.

(** ** What sessions keep *)
Definition same_person (b b' : builder) : Prop := bd_x b' = bd_x b /\ bd_actionable b' = bd_actionable b.
Lemma person_trans a b c : same_person a b -> same_person b c -> same_person a c.
Proof. intros [H1 H2] [K1 K2]. split; congruence. Qed.
Lemma session_person sv b l b1 : session sv b l b1 -> same_person b b1.
Proof.
  assert (F : forall b c r, fit sv b = Ok (c, r) -> same_person b c).
  { intros b0 c r. unfold fit, solve_mip, get_solution. destruct (bd_mip b0); [|discriminate]. cbn. intro H. injection H as <- <-. repeat split. }
  assert (Rm : forall et b c, remove_solution et b = Ok c -> same_person b c).
  { intros et b0 c. unfold remove_solution, remove_all_features, remove_feature_combination, with_solution. destruct et, (bd_mip b0), (bd_sol b0) as [[]|]; intro H; try discriminate H; injection H as <-; repeat split. }
  assert (Lp : forall et fuel total b c l, populate_loop sv fuel total et b = Some (Ok (c, l)) -> same_person b c).
  { intros et fuel. induction fuel as [|f IH]; intros total b0 c l0 H; cbn in H; destruct (match total with Some 0%nat => true | _ => false end).
    - injection H as <- <-. repeat split.
    - discriminate H.
    - injection H as <- <-. repeat split.
    - destruct (fit sv b0) as [[c1 [s|]]|] eqn:Hf; try discriminate H.
      + destruct (remove_solution et c1) as [c2|] eqn:Hr; [|discriminate H]. destruct (populate_loop sv f (option_map pred total) et c2) as [[[c3 l3]|]|] eqn:Hl; try discriminate H. injection H as <- <-.
        eapply person_trans; [eapply F, Hf|]. eapply person_trans; [eapply Rm, Hr|]. eapply IH, Hl.
      + injection H as <- <-. eapply F, Hf. }
  induction 1 as [b|b b1 r l b2 Hf Hs IH|b fuel total et b1 l1 l b2 Hp Hs IH].
  - repeat split.
  - eapply person_trans; [eapply F, Hf|exact IH].
  - eapply person_trans; [|exact IH]. unfold populate in Hp. destruct (bd_mip b); [|discriminate Hp]. destruct total as [[|n]|]; try discriminate Hp; eapply Lp, Hp.
Qed.

Lemma close_refl r a : 0 <= r -> close r atol a a = true.
Proof.
  intro R. unfold close. apply qle_iff. replace (a - a) with 0 by ring. change (qabs 0) with (if 0 <=? 0 then 0 else - 0). change (0 <=? 0) with true. cbn iota.
  assert (P : 0 <= r * qabs a) by (apply qmul_nonneg; [exact R|apply qabs_nonneg]).
  assert (0 <= atol) by (apply qle_iff; reflexivity). qlra.
Qed.
Section Check.
Context (E : env) (sv : solver) (b : builder) (x : list Qc) (b0 : builder).
Context (HE : ok_env E) (HS : sound_solver sv) (HA : assigned E sv b x b0).

Lemma item_crisp l b1 s : session sv b0 l b1 -> In s l -> length (s_actions s) = as_len (bd_A b) /\ length (s_costs s) = as_len (bd_A b) /\
  forall j aj, nth_error (s_actions s) j = Some aj -> (aj = 0 /\ nth_error (s_costs s) j = Some 0) \/ (aj <> 0 /\ isclose0 aj = false /\ exists c, nth_error (s_costs s) j = Some c /\ 0 < c).
Proof.
  intros Hs Hin. destruct (session_item E sv b x b0 HE HS HA _ _ _ Hs Hin) as (ms & ch & R & (Hc & _) & (-> & -> & _)).
  pose proof (rd_infos _ _ _ _ _ R) as [WF ND]. rewrite Forall_forall in WF.
  pose proof (infos_crisp _ _ _ _ _ _ (rd_info _ _ _ _ _ R) (fun i Hi => wi_a0 _ (WF i Hi))) as CR.
  split; [apply scatter_length|]. split; [apply scatter_length|]. intros j aj Hj.
  assert (L : (j < as_len (bd_A b))%nat). { assert (Q : (j < length (avec (as_len (bd_A b)) (ms_infos ms) ch))%nat) by (apply nth_error_Some; congruence). unfold avec in Q. rewrite scatter_length in Q. exact Q. }
  rewrite (avec_nth (ms_infos ms) _ ch j L) in Hj. apply (f_equal (fun o => match o with Some q => q | None => 0 end)) in Hj. cbn in Hj. subst aj.
  rewrite (cvec_nth (ms_infos ms) _ ch j L). destruct (info_at (ms_infos ms) j) as [i|] eqn:Ei; [|left; auto].
  apply info_at_Some in Ei. destruct Ei as [Hi <-]. specialize (Hc i Hi). destruct (ch (i_idx i)) as [|k] eqn:Ek.
  - left. rewrite (wi_a0 _ (WF i Hi)), (wi_c0 _ (WF i Hi)). auto.
  - right. assert (K : (0 < S k < nopt i)%nat) by lia. destruct (wi_pos _ (WF i Hi) (S k) K) as [P1 P2]. split; [exact P2|]. split; [exact (CR i Hi (S k) K)|]. eauto.
Qed.

(** The check of an answer, by whether the prediction changes. *)
Definition current_actionable : Prop := forall j e, nth_error (as_elems (bd_A b)) j = Some e -> e_actionable e = true -> In j (bd_actionable b).
Lemma check_spec l b1 s : session sv b0 l b1 -> In s l ->
  let x' := vadd x (s_actions s) in
  exists w1 w3, check_solution b1 (Some s) =
    (if (qsign (score (bd_w b) (bd_t b) x) =? qsign (score (bd_w b) (bd_t b) x'))%Z
     then if qabs (score (bd_w b) (bd_t b) x') <=? qfrac 1 10000 then Err AssertionError else Ok (w1 ++ [WNearZeroScore] ++ w3)
     else Ok (w1 ++ [] ++ w3)) /\
    (w1 = [] \/ w1 = [WNotActionable] /\ ~ current_actionable) /\
    (w3 = [] \/ w3 = [WMaxCost] /\ bd_cost b = CMax /\ ~ finishing_solver sv).
Proof.
  intros Hs Hin x'. destruct (item_crisp _ _ _ Hs Hin) as (La & Lc & HC).
  destruct (set_x_ok _ _ _ _ (proj2 HA)) as (ms & Lx & _ & Eb0).
  destruct (session_person _ _ _ _ Hs) as [PX PA]. destruct (session_same _ _ _ _ Hs) as (_ & PW & PT & _ & PC & Pmin & Pmax).
  rewrite Eb0 in PX, PA, PW, PT, PC, Pmin, Pmax. cbn in PX, PA, PW, PT, PC, Pmin, Pmax.
  destruct (c31 E sv b x b0 HE HS HA _ _ _ Hs Hin) as [Hz _]. unfold size_between in Hz.
  pose proof (c25 E sv b x b0 HE HS HA _ _ _ Hs Hin) as HP.
  set (a := s_actions s) in *. set (mv := positions (fun v => negb (isclose0 v)) a). set (st := positions isclose0 a).

  assert (NM : length mv = n_changed a).
  { unfold mv. rewrite positions_length. unfold n_changed. f_equal. apply filter_ext_nth. intros j v Hj. destruct (HC j v Hj) as [[-> _]|(N & -> & _)]; [reflexivity|]. destruct (qeq_spec v 0); [contradiction|reflexivity]. }
  assert (MV : forall j, In j mv -> exists e aj c, nth_error (as_elems (bd_A b)) j = Some e /\ e_actionable e = true /\ nth_error a j = Some aj /\ nth_error (s_costs s) j = Some c /\ 0 < c).
  { intros j Hj. apply positions_In in Hj. destruct Hj as (v & Hv & Q). destruct (HC j v Hv) as [[-> _]|(N & _ & c & Hc & P)]; [discriminate Q|].
    assert (Lj : (j < as_len (bd_A b))%nat) by (rewrite <- La; apply nth_error_Some; congruence).
    destruct (assigned_ready E sv b x b0 HE HA) as (ms' & R).
    destruct (nth_error (as_elems (bd_A b)) j) as [e|] eqn:He; [|apply nth_error_None in He; rewrite (rd_el _ _ _ _ _ R) in He; lia].
    destruct (nth_error x j) as [xj|] eqn:Hx; [|apply nth_error_None in Hx; rewrite (rd_x _ _ _ _ _ R) in Hx; lia].
    exists e, v, c. split; [reflexivity|]. split; [|auto]. destruct HP as [_ HP]. destruct (HP j e xj v He Hx Hv) as [Q2|(Q2 & _)]; [|exact Q2]. exfalso. apply N. replace v with (xj + v - xj) by ring. rewrite Q2. ring. }
  assert (CA : costs_agree s mv st = true).
  { unfold costs_agree, entries. apply andb_true_iff. split; apply forallb_forall; intros c Hc; apply in_map_iff in Hc; destruct Hc as (j & <- & Hj).
    - destruct (MV j Hj) as (e & aj & c & _ & _ & _ & Hc & P). rewrite (nth_error_nth _ _ 0 Hc). now apply qlt_iff.
    - apply positions_In in Hj. destruct Hj as (v & Hv & Q). destruct (HC j v Hv) as [[_ Hc]|(_ & Q2 & _)]; [|congruence]. rewrite (nth_error_nth _ _ 0 Hc). apply isclose0_0. }
  assert (W3 : total_warning (bd_cost b) s = [] \/ total_warning (bd_cost b) s = [WMaxCost] /\ bd_cost b = CMax /\ ~ finishing_solver sv).
  { unfold total_warning. destruct (bd_cost b) eqn:Ec.
    - left. pose proof (item_total E sv b x b0 HE HS HA _ _ _ Hs Hin) as IT. rewrite Ec in IT. cbn in IT. rewrite IT by discriminate. now rewrite close_refl by (apply qle_iff; reflexivity).
    - now left.
    - destruct (close _ _ _ _) eqn:Q; [now left|right]. split; [reflexivity|]. split; [reflexivity|]. intro HF. pose proof (item_total E sv b x b0 HE HS HA _ _ _ Hs Hin) as IT. rewrite Ec in IT. specialize (IT (fun _ => HF)). cbn in IT.
      assert (M : s_cost s = match s_costs s with [] => 0 | c :: r => qmaxl r c end). { destruct IT as [I1 I2]. destruct (s_costs s) as [|c r]; [destruct I1|]. apply Qcle_antisym.
        - destruct I1 as [->|I1]; [apply (proj1 (qmaxl_ge _ _))|now apply (proj2 (qmaxl_ge _ _))].
        - apply I2. destruct (qmaxl_In r c) as [->|H]; [now left|now right]. }
      rewrite M, close_refl in Q by (apply qle_iff; reflexivity). discriminate Q. }
  exists (if forallb (fun j => existsb (Nat.eqb j) (bd_actionable b)) mv then [] else [WNotActionable]), (total_warning (bd_cost b) s). split; [|split; [|exact W3]].
  - unfold check_solution. cbv zeta. fold a mv st. rewrite NM, PX, PA, PC, Pmin, Pmax. rewrite (proj2 (Z.leb_le _ _)) by lia. cbn [passert bind]. rewrite (proj2 (Z.leb_le _ _)) by lia. rewrite (proj2 (Z.leb_le _ _)) by lia. cbn [andb passert bind of_option].
    assert (LX : length x = length a). { rewrite Lx. destruct (assigned_ready E sv b x b0 HE HA) as (ms' & R). rewrite (rd_w _ _ _ _ _ R). now rewrite La. }
    rewrite (proj2 (Nat.eqb_eq _ _) LX). cbn [bind]. rewrite CA. unfold bd_prediction, bd_score. rewrite PW, PT. fold (score (bd_w b) (bd_t b) x). fold x'. fold (score (bd_w b) (bd_t b) x').
    assert (CL : close 0 (qfrac 1 10000) (score (bd_w b) (bd_t b) x') 0 = (qabs (score (bd_w b) (bd_t b) x') <=? qfrac 1 10000)).
    { unfold close. replace (score (bd_w b) (bd_t b) x' - 0) with (score (bd_w b) (bd_t b) x') by ring. replace (qfrac 1 10000 + 0 * qabs 0) with (qfrac 1 10000) by ring. reflexivity. }
    rewrite CL. destruct (qsign _ =? qsign _)%Z; cbn [negb bind]; [|reflexivity]. destruct (qabs _ <=? _); reflexivity.
  - destruct (forallb _ mv) eqn:Q; [now left|right]. split; [reflexivity|]. intro CAc. assert (T : forallb (fun j => existsb (Nat.eqb j) (bd_actionable b)) mv = true); [|congruence].
    apply forallb_forall. intros j Hj. destruct (MV j Hj) as (e & aj & c & He & Ha & _). apply existsb_exists. exists j. split; [exact (CAc j e He Ha)|apply Nat.eqb_refl].
Qed.
End Check.
Lemma created_actionable E b : builder_created E b -> current_actionable b.
Proof.
  intros (k & A & a & ct & ox & HA & H).
  assert (K : bd_actionable b = actionable_positions (bd_A b)).
  { unfold mk_builder in H. bnd H as wt Hp. destruct wt as [w t]. bnd H as u Hu. bnd H as A' HA'. cbv zeta in H. destruct ox as [x|]; [|injection H as <-; reflexivity].
    destruct (set_x E _ x) as [b1 r] eqn:Hx in H. bnd H as v Hv. injection H as ->. destruct v. subst r. destruct (set_x_ok _ _ _ _ Hx) as (ms & _ & _ & ->). reflexivity. }
  intros j e He Ha. rewrite K. unfold actionable_positions. apply in_map_iff. exists (j, e). split; [reflexivity|]. apply filter_In. split; [|exact Ha].
  assert (G : forall (l : list element) k j, nth_error l j = Some e -> nth_error (combine (seq k (length l)) l) j = Some ((k + j)%nat, e)).
  { clear. induction l as [|a l IH]; intros k j H; [destruct j; discriminate|]. destruct j; cbn in *; [injection H as ->; f_equal; f_equal; lia|]. rewrite IH by exact H. f_equal. f_equal. lia. }
  exact (nth_error_In _ j (G _ 0%nat j He)).
Qed.
Lemma check_denied E sv b x b0 l b1 s : ok_env E -> sound_solver sv -> assigned E sv b x b0 -> session sv b0 l b1 -> In s l -> denied (as_y (bd_A b)) (score (bd_w b) (bd_t b) x) ->
  exists ws, check_solution b1 (Some s) = Ok ws /\ ~ In WNearZeroScore ws /\ ~ In WIssue ws /\ (current_actionable b -> (bd_cost b = CMax -> finishing_solver sv) -> ws = []).
Proof.
  intros HE HS HA Hs Hin HD. destruct (check_spec E sv b x b0 HE HS HA l b1 s Hs Hin) as (w1 & w3 & H & H1 & H3). pose proof (c26 E sv b x b0 HE HS HA _ _ _ Hs Hin) as HO.
  assert (N : (qsign (score (bd_w b) (bd_t b) x) =? qsign (score (bd_w b) (bd_t b) (vadd x (s_actions s))))%Z = false).
  { unfold denied, on_side in *. apply Z.eqb_neq. destruct (qsign_spec (score (bd_w b) (bd_t b) x)) as [[S1 S2]|[[S1 S2]|[S1 S2]]]; destruct (qsign_spec (score (bd_w b) (bd_t b) (vadd x (s_actions s)))) as [[T1 T2]|[[T1 T2]|[T1 T2]]]; rewrite S2, T2; intro Q; try discriminate Q;
      destruct (0 <? as_y (bd_A b))%Z; try (apply HD; qlra); try qlra; apply HD; rewrite S1; apply Qcle_refl. }
  rewrite N in H. exists (w1 ++ [] ++ w3). split; [exact H|].
  split; [|split].
  - intro I. apply in_app_or in I. destruct I as [I|I]; [destruct H1 as [->|[-> _]]|destruct H3 as [->|[-> _]]]; cbn in I; intuition discriminate.
  - intro I. apply in_app_or in I. destruct I as [I|I]; [destruct H1 as [->|[-> _]]|destruct H3 as [->|[-> _]]]; cbn in I; intuition discriminate.
  - intros CA CF. destruct H1 as [->|[_ C]]; [|contradiction]. destruct H3 as [->|(_ & C & C')]; [reflexivity|]. destruct (C' (CF C)).
Qed.
Lemma check_exact E sv b x b0 l b1 s : ok_env E -> sound_solver sv -> assigned E sv b x b0 -> session sv b0 l b1 -> In s l ->
  let sc := score (bd_w b) (bd_t b) in
  (check_solution b1 (Some s) = Err AssertionError <-> qsign (sc x) = qsign (sc (vadd x (s_actions s))) /\ qabs (sc (vadd x (s_actions s))) <= qfrac 1 10000) /\
  (check_solution b1 (Some s) = Err AssertionError \/ exists ws, check_solution b1 (Some s) = Ok ws).
Proof.
  intros HE HS HA Hs Hin sc. destruct (check_spec E sv b x b0 HE HS HA l b1 s Hs Hin) as (w1 & w3 & H & _). cbv zeta in H. fold (sc x) (sc (vadd x (s_actions s))) in H. rewrite H.
  destruct (Z.eqb_spec (qsign (sc x)) (qsign (sc (vadd x (s_actions s))))) as [Q|Q]; [destruct (qle_spec (qabs (sc (vadd x (s_actions s)))) (qfrac 1 10000)) as [L|L]|].
  - split; [tauto|now left].
  - split; [split; [discriminate|]|right; eauto]. intros [_ C]. exfalso. qlra.
  - split; [split; [discriminate|]|right; eauto]. intros [C _]. contradiction.
Qed.
Lemma never_negligible E sv b x b0 l b1 s j aj : ok_env E -> sound_solver sv -> assigned E sv b x b0 -> session sv b0 l b1 -> In s l -> nth_error (s_actions s) j = Some aj -> aj <> 0 -> qfrac 1 100000000 < qabs aj.
Proof.
  intros HE HS HA Hs Hin Hj N. destruct (item_crisp E sv b x b0 HE HS HA l b1 s Hs Hin) as (_ & _ & H). destruct (H j aj Hj) as [[Q _]|(_ & Q & _)]; [contradiction|]. unfold isclose0, atol in Q. apply qle_false in Q. exact Q.
Qed.
(** Someone who already has the desired outcome, by a tiny margin. *)
Definition w_tiny : list Qc := [qfrac 1 100000; qfrac 1 100000].
Definition sc_tiny k ct := mk env0 tab2 ["a"; "b"] 1 [] k w_tiny (z 0) ct [z 0; z 1].
Definition within_b (b : builder) (x : list Qc) (a : list Qc) : bool :=
  (qsign (score (bd_w b) (bd_t b) x) =? qsign (score (bd_w b) (bd_t b) (vadd x a)))%Z && (qabs (score (bd_w b) (bd_t b) (vadd x a)) <=? qfrac 1 10000).
Lemma t_tiny : forallb (fun k => forallb (fun ct => sc_check (sc_tiny k ct) (fun b b0 => (0 <? score (bd_w b) (bd_t b) [z 0; z 1]) && fit_test b0 (fun r => match r with Some (a, _, _) => within_b b [z 0; z 1] a | None => false end))) [CTotal; CLocal; CMax]) [CPX; PyMIP] = true.
Proof. vm_compute. reflexivity. Qed.
Lemma check_refuted : forall k ct, exists b x b0, bd_kind b = k /\ bd_cost b = ct /\ (forall sv, assigned env0 sv b x b0) /\ 0 < score (bd_w b) (bd_t b) x /\ forall sv, sound_solver sv -> finishing_solver sv ->
  exists b1 s, fit sv b0 = Ok (b1, Some s) /\ check_solution b1 (Some s) = Err AssertionError.
Proof.
  intros k ct. assert (Hk : In k [CPX; PyMIP]) by (destruct k; cbn; auto). assert (Hc : In ct [CTotal; CLocal; CMax]) by (destruct ct; cbn; auto).
  pose proof t_tiny as T. rewrite forallb_forall in T. specialize (T k Hk). rewrite forallb_forall in T. specialize (T ct Hc).
  apply sc_check_ok in T. destruct T as (b & b0 & HR & T). apply andb_true_iff in T. destruct T as [T1 T2]. pose proof (sc_assigned _ _ _ HR) as HA. exists b, [z 0; z 1], b0.
  destruct (sc_builder_runs (sc_tiny k ct) b env0 eq_refl eq_refl (sc_run_builder _ _ _ HR)) as (C1 & _ & C3 & _). split; [exact C1|]. split; [exact C3|]. split; [exact HA|]. split; [now qbool|]. intros sv HS HF. destruct (sc_fit _ _ _ _ HR env0_ok T2 sv HS HF) as (b1 & [s|] & Hf & Ht); [|discriminate Ht]. exists b1, s. split; [exact Hf|].
  assert (Hs : session sv b0 ([s] ++ []) b1) by (exact (ses_fit sv b0 b1 (Some s) [] b1 Hf (ses_done sv b1))).
  apply (check_exact env0 sv b [z 0; z 1] b0 _ b1 s env0_ok HS (HA sv) Hs (or_introl eq_refl)). cbn [view] in Ht. unfold within_b in Ht. apply andb_true_iff in Ht. destruct Ht as [Q1 Q2]. apply Z.eqb_eq in Q1. qbool. split; [exact Q1|exact Q2].
Qed.
Lemma check_case : forall k ct, exists b x b0, (forall sv, assigned env0 sv b x b0) /\ builder_created env0 b /\ bd_kind b = k /\ bd_cost b = ct /\ denied (as_y (bd_A b)) (score (bd_w b) (bd_t b) x) /\ forall sv, sound_solver sv -> finishing_solver sv ->
  exists b1 s, fit sv b0 = Ok (b1, Some s).
Proof.
  intros k ct. assert (T : sc_check (sc2 k ct (- z 3)) (fun b b0 => deniedb' b [z 0; z 1] && fit_test b0 (fun r => match r with Some _ => true | None => false end)) = true) by (destruct k, ct; vm_compute; reflexivity).
  apply sc_check_ok in T. destruct T as (b & b0 & HR & T). apply andb_true_iff in T. destruct T as [T1 T2]. pose proof (sc_assigned _ _ _ HR) as HA. exists b, [z 0; z 1], b0.
  split; [exact HA|]. pose proof (sc_created _ _ (sc_run_builder _ _ _ HR)) as HC. split; [exact HC|].
  destruct (sc_builder_runs (sc2 k ct (- z 3)) b env0 eq_refl eq_refl (sc_run_builder _ _ _ HR)) as (C1 & _ & C3 & _). split; [exact C1|]. split; [exact C3|].
  split; [now apply deniedb'_ok|]. intros sv HS HF. destruct (sc_fit _ _ _ _ HR env0_ok T2 sv HS HF) as (b1 & [s|] & Hf & Ht); [eauto|discriminate Ht].
Qed.
Lemma check_meaning b s ws : check_solution b (Some s) = Ok ws -> length (s_actions s) = length (s_costs s) ->
  (Z.max (bd_min b) 1 <= Z.of_nat (length (filter (fun v => negb (isclose0 v)) (s_actions s))) <= bd_max b)%Z /\
  (ws = [] -> exists x, bd_x b = Some x /\ qsign (score (bd_w b) (bd_t b) x) <> qsign (score (bd_w b) (bd_t b) (vadd x (s_actions s))) /\
    forall j aj cj, nth_error (s_actions s) j = Some aj -> nth_error (s_costs s) j = Some cj -> (isclose0 aj = false -> In j (bd_actionable b) /\ 0 < cj) /\ (isclose0 aj = true -> isclose0 cj = true)).
Proof.
  unfold check_solution. cbv zeta. intros H HL. bnd H as u1 H1. apply passert_ok in H1. apply Z.leb_le in H1. bnd H as u2 H2. apply passert_ok in H2. apply andb_true_iff in H2. destruct H2 as [H2 H3]. apply Z.leb_le in H2, H3.
  rewrite positions_length in H1, H2, H3. split; [lia|]. intros ->. bnd H as x Hx. bnd H as u3 H4. bnd H as w2 H5. injection H as H. apply app_eq_nil in H. destruct H as [W1 H]. apply app_eq_nil in H. destruct H as [W2 W3]. subst w2.
  exists x. split; [destruct (bd_x b); [now injection Hx as ->|discriminate Hx]|]. split.
  - destruct (Z.eqb_spec (bd_prediction b x) (bd_prediction b (vadd x (s_actions s)))) as [Q|Q]; [|exact Q]. cbn [negb] in H5. bnd H5 as u6 H6. discriminate H5.
  - intros j aj cj Ha Hc. destruct (forallb _ _) eqn:F1 in W1; [|discriminate W1]. destruct (costs_agree s _ _) eqn:F2 in W3; [|discriminate W3]. unfold costs_agree in F2. apply andb_true_iff in F2. destruct F2 as [F2 F3]. rewrite forallb_forall in F1, F2, F3. split; intro Q.
    + assert (Hj : In j (positions (fun v => negb (isclose0 v)) (s_actions s))) by (apply positions_In; exists aj; split; [exact Ha|now rewrite Q]). split.
      * specialize (F1 j Hj). apply existsb_exists in F1. destruct F1 as (j' & Hj' & Q2). apply Nat.eqb_eq in Q2. now subst j'.
      * assert (G : 0 <? cj = true) by (apply F2; unfold entries; apply in_map_iff; exists j; split; [exact (nth_error_nth _ _ 0 Hc)|exact Hj]). now qbool.
    + apply F3. unfold entries. apply in_map_iff. exists j. split; [exact (nth_error_nth _ _ 0 Hc)|]. apply positions_In. eauto.
Qed.
