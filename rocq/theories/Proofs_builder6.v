(** Item limits after assignment (C32), histories (C41), solver statuses (C42): user-level forms. *)
From Verif Require Import Proofs_props_element Proofs_props_actionset Spec_recourse Proofs_mip Proofs_info Proofs_vec Proofs_build Proofs_enum Proofs_session Proofs_recourse Proofs_subset Proofs_exchange Proofs_far Proofs_concrete Proofs_builder Proofs_builder2 Proofs_builder3 Proofs_builder4 Proofs_builder5 Proofs_scen Proofs_scen2.
#[local] Open Scope list_scope.
#[local] Open Scope Qc_scope.

(** ** C32 *)
Lemma set_x_ok E b x b0 : set_x E b x = (b0, Ok tt) -> exists ms, length x = length (bd_w b) /\
  build E (bd_kind b) (bd_A b) (bd_cost b) (bd_w b) (bd_t b) (bd_min b) (bd_max b) x = Ok ms /\ b0 = with_mip (with_x b (Some x)) (Some ms) None.
Proof.
  unfold set_x. intro H. destruct (Nat.eqb_spec (length x) (length (bd_w b))) as [EL|EL]; [|apply pair_equal_spec in H; destruct H as [_ H]; discriminate H].
  destruct (build _ _ _ _ _ _ _ _ _) as [ms|e]; [|apply pair_equal_spec in H; destruct H as [_ H]; discriminate H].
  apply pair_equal_spec in H. destruct H as [<- _]. exists ms. auto.
Qed.
Lemma reach_step E sv b o : builder_reachable E sv b -> builder_reachable E sv (builder_step E sv b o).
Proof.
  intros (b0 & ops & H1 & ->). exists b0, (ops ++ [o]). split; [exact H1|]. unfold builder_run. rewrite fold_left_app. reflexivity.
Qed.
Lemma c32_min_assigned E sv b x b0 lo : ok_env E -> assigned E sv b x b0 -> (1 <= lo <= bd_max b)%Z -> lo <> bd_min b ->
  all_offered (bd_A b) x -> n_actionable b = Z.of_nat (as_len (bd_A b)) ->
  exists b1, set_mip_item_limits b0 (Some lo) (Some (bd_max b)) = (b1, Ok tt) /\ bd_min b1 = lo /\ bd_max b1 = bd_max b /\
    assigned E sv (with_limits b lo (bd_max b)) x b1.
Proof.
  intros HOE HAs Hlo Hne HO HN. pose proof (infos_all E sv b x b0 HOE HAs HO) as Hn. destruct HAs as [HR HX]. destruct (set_x_ok _ _ _ _ HX) as (ms & EL & EB & ->). specialize (Hn ms eq_refl). destruct (build_with _ _ _ _ _ _ _ _ _ _ EB) as (subs & Hs & Hm & HB).
  unfold set_mip_item_limits. rewrite (proj2 (Z.leb_le lo (bd_max b))) by lia. cbn [bd_min with_mip with_x]. rewrite (proj2 (Z.eqb_neq lo (bd_min b)) Hne).
  unfold set_mip_rhs. cbn [bd_mip with_mip]. unfold set_min_items. rewrite (proj2 (Z.leb_le 0 lo)) by lia. cbn [bd_max with_limits with_mip with_x]. rewrite Z.eqb_refl.
  eexists. split; [reflexivity|]. split; [reflexivity|]. split; [reflexivity|]. split.
  - pose proof (reach_step E sv b (BMin (Some lo)) HR) as K. cbn [builder_step] in K. unfold set_min_items in K. rewrite (proj2 (Z.leb_le 0 lo)) in K by lia. exact K.
  - unfold set_x. cbn [bd_w with_limits bd_kind bd_A bd_cost bd_t bd_min bd_max]. rewrite EL, Nat.eqb_refl, HB. unfold with_mip, with_x, with_limits. cbn. do 3 f_equal.
    f_equal. f_equal. rewrite Hm, rhs_with; [|intros []; cbn; auto|exact Hs]. cbn [is_min_row]. f_equal. unfold n_actionable in *. cbn in *. rewrite Hn, HN. f_equal. lia.
Qed.
(** Only the minimum is changed: the new limits are enforced exactly. *)
Lemma c32_min_user E sv b x b0 lo : ok_env E -> sound_solver sv -> assigned E sv b x b0 -> (1 <= lo <= bd_max b)%Z -> lo <> bd_min b ->
  all_offered (bd_A b) x -> n_actionable b = Z.of_nat (as_len (bd_A b)) ->
  exists b1, set_mip_item_limits b0 (Some lo) (Some (bd_max b)) = (b1, Ok tt) /\ bd_min b1 = lo /\ bd_max b1 = bd_max b /\
    (forall l b2 s, session sv b1 l b2 -> In s l -> size_between lo (bd_max b) (s_actions s)) /\
    (finishing_solver sv -> density E -> log_ok E (bd_cost b) -> orderly E (bd_A b) (bd_w b) x -> flips_match (bd_A b) (bd_w b) -> regular E (bd_A b) x ->
     exists b2 r, fit sv b1 = Ok (b2, r) /\
      (r = None <-> ~ exists a, permitted_action (bd_A b) x a /\ worthwhile (bd_A b) (bd_w b) a /\ size_between lo (bd_max b) a /\
                                on_side (as_y (bd_A b)) (score (bd_w b) (bd_t b) (vadd x a)) /\ compliant (bd_A b) x a)).
Proof.
  intros HE HS HA Hlo Hne HO HN. destruct (c32_min_assigned _ _ _ _ _ _ HE HA Hlo Hne HO HN) as (b1 & H1 & H2 & H3 & HA1). exists b1. do 3 (split; [assumption|]). split.
  - intros l b2 s Hs Hin. exact (proj1 (c31 E sv _ x b1 HE HS HA1 l b2 s Hs Hin)).
  - intros HF HD HL HU HFl HR. destruct (fit_total E sv _ x b1 HE HS HA1) as (b2 & r & Hf). exists b2, r. split; [exact Hf|]. split.
    + intros -> (a & Ha). destruct (assigned_ready E sv _ x b1 HE HA1) as (ms & R).
      refine (c42_user E sv (with_limits b lo (bd_max b)) x b1 HE HS HA1 ms b2 a HD HL HU HFl HR _ _ Hf Ha).
      * exact (gd_mip _ _ _ (rd_good _ _ _ _ _ R)).
      * exact (finishing_good sv b1 ms _ HF (rd_good _ _ _ _ _ R)).
    + intro Hno. destruct r as [s|]; [|reflexivity]. exfalso. apply Hno. exists (s_actions s).
      exact (fit_acceptable E sv (with_limits b lo (bd_max b)) x b1 HE HS HA1 b2 s Hf HU HFl).
Qed.
(** Both limits are changed: exactly [lo] features are changed, whatever [hi] is. *)
Lemma c32_both_user E sv b x b0 lo hi b1 : ok_env E -> sound_solver sv -> assigned E sv b x b0 -> (1 <= lo <= hi)%Z -> lo <> bd_min b -> hi <> bd_max b ->
  all_offered (bd_A b) x -> n_actionable b = Z.of_nat (as_len (bd_A b)) -> (lo <= n_actionable b)%Z ->
  set_mip_item_limits b0 (Some lo) (Some hi) = (b1, Ok tt) ->
  forall b2 s, fit sv b1 = Ok (b2, Some s) -> Z.of_nat (n_changed (s_actions s)) = lo.
Proof.
  intros HE HS HA Hlo Hne Hnh HO HN Hln HL b2 s Hf. pose proof (infos_all E sv b x b0 HE HA HO) as Hn.
  assert (Hn' : forall ms, bd_mip b0 = Some ms -> length (ms_infos ms) = length (bd_actionable b)) by (intros ms Hms; rewrite (Hn ms Hms); unfold n_actionable in HN; lia).
  pose proof (c32_both E sv b x b0 lo hi HE HA Hlo Hne Hnh Hn') as K. pose proof (ss_limits b0 (Some lo) (Some hi)) as SS. rewrite HL in K, SS. destruct K as (_ & _ & _ & K4 & K5).
  set (b' := with_limits b lo lo) in *.
  assert (HRe : builder_reachable E sv b').
  { destruct HA as [HR _]. pose proof (reach_step E sv _ (BMin (Some lo)) (reach_step E sv b (BMax (Some lo)) HR)) as K. cbn [builder_step] in K. unfold set_min_items, set_max_items in K. rewrite (proj2 (Z.leb_le 0 lo)) in K by lia.
    cbn [bd_max with_limits] in K. rewrite Z.min_l in K by lia. exact K. }
  destruct (set_x E b' x) as [b0' r'] eqn:EX. cbn [fst snd] in *. assert (HA' : assigned E sv b' x b0') by (split; [exact HRe|congruence]).
  assert (HC : bd_calls b1 = bd_calls b0).
  { clear -HL. unfold set_mip_item_limits, set_mip_rhs, set_min_items, set_max_items in HL. destruct (lo <=? hi)%Z; [|apply pair_equal_spec in HL; destruct HL as [_ HL]; discriminate HL].
    destruct (lo =? bd_min b0)%Z; [|destruct (bd_mip b0) eqn:Em]; cbn [fst bd_max with_limits with_mip bd_mip] in HL;
    repeat match type of HL with context [if ?c then _ else _] => destruct c; cbn [fst bd_max with_limits with_mip bd_mip] in HL end;
    apply pair_equal_spec in HL; destruct HL as [<- HL]; first [discriminate HL|reflexivity]. }
  assert (C1 : bd_calls b0' = bd_calls b) by (pose proof (set_x_calls E b' x) as Q; rewrite EX in Q; exact Q).
  destruct HA as [_ HX]. assert (C2 : bd_calls b0 = bd_calls b) by (pose proof (set_x_calls E b x) as Q; rewrite HX in Q; exact Q).
  destruct (ss_set_x E b x) as (T1 & T2 & _ & _ & T5 & _). rewrite HX in T1, T2, T5. destruct SS as (U1 & U2 & _ & _ & U5 & _).
  destruct (ss_set_x E b' x) as (S1 & S2 & _ & _ & S5 & _). rewrite EX in S1, S2, S5. cbn [fst bd_kind bd_w bd_cost b' with_limits] in *.
  destruct (fit_result sv b1 b0' ltac:(congruence) ltac:(congruence) ltac:(congruence) ltac:(congruence) ltac:(congruence) _ _ Hf) as (b2' & Hf').
  destruct (fit_some E sv _ x b0' HE HS HA' b2' s Hf') as (_ & K2 & _). unfold size_between in K2. cbn [bd_min bd_max b' with_limits] in K2. lia.
Qed.
Lemma c32_one_limit b k : set_mip_item_limits b None k = (b, Ok tt) /\ set_mip_item_limits b k None = (b, Ok tt).
Proof. split; [reflexivity|]. destruct k; reflexivity. Qed.
Lemma c32_only_max b hi : (bd_min b <= hi)%Z -> hi <> bd_max b -> set_mip_item_limits b (Some (bd_min b)) (Some hi) = (b, Err UnboundLocalError).
Proof. intros H1 H2. unfold set_mip_item_limits. rewrite (proj2 (Z.leb_le _ _) H1), Z.eqb_refl, (proj2 (Z.eqb_neq _ _) H2). reflexivity. Qed.

(** ** C41 *)
Lemma twin_session sv b l b1 : stateless sv -> session sv b l b1 -> forall b', twin b b' -> exists b1', session sv b' l b1' /\ twin b1 b1'.
Proof.
  intros HSt H. induction H as [b|b b1 r l b2 Hf Hs IH|b fuel total et b1 l1 l b2 Hp Hs IH]; intros b' T.
  - exists b'. split; [constructor|exact T].
  - pose proof (twin_fit sv b b' HSt T) as K. rewrite Hf in K. destruct (fit sv b') as [[c' r']|e] eqn:Hf'; [|destruct K]. destruct K as (<- & T' & _). destruct (IH c' T') as (b1' & S1 & S2). exists b1'. split; [|exact S2].
    eapply ses_fit; eauto.
  - pose proof (twin_populate sv et fuel total b b' HSt T) as K. rewrite Hp in K. destruct (populate sv fuel total et b') as [[[c' l']|e]|] eqn:Hp'; [|destruct K|destruct K]. destruct K as (<- & T'). destruct (IH c' T') as (b1' & S1 & S2). exists b1'. split; [|exact S2].
    eapply ses_populate; eauto.
Qed.
Lemma same_problem_sym b b' : same_problem b b' -> same_problem b' b.
Proof. unfold same_problem. intuition congruence. Qed.
Lemma same_problem_trans a b c : same_problem a b -> same_problem b c -> same_problem a c.
Proof. unfold same_problem. intuition congruence. Qed.
Lemma same_set_x E b x : same_problem b (fst (set_x E b x)).
Proof. unfold set_x. destruct (Nat.eqb _ _); [destruct (build _ _ _ _ _ _ _ _ _)|]; repeat split. Qed.
Lemma c41_user E sv b b' x : stateless sv -> same_problem b b' ->
  snd (set_x E b x) = snd (set_x E b' x) /\
  (snd (set_x E b x) = Ok tt -> forall l b1, session sv (fst (set_x E b x)) l b1 -> exists b1', session sv (fst (set_x E b' x)) l b1').
Proof.
  intros HSt HP. destruct (c41_assign E b b' x HP) as [H1 H2]. split; [exact H1|]. intros HO l b1 Hs.
  destruct (twin_session sv _ _ _ HSt Hs (fst (set_x E b' x))) as (b1' & K & _); [|eauto]. split; [|symmetry; auto].
  eapply same_problem_trans; [apply same_problem_sym, same_set_x|]. eapply same_problem_trans; [exact HP|apply same_set_x].
Qed.
(** What same_problem amounts to: nothing done to a builder except changing limits or the action set matters. *)
Lemma session_same sv b l b1 : session sv b l b1 -> same_problem b b1.
Proof.
  assert (F : forall b c r, fit sv b = Ok (c, r) -> same_problem b c).
  { intros b0 c r. unfold fit, solve_mip, get_solution. destruct (bd_mip b0); [|discriminate]. cbn. intro H. injection H as <- <-. repeat split. }
  assert (Rm : forall et b c, remove_solution et b = Ok c -> same_problem b c).
  { intros et b0 c. unfold remove_solution, remove_all_features, remove_feature_combination, with_solution. destruct et, (bd_mip b0), (bd_sol b0) as [[]|]; intro H; try discriminate H; injection H as <-; repeat split. }
  assert (Lp : forall et fuel total b c l, populate_loop sv fuel total et b = Some (Ok (c, l)) -> same_problem b c).
  { intros et fuel. induction fuel as [|f IH]; intros total b0 c l0 H; cbn in H; destruct (match total with Some 0%nat => true | _ => false end).
    - injection H as <- <-. repeat split.
    - discriminate H.
    - injection H as <- <-. repeat split.
    - destruct (fit sv b0) as [[c1 [s|]]|] eqn:Hf; try discriminate H.
      + destruct (remove_solution et c1) as [c2|] eqn:Hr; [|discriminate H]. destruct (populate_loop sv f (option_map pred total) et c2) as [[[c3 l3]|]|] eqn:Hl; try discriminate H. injection H as <- <-.
        eapply same_problem_trans; [eapply F, Hf|]. eapply same_problem_trans; [eapply Rm, Hr|]. eapply IH, Hl.
      + injection H as <- <-. eapply F, Hf. }
  induction 1 as [b|b b1 r l b2 Hf Hs IH|b fuel total et b1 l1 l b2 Hp Hs IH].
  - repeat split.
  - eapply same_problem_trans; [eapply F, Hf|exact IH].
  - eapply same_problem_trans; [|exact IH]. unfold populate in Hp. destruct (bd_mip b); [|discriminate Hp]. destruct total as [[|n]|]; try discriminate Hp; eapply Lp, Hp.
Qed.

(** ** C42 *)
Lemma stopped_sound s0 : sound_solver (fun _ m => if mip_sat m s0 then SFeasible s0 else SUnknown).
Proof. intros n m. destruct (mip_sat m s0) eqn:Q; [exact Q|exact I]. Qed.
Lemma idle_sound : sound_solver (fun _ _ => SUnknown).
Proof. intros n m. exact I. Qed.
Definition helpfulb (y : Z) (w a : list Qc) : bool :=
  forall_at w a (fun wj aj => (aj =? 0) || (if (0 <? y)%Z then 0 <? wj * aj else wj * aj <? 0)).
Lemma helpfulb_ok y w a : helpfulb y w a = true -> helpful y w a.
Proof.
  intros H j wj aj Hw Ha Hne. pose proof (forall_at_ok _ _ _ _ _ _ H Hw Ha) as G. cbn beta in G. apply orb_true_iff in G. destruct G as [G|G]; [qbool; contradiction|].
  unfold attains. destruct (0 <? y)%Z; now qbool.
Qed.
Lemma helpful_worthwhile A w a : helpful (as_y A) w a -> worthwhile A w a.
Proof. intros H j wj aj Hw Ha Hn. right. exact (H j wj aj Hw Ha Hn). Qed.
Definition compliantb (A : action_set) (x a : list Qc) : bool :=
  forallb (fun p => (c_lb (snd p) <=? Z.of_nat (n_on (vadd x a) (c_indices (snd p))))%Z && (Z.of_nat (n_on (vadd x a) (c_indices (snd p))) <=? c_ub (snd p))%Z) (r_cons (as_cons A)).
Lemma compliantb_ok A x a : compliantb A x a = true -> compliant A x a.
Proof.
  unfold compliantb. intros H id c Hst. rewrite forallb_forall in H. specialize (H _ (dget_In _ _ _ Hst)). cbn [snd] in H. apply andb_true_iff in H. destruct H as [H1 H2].
  apply Z.leb_le in H1, H2. auto.
Qed.
Definition acceptableb (b : builder) (x a : list Qc) : bool :=
  permittedb (bd_A b) x a && helpfulb (as_y (bd_A b)) (bd_w b) a && sizeb (bd_min b) (bd_max b) a && on_sideb (as_y (bd_A b)) (score (bd_w b) (bd_t b) (vadd x a)) && compliantb (bd_A b) x a.
Lemma acceptableb_ok b x a : acceptableb b x a = true -> acceptable b x a.
Proof.
  unfold acceptableb. intro H. do 4 (apply andb_true_iff in H; destruct H as [H ?]). split; [now apply permittedb_ok|]. split; [now apply helpful_worthwhile, helpfulb_ok|]. split; [now apply sizeb_ok|]. split; [now apply on_sideb_iff|now apply compliantb_ok].
Qed.
Lemma fit_status sv b ms : bd_mip b = Some ms -> exists b1, fit sv b = Ok (b1, solution_info (bd_kind b) (bd_cost b) (length (bd_w b)) ms (sv (bd_calls b) (ms_mip ms))).
Proof. intro H. unfold fit, solve_mip. rewrite H. cbn. eauto. Qed.
Lemma c42_pymip : exists b b0 x a ms sv s0, (forall sv', assigned env0 sv' b x b0) /\ plain_setup env0 b x /\ bd_kind b = PyMIP /\ acceptable b x a /\
  sound_solver sv /\ bd_mip b0 = Some ms /\ has_point (sv (bd_calls b0) (ms_mip ms)) = Some s0 /\ exists b1, fit sv b0 = Ok (b1, None).
Proof.
  set (a := [z 2; z 0]). set (x := [z 0; z 1]).
  destruct (sc_check_ok (sc2 PyMIP CTotal (- z 3)) (fun b b0 => good_setupb env0 b x && acceptableb b x a && match bd_kind b with PyMIP => true | CPX => false end &&
     match bd_mip b0 with Some ms => match accepted ms with ch :: _ => mip_sat (ms_mip ms) (assign (ms_infos ms) ch) | [] => false end | None => false end)) as (b & b0 & HR & H); [vm_compute; reflexivity|].
  do 3 (apply andb_true_iff in H; destruct H as [H ?]). pose proof (sc_assigned _ _ _ HR) as HA. change (sc_env (sc2 PyMIP CTotal (- z 3))) with env0 in HA.
  destruct (bd_mip b0) as [ms|] eqn:Em; [|discriminate H0]. destruct (accepted ms) as [|ch l]; [discriminate H0|].
  destruct (bd_kind b) eqn:Ek; [discriminate H1|].
  exists b, b0, x, a, ms, (fun _ m => if mip_sat m (assign (ms_infos ms) ch) then SFeasible (assign (ms_infos ms) ch) else SUnknown), (assign (ms_infos ms) ch).
  split; [exact HA|]. split; [eapply good_setupb_ok; eassumption|]. split; [exact Ek|]. split; [now apply acceptableb_ok|]. split; [apply stopped_sound|]. split; [exact Em|]. rewrite H0. split; [reflexivity|].
  destruct (HA (fun _ _ => SUnknown)) as [_ HX]. destruct (ss_set_x env0 b (sc_x (sc2 PyMIP CTotal (- z 3)))) as (T1 & _). rewrite HX in T1. cbn [fst] in T1.
  match goal with |- exists b1, fit ?sv _ = _ => destruct (fit_status sv b0 ms Em) as (b1 & Hf) end. exists b1. rewrite Hf. cbv beta. rewrite H0, T1, Ek. reflexivity.
Qed.
Lemma c42_stopped k : exists b b0 x a sv, (forall sv', assigned env0 sv' b x b0) /\ plain_setup env0 b x /\ bd_kind b = k /\ acceptable b x a /\
  sound_solver sv /\ exists b1, fit sv b0 = Ok (b1, None).
Proof.
  set (a := [z 2; z 0]). set (x := [z 0; z 1]).
  destruct (sc_check_ok (sc2 k CTotal (- z 3)) (fun b b0 => good_setupb env0 b x && acceptableb b x a && match bd_kind b, k with PyMIP, PyMIP | CPX, CPX => true | _, _ => false end &&
     match bd_mip b0 with Some ms => true | None => false end)) as (b & b0 & HR & H); [destruct k; vm_compute; reflexivity|].
  do 3 (apply andb_true_iff in H; destruct H as [H ?]). pose proof (sc_assigned _ _ _ HR) as HA. change (sc_env (sc2 k CTotal (- z 3))) with env0 in HA.
  destruct (bd_mip b0) as [ms|] eqn:Em; [|discriminate H0]. exists b, b0, x, a, (fun _ _ => SUnknown).
  split; [exact HA|]. split; [eapply good_setupb_ok; eassumption|]. split; [destruct (bd_kind b), k; congruence|]. split; [now apply acceptableb_ok|]. split; [apply idle_sound|].
  destruct (fit_status (fun _ _ => SUnknown) b0 ms Em) as (b1 & Hf). exists b1. rewrite Hf. cbv beta. destruct (bd_kind b0); reflexivity.
Qed.
