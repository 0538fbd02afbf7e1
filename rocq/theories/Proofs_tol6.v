(** What a tolerance can do: an "off" indicator that is slightly positive. *)
From Coq Require Import ClassicalEpsilon.
From Verif Require Import Proofs_num Proofs_props_element Proofs_props_actionset Spec_tolerance Proofs_mip Proofs_info Proofs_vec Proofs_build Proofs_enum Proofs_tol Proofs_registry
  Proofs_actionset Proofs_recourse Proofs_subset Proofs_session Proofs_builder Proofs_builder2 Proofs_builder3 Proofs_exchange Proofs_concrete Proofs_scen Proofs_solver Proofs_tol2 Proofs_tol3 Proofs_tol4 Proofs_tol5 Proofs_scen2 Proofs_builder6 Proofs_builder8.
#[local] Open Scope list_scope.
#[local] Open Scope Qc_scope.

Lemma qabs_0 : qabs 0 = 0.
Proof. apply Qc_is_canon. reflexivity. Qed.
Definition opt_leb (f : Qc -> bool) (o : option Qc) : bool := match o with Some q => f q | None => true end.
Lemma opt_leb_ok f o q : opt_leb f o = true -> o = Some q -> f q = true.
Proof. now intros H ->. Qed.
Definition var_withinb d s v := (negb (v_bin v) || (qabs (s (v_var v)) <=? d) || (qabs (s (v_var v) - 1) <=? d)) && (v_lb v - d <=? s (v_var v)) && opt_leb (fun u => s (v_var v) <=? u + d) (v_ub v).
Definition row_withinb d s r := opt_leb (fun b => b - d <=? eval s (r_terms r)) (r_lo r) && opt_leb (fun b => eval s (r_terms r) <=? b + d) (r_hi r).
Definition sos_withinb d (s : assignment) (l : list mvar) := Nat.leb (length (filter (fun v => negb (qabs (s v) <=? d)%Qc) l)) 1.
Definition meets_withinb d m s := forallb (var_withinb d s) (m_vars m) && forallb (row_withinb d s) (m_rows m) && forallb (sos_withinb d s) (m_sos m).
Lemma forallb_Forall {B} (f : B -> bool) (P : B -> Prop) l : (forall x, f x = true -> P x) -> forallb f l = true -> Forall P l.
Proof. intros H K. apply Forall_forall. intros x Hx. rewrite forallb_forall in K. auto. Qed.
Lemma meets_withinb_ok d m s : meets_withinb d m s = true -> meets_within d m s.
Proof.
  unfold meets_withinb. intro H. apply andb_true_iff in H. destruct H as [H H3]. apply andb_true_iff in H. destruct H as [H1 H2]. split; [|split].
  - revert H1. apply forallb_Forall. intros v H. unfold var_withinb in H. apply andb_true_iff in H. destruct H as [H K3]. apply andb_true_iff in H. destruct H as [K1 K2]. split; [|split].
    + intro Hb. rewrite Hb in K1. cbn [negb orb] in K1. apply orb_true_iff in K1. destruct K1 as [K1|K1]; [left|right]; now qbool.
    + now qbool.
    + intros u Hu. apply (opt_leb_ok _ _ _ K3) in Hu. now qbool.
  - revert H2. apply forallb_Forall. intros r H. unfold row_withinb in H. apply andb_true_iff in H. destruct H as [K1 K2]. split; intros b Hb.
    + apply (opt_leb_ok _ _ _ K1) in Hb. now qbool.
    + apply (opt_leb_ok _ _ _ K2) in Hb. now qbool.
  - revert H3. apply forallb_Forall. intros l H. now apply Nat.leb_le.
Qed.

(** A solver that prefers the given point whenever it is a right answer up to [d]. *)
Definition prefers (d : Qc) (s : assignment) (sv : solver) : solver := fun n m => if excluded_middle_informative (valid_within d m (SOptimal s false)) then SOptimal s false else sv n m.
Lemma meets_0 d m s : 0 <= d -> mip_sat m s = true -> meets_within d m s.
Proof.
  intros Hd H. unfold mip_sat in H. apply andb_true_iff in H. destruct H as [H H3]. apply andb_true_iff in H. destruct H as [H1 H2]. split; [|split].
  - revert H1. apply forallb_Forall. intros v H. unfold var_ok in H. apply andb_true_iff in H. destruct H as [H K3]. apply andb_true_iff in H. destruct H as [K1 K2]. split; [|split].
    + intro Hb. rewrite Hb in K1. apply orb_true_iff in K1. destruct K1 as [K1|K1]; qbool; rewrite K1; [left|right].
      * rewrite qabs_0. exact Hd.
      * replace (1 - 1) with 0 by (apply Qc_is_canon; reflexivity). rewrite qabs_0. exact Hd.
    + qbool. qlra.
    + intros u Hu. rewrite Hu in K3. qbool. qlra.
  - revert H2. apply forallb_Forall. intros r H. unfold row_ok in H. apply andb_true_iff in H. destruct H as [K1 K2]. split; intros b Hb; rewrite Hb in *; qbool; qlra.
  - revert H3. apply forallb_Forall. intros l H. unfold sos_ok in H. apply Nat.leb_le in H. unfold sos_within. eapply Nat.le_trans; [|exact H]. clear H. induction l as [|v l IH]; [cbn; lia|]. cbn [filter].
    destruct (qeq_spec (s v) 0) as [Z|Z].
    + replace (qabs (s v) <=? d) with true; [exact IH|]. symmetry. apply qle_iff. rewrite Z, qabs_0. exact Hd.
    + cbn [negb length]. destruct (negb (qabs (s v) <=? d)); cbn [length]; lia.
Qed.
Lemma sound_within d sv : 0 <= d -> sound_solver sv -> solver_within d sv.
Proof.
  intros Hd HS n m. specialize (HS n m). destruct (sv n m) as [s g|s| |]; cbn in *.
  - destruct HS as [H1 H2]. split; [now apply meets_0|]. intros s' Hs. specialize (H2 s' Hs). qlra.
  - now apply meets_0.
  - exact HS.
  - exact I.
Qed.
Lemma prefers_within d s sv : 0 <= d -> sound_solver sv -> solver_within d (prefers d s sv).
Proof. intros Hd HS n m. unfold prefers. destruct (excluded_middle_informative _) as [H|H]; [exact H|]. now apply sound_within. Qed.
Lemma prefers_finishing d s sv : finishing_solver sv -> finishing_solver (prefers d s sv).
Proof. intros HF n m H. unfold prefers. destruct (excluded_middle_informative _) as [K|K]; [exact I|]. now apply HF. Qed.
Lemma prefers_at d s sv n m : valid_within d m (SOptimal s false) -> prefers d s sv n m = SOptimal s false.
Proof. intro H. unfold prefers. destruct (excluded_middle_informative _) as [K|K]; [reflexivity|contradiction]. Qed.

Definition s0 (e : Qc) : assignment := fun v => match v with VU 0 1 | VU 1 0 | VA 0 => 1 | VU 0 0 => e | _ => 0 end.
(** Conditions on an assigned builder under which the point above is a right answer. *)
Definition right_test (d : Qc) (s : assignment) (b0 : builder) : bool :=
  match bd_mip b0 with
  | None => false
  | Some ms => meets_withinb d (ms_mip ms) s && negb match bd_cost b0 with CMax => true | _ => false end &&
      fit_test b0 (fun r => match r with Some (_, _, c) => objective (ms_mip ms) s <=? c + d | None => false end)
  end.
Lemma right_test_ok c b b0 d s ms : sc_run c = Ok (b, b0) -> ok_env (sc_env c) -> right_test d s b0 = true -> bd_mip b0 = Some ms -> valid_within d (ms_mip ms) (SOptimal s false).
Proof.
  intros HR HE HT Hm. unfold right_test in HT. rewrite Hm in HT. apply andb_true_iff in HT. destruct HT as [HT H3]. apply andb_true_iff in HT. destruct HT as [H1 H2].
  split; [now apply meets_withinb_ok|]. intros s' Hs. destruct ideal_solver_exists as (sv & SS & SF).
  destruct (sc_fit _ _ _ _ HR HE H3 sv SS SF) as (b1 & r & Hf & Ht). pose proof (fit_sol _ _ _ _ _ Hm Hf) as K. specialize (SS (bd_calls b0) (ms_mip ms)).
  assert (HC : conclusive (sv (bd_calls b0) (ms_mip ms))).
  { destruct (assigned_ready _ sv _ _ _ HE (sc_assigned _ _ _ HR sv)) as (ms' & R). pose proof (finishing_good sv _ _ _ SF (rd_good _ _ _ _ _ R)) as G.
    pose proof (gd_mip _ _ _ (rd_good _ _ _ _ _ R)) as Q. rewrite Hm in Q. injection Q as <-. exact G. }
  destruct (sv (bd_calls b0) (ms_mip ms)) as [a [|]|a| |]; try (destruct HC; fail).
  - destruct SS as [_ SS]. specialize (SS s' Hs). destruct r as [si|]; [|discriminate Ht]. cbn [view] in Ht. qbool.
    unfold solution_info in K. destruct (bd_kind b0); cbn [exposed] in K; injection K as ->; cbn [s_cost] in Ht; (destruct (bd_cost b0); [| |discriminate H2]); qlra.
  - exfalso. specialize (SS s'). congruence.
Qed.

(** The point survives the removal of the item it stands for. *)
Definition stays_test (s : assignment) (k : backend) (infos : list info) (d : Qc) : bool :=
  match filter (fun v => isclose0 (s v)) (map off_var infos) with [] => true | _ => false end && row_withinb d s (exclusion_row (excl_vars k infos) s).
Lemma valid_add d m r s : valid_within d m (SOptimal s false) -> row_within d s r -> valid_within d (add_row r m) (SOptimal s false).
Proof.
  intros [(H1 & H2 & H3) H4] HR. split.
  - split; [exact H1|]. split; [|exact H3]. cbn [add_row m_rows]. apply Forall_app. auto.
  - intros s' Hs. apply H4. unfold mip_sat in *. cbn [add_row m_rows m_vars m_sos] in Hs. rewrite forallb_app in Hs.
    apply andb_true_iff in Hs. destruct Hs as [Hs K3]. apply andb_true_iff in Hs. destruct Hs as [K1 K2]. apply andb_true_iff in K2. destruct K2 as [K2 _]. now rewrite K1, K2, K3.
Qed.
Lemma stays d s sv et k infos ct n si : stays_test s k infos d = true ->
  forall b ms, bd_mip b = Some ms -> ms_infos ms = infos -> bd_kind b = k -> bd_cost b = ct -> ct <> CMax -> length (bd_w b) = n -> objective (ms_mip ms) s = s_cost si ->
  valid_within d (ms_mip ms) (SOptimal s false) -> solution_info k ct n ms (SOptimal s false) = Some si ->
  exists b1 b2 ms2, fit (prefers d s sv) b = Ok (b1, Some si) /\ remove_solution et b1 = Ok b2 /\
    bd_mip b2 = Some ms2 /\ ms_infos ms2 = infos /\ bd_kind b2 = k /\ bd_cost b2 = ct /\ length (bd_w b2) = n /\ objective (ms_mip ms2) s = s_cost si /\
    valid_within d (ms_mip ms2) (SOptimal s false) /\ solution_info k ct n ms2 (SOptimal s false) = Some si.
Proof.
  intros HT b ms Hm Hi Hk Hc Hct Hn Ho HV HS. unfold fit, solve_mip. rewrite Hm. cbn [bind]. rewrite (prefers_at _ _ _ _ _ HV).
  eexists. unfold get_solution. cbn [with_mip bd_mip bd_sol bd_kind bd_cost bd_w with_call]. rewrite Hk, Hc, Hn, HS. cbn [bind].
  unfold stays_test in HT. apply andb_true_iff in HT. destruct HT as [T1 T2].
  destruct et; unfold remove_solution, remove_all_features, remove_feature_combination, with_solution; cbn [with_mip bd_mip bd_sol bd_kind bd_cost bd_w with_call].
  - eexists _, ms. split; [reflexivity|]. split; [reflexivity|]. cbn [with_mip bd_mip bd_sol bd_kind bd_cost bd_w with_call]. rewrite Hi.
    destruct (filter (fun v => isclose0 (s v)) (map off_var infos)); [|discriminate T1]. cbn [fold_left]. destruct ms as [m i]. cbn [ms_mip ms_infos] in *. subst i. repeat (split; [first [reflexivity|assumption]|]). assumption.
  - eexists _, _. split; [reflexivity|]. split; [reflexivity|]. cbn [with_mip bd_mip bd_sol bd_kind bd_cost bd_w with_call]. rewrite Hi, Hk. split; [reflexivity|]. cbn [ms_infos ms_mip].
    split; [reflexivity|]. split; [reflexivity|]. split; [exact Hc|]. split; [exact Hn|]. split; [exact Ho|]. split.
    + apply valid_add; [exact HV|]. unfold row_withinb in T2. apply andb_true_iff in T2. destruct T2 as [K1 K2]. split; intros q Hq.
      * apply (opt_leb_ok _ _ _ K1) in Hq. now qbool.
      * apply (opt_leb_ok _ _ _ K2) in Hq. now qbool.
    + unfold solution_info in *. cbn [ms_infos ms_mip]. rewrite Hi in HS. exact HS.
Qed.
Lemma repeats d s sv et k infos ct n si : stays_test s k infos d = true -> ct <> CMax ->
  forall fuel b ms, bd_mip b = Some ms -> ms_infos ms = infos -> bd_kind b = k -> bd_cost b = ct -> length (bd_w b) = n -> objective (ms_mip ms) s = s_cost si ->
  valid_within d (ms_mip ms) (SOptimal s false) -> solution_info k ct n ms (SOptimal s false) = Some si ->
  populate_loop (prefers d s sv) fuel None et b = None /\
  forall m, (m <= fuel)%nat -> exists b2, populate_loop (prefers d s sv) fuel (Some m) et b = Some (Ok (b2, repeat si m)).
Proof.
  intros HT Hct. induction fuel as [|fuel IH]; intros b ms Hm Hi Hk Hc Hn Ho HV HS.
  - split; [reflexivity|]. intros m Hl. replace m with 0%nat by lia. exists b. reflexivity.
  - destruct (stays d s sv et k infos ct n si HT b ms Hm Hi Hk Hc Hct Hn Ho HV HS) as (b1 & b2 & ms2 & E1 & E2 & E3 & E4 & E5 & E6 & E7 & E8 & E9 & E10).
    destruct (IH b2 ms2 E3 E4 E5 E6 E7 E8 E9 E10) as [N R]. split.
    + cbn [populate_loop]. rewrite E1, E2. cbn [option_map]. now rewrite N.
    + intros [|m] Hl; [exists b; reflexivity|]. destruct (R m) as (b3 & E); [lia|]. exists b3. cbn [populate_loop]. rewrite E1, E2. cbn [option_map pred]. rewrite E. reflexivity.
Qed.

(** Boolean tests of the side conditions. *)
Definition fineb (d : Qc) (A : action_set) : bool := (0 <=? d) && (d * qz (1 + Z.of_nat (as_len A)) <? 1) && forallb (fun e => d * qz (2 + Z.of_nat (length (e_grid e))) <? 1) (as_elems A).
Lemma fineb_ok d A : fineb d A = true -> fine_for d A.
Proof.
  unfold fineb. intro H. apply andb_true_iff in H. destruct H as [H H3]. apply andb_true_iff in H. destruct H as [H1 H2]. qbool. split; [exact H1|]. split; [exact H2|].
  intros e He. rewrite forallb_forall in H3. specialize (H3 e He). now qbool.
Qed.
Definition changesb (M : Qc) (A : action_set) (x : list Qc) : bool := (0 <=? M) && forall_at (as_elems A) x (fun e xj => forallb (fun v => qabs (v - xj) <=? M) (targets e xj)).
Lemma changesb_ok M A x : changesb M A x = true -> changes_up_to M A x.
Proof.
  unfold changesb. intro H. apply andb_true_iff in H. destruct H as [H1 H2]. qbool. split; [exact H1|]. intros j e xj v He Hx HP.
  pose proof (forall_at_ok _ _ _ _ _ _ H2 He Hx) as K. cbn beta in K. rewrite forallb_forall in K. specialize (K v (targets_ok _ _ _ HP)). now qbool.
Qed.

Definition d6 : Qc := qfrac 1 1000000.
Definition d12 : Qc := qfrac 1 1000000000000.
Definition e7 : Qc := qfrac 1 10000000.
Definition tol_test (d e : Qc) (b b0 : builder) : bool :=
  fineb d (bd_A b) && changesb (z 3) (bd_A b) [z 0; z 1] && right_test d (s0 e) b0.
Definition info_test (b0 : builder) (t : mipstate -> bool) : bool := match bd_mip b0 with Some ms => t ms | None => false end.

(** With tolerance one millionth, populate can return the same item again and again. *)
Theorem tol_repeats k et : exists sv b b0 b1 s, solver_within d6 sv /\ finishing_solver sv /\ bd_kind b = k /\ assigned env0 sv b [z 0; z 1] b0 /\
  fine_for d6 (bd_A b) /\ changes_up_to (z 3) (bd_A b) [z 0; z 1] /\ fit sv b0 = Ok (b1, Some s) /\
  (forall n, (0 < n)%nat -> exists b2, populate sv n (Some n) et b0 = Some (Ok (b2, repeat s n))) /\
  (forall fuel, populate sv fuel None et b0 = None).
Proof.
  destruct (sc_check_ok (sc2 k CTotal (- z 2)) (fun b b0 => tol_test d6 e7 b b0 && match bd_kind b, k with CPX, CPX | PyMIP, PyMIP => true | _, _ => false end && match bd_kind b0, k with CPX, CPX | PyMIP, PyMIP => true | _, _ => false end &&
    match bd_cost b0 with CTotal => true | _ => false end && info_test b0 (fun ms => stays_test (s0 e7) k (ms_infos ms) d6))) as (b & b0 & HR & HT); [destruct k; vm_compute; reflexivity|].
  do 4 (apply andb_true_iff in HT; destruct HT as [HT ?]). unfold tol_test in HT. do 2 (apply andb_true_iff in HT; destruct HT as [HT ?]).
  destruct ideal_solver_exists as (sv & SS & SF). unfold info_test in H. destruct (bd_mip b0) as [ms|] eqn:Hm; [|discriminate H].
  assert (Kb : bd_kind b = k) by (destruct (bd_kind b), k; first [reflexivity|discriminate H2]).
  assert (Kb0 : bd_kind b0 = k) by (destruct (bd_kind b0), k; first [reflexivity|discriminate H1]).
  assert (Kc : bd_cost b0 = CTotal) by (destruct (bd_cost b0); first [reflexivity|discriminate H0]).
  pose proof (right_test_ok _ _ _ d6 (s0 e7) ms HR env0_ok H3 Hm) as HV.
  destruct (solution_info k CTotal (length (bd_w b0)) ms (SOptimal (s0 e7) false)) as [s|] eqn:HS; [|exfalso; unfold solution_info in HS; destruct k; discriminate HS].
  assert (Ho : objective (ms_mip ms) (s0 e7) = s_cost s).
  { unfold solution_info in HS. destruct k; cbn [exposed] in HS; injection HS as <-; reflexivity. }
  assert (Hd : 0 <= d6) by (apply qle_iff; vm_compute; reflexivity).
  assert (HC : CTotal <> CMax) by congruence.
  pose proof (repeats d6 (s0 e7) sv et k (ms_infos ms) CTotal (length (bd_w b0)) s H HC) as RP.
  destruct (stays d6 (s0 e7) sv et k (ms_infos ms) CTotal (length (bd_w b0)) s H b0 ms Hm eq_refl Kb0 Kc HC eq_refl Ho HV HS) as (b1 & _ & _ & Hf & _).
  exists (prefers d6 (s0 e7) sv), b, b0, b1, s. split; [now apply prefers_within|]. split; [now apply prefers_finishing|]. split; [exact Kb|].
  split; [exact (sc_assigned _ _ _ HR _)|]. split; [now apply fineb_ok|]. split; [now apply changesb_ok|]. split; [exact Hf|]. split.
  - intros n Hn. destruct (RP n b0 ms Hm eq_refl Kb0 Kc eq_refl Ho HV HS) as [_ R]. destruct (R n (le_n n)) as (b2 & E). exists b2. unfold populate. rewrite Hm. destruct n as [|n]; [lia|]. exact E.
  - intro fuel. destruct (RP fuel b0 ms Hm eq_refl Kb0 Kc eq_refl Ho HV HS) as [R _]. unfold populate. rewrite Hm. exact R.
Qed.

(** With an arbitrarily accurate solver the reported cost of a feature can be the cost of another feature. *)
Theorem tol_misattributes k : exists sv b b0 b1 s, solver_within d12 sv /\ finishing_solver sv /\ bd_kind b = k /\ assigned env0 sv b [z 0; z 1] b0 /\
  fine_for d12 (bd_A b) /\ changes_up_to (z 3) (bd_A b) [z 0; z 1] /\ bd_cost b = CTotal /\ fit sv b0 = Ok (b1, Some s) /\
  s_actions s = [1; 0] /\ exists c, 0 < c /\ s_costs s = [0; c] /\ action_costs env0 CTotal (bd_A b) [z 0; z 1] [1; 0] [c; 0].
Proof.
  destruct (sc_check_ok (sc2 k CTotal (- z 2)) (fun b b0 => tol_test d12 d12 b b0 && match bd_kind b, k with CPX, CPX | PyMIP, PyMIP => true | _, _ => false end && match bd_kind b0, k with CPX, CPX | PyMIP, PyMIP => true | _, _ => false end &&
    match bd_cost b with CTotal => true | _ => false end && match bd_cost b0 with CTotal => true | _ => false end && 
    costs_test env0 CTotal (bd_A b) [z 0; z 1] [1; 0] (fun cs => match cs with [c; c'] => (c' =? 0) && (0 <? c) && info_test b0 (fun ms => match solution_info k CTotal (length (bd_w b0)) ms (SOptimal (s0 d12) false) with
     | Some s => listeqb (s_actions s) [1; 0] && listeqb (s_costs s) [0; c] | None => false end) | _ => false end))) as (b & b0 & HR & HT); [destruct k; vm_compute; reflexivity|].
  do 5 (apply andb_true_iff in HT; destruct HT as [HT ?]). unfold tol_test in HT. do 2 (apply andb_true_iff in HT; destruct HT as [HT ?]).
  apply costs_test_ok in H. destruct H as (cs & Hcs & H). destruct cs as [|c [|c' [|]]]; try discriminate H. do 2 (apply andb_true_iff in H; destruct H as [H ?]).
  destruct ideal_solver_exists as (sv & SS & SF). unfold info_test in H6. destruct (bd_mip b0) as [ms|] eqn:Hm; [|discriminate H6].
  assert (Kb : bd_kind b = k) by (destruct (bd_kind b), k; first [reflexivity|discriminate H3]).
  assert (Kb0 : bd_kind b0 = k) by (destruct (bd_kind b0), k; first [reflexivity|discriminate H2]).
  assert (Kc : bd_cost b0 = CTotal) by (destruct (bd_cost b0); first [reflexivity|discriminate H0]).
  assert (Kc' : bd_cost b = CTotal) by (destruct (bd_cost b); first [reflexivity|discriminate H1]).
  pose proof (right_test_ok _ _ _ d12 (s0 d12) ms HR env0_ok H4 Hm) as HV.
  destruct (solution_info k CTotal (length (bd_w b0)) ms (SOptimal (s0 d12) false)) as [s|] eqn:HS; [|discriminate H6].
  apply andb_true_iff in H6. destruct H6 as [L1 L2]. apply listeqb_ok in L1, L2. qbool. subst c'.
  assert (Hd : 0 <= d12) by (apply qle_iff; vm_compute; reflexivity).
  exists (prefers d12 (s0 d12) sv), b, b0. eexists _, s. split; [now apply prefers_within|]. split; [now apply prefers_finishing|]. split; [exact Kb|].
  split; [exact (sc_assigned _ _ _ HR _)|]. split; [now apply fineb_ok|]. split; [now apply changesb_ok|]. split; [exact Kc'|]. split.
  - unfold fit, solve_mip. rewrite Hm. cbn [bind]. rewrite (prefers_at _ _ _ _ _ HV). unfold get_solution. cbn [with_mip bd_mip bd_sol bd_kind bd_cost bd_w with_call bind]. rewrite Kb0, Kc, HS. reflexivity.
  - split; [exact L1|]. exists c. split; [assumption|]. split; [exact L2|]. exact Hcs.
Qed.

(** ** Witnesses *)
Definition pricesb (E : env) (ct : cost_type) (K : Qc) (A : action_set) (x : list Qc) : bool := (0 <=? K) && forall_at (as_elems A) x (fun e xj => forallb (fun v =>
  match percentile E e xj, percentile E e v with
  | Ok p, Ok q => qabs (match ct with CLocal => if xj <=? v then nplog E ((1 - p) / (1 - q)) else nplog E ((1 - q) / (1 - p)) | _ => if xj <=? v then q - p else p - q end) <=? K
  | _, _ => true end) (targets e xj)).
Lemma pricesb_ok E ct K A x : pricesb E ct K A x = true -> prices_up_to E ct K A x.
Proof.
  unfold pricesb. intro H. apply andb_true_iff in H. destruct H as [H1 H2]. qbool. split; [exact H1|]. intros j e xj v p He Hx HP (p1 & q1 & Ep & Eq & ->).
  pose proof (forall_at_ok _ _ _ _ _ _ H2 He Hx) as Q. cbn beta in Q. rewrite forallb_forall in Q. specialize (Q v (targets_ok _ _ _ HP)). cbn beta in Q. rewrite Ep, Eq in Q. now qbool.
Qed.
Lemma sound_whole sv : sound_solver sv -> whole_indicators sv.
Proof.
  intros HS n m s g v Ho Hv Hb. assert (K : mip_sat m s = true) by (specialize (HS n m); destruct Ho as [Ho|Ho]; rewrite Ho in HS; apply HS).
  unfold mip_sat in K. apply andb_true_iff in K. destruct K as [K _]. apply andb_true_iff in K. destruct K as [K _]. rewrite forallb_forall in K. specialize (K v Hv). unfold var_ok in K. rewrite Hb in K.
  apply andb_true_iff in K. destruct K as [K _]. apply andb_true_iff in K. destruct K as [K _]. apply orb_true_iff in K. destruct K as [K|K]; qbool; auto.
Qed.
Lemma fine_mono d d' A : 0 <= d -> d <= d' -> fine_for d' A -> fine_for d A.
Proof.
  intros H0 H (F1 & F2 & F3). split; [exact H0|]. assert (M : forall k, (0 <= k)%Z -> d' * qz k < 1 -> d * qz k < 1).
  { intros k Hk L. assert (Q : 0 <= qz k) by (change 0 with (qz 0); now apply qz_le). pose proof (Qcmult_le_compat_r d d' (qz k) H Q). qlra. }
  split; [apply M; [lia|exact F2]|]. intros e He. apply M; [lia|now apply F3].
Qed.
Lemma tol_case k ct d : 0 <= d -> d <= d6 -> exists b b0, (forall sv, assigned env0 sv b [z 0; z 1] b0) /\ fine_for d (bd_A b) /\ changes_up_to (z 3) (bd_A b) [z 0; z 1] /\ bd_kind b = k /\ bd_cost b = ct /\
  prices_up_to env0 ct (z 10000000) (bd_A b) [z 0; z 1] /\ switches_off env0 (bd_A b) [z 0; z 1] /\
  flips_match (bd_A b) (bd_w b) /\ orderly env0 (bd_A b) (bd_w b) [z 0; z 1] /\ regular env0 (bd_A b) [z 0; z 1] /\ acceptable b [z 0; z 1] [z 2; z 0] /\
  (forall sv, sound_solver sv -> finishing_solver sv -> solver_within d sv /\ whole_indicators sv /\ exists b1 s, fit sv b0 = Ok (b1, Some s)).
Proof.
  intros H0 Hd.
  destruct (forced (sc2 k ct (- z 3)) (fun b => case_pre k ct b && acceptableb b x01 [z 2; z 0] && fineb d6 (bd_A b) && changesb (z 3) (bd_A b) x01 && pricesb env0 ct (z 10000000) (bd_A b) x01)
    (fun b r => match r with Some _ => true | None => false end) env0_ok) as (b & b0 & HA & HP & HF); [destruct k, ct; vm_compute; reflexivity|].
  do 4 (apply andb_true_iff in HP; destruct HP as [HP ?]). destruct (case_pre_ok _ _ _ HP) as (P1 & P2 & P3 & P4 & P5). destruct P1 as (P1 & (G1 & G2 & _)). exists b, b0. fold x01.
  split; [exact HA|]. split; [eapply fine_mono; eauto using fineb_ok|]. split; [now apply changesb_ok|]. split; [exact P4|]. split; [exact P5|]. split; [now apply pricesb_ok|].
  split; [now apply c37_unconstrained; [apply env0_ok|]|]. split; [exact G2|]. split; [exact G1|]. split; [exact P2|]. split; [now apply acceptableb_ok|].
  intros sv S1 F. split; [now apply sound_within|]. split; [now apply sound_whole|]. destruct (HF sv S1 F) as (b1 & [s|] & Hf & Ht); [eauto|discriminate Ht].
Qed.
