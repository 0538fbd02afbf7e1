(** C124: when edits of a shared action set take effect. *)
From Verif Require Import Spec_shared Proofs_props_element Proofs_props_actionset Proofs_actionset Proofs_session Proofs_builder Proofs_builder3 Proofs_builder6 Proofs_builder7 Proofs_builder8 Proofs_solver Proofs_concrete Proofs_scen Proofs_scen2
  Proofs_flipset Proofs_flipset3 Proofs_queries Proofs_backend Proofs_audit Proofs_audit2 Proofs_audit3 Proofs_agree Proofs_binding Proofs_tol10 Proofs_shared.
Import ListNotations. Open Scope string_scope. Open Scope list_scope. Open Scope Qc_scope.

(** ** Followed *)
Theorem c124_reassigned E svs srt s i b x b0 l b1 r : ok_env E -> sound_solver (svs i) -> ws_reachable E svs srt s -> holds s i (TBuilder b) ->
  set_x E b x = (b0, Ok tt) -> session (svs i) b0 l b1 -> In r l ->
  permitted_action (ws_A s) x (s_actions r) /\ on_side (as_y (ws_A s)) (score (bd_w b) (bd_t b) (vadd x (s_actions r))).
Proof.
  intros HE HS HR Hi HX HL Hr. destruct (shared_builder _ _ _ _ _ _ HR Hi) as [<- HB]. assert (HA : assigned E (svs i) b x b0) by (split; assumption).
  split; [exact (c25_thm _ _ _ _ _ _ _ _ HE HS HA HL Hr)|exact (c26_thm _ _ _ _ _ _ _ _ HE HS HA HL Hr)].
Qed.
Lemma auditor_cost E sv k A w t b : auditor_reachable E sv k A w t b -> bd_cost b = CMax.
Proof.
  intros (b0 & ops & H & ->). destruct (auditor_parts _ _ _ _ _ _ H) as (A1 & _ & HM).
  assert (H0 : bd_cost b0 = CMax). { unfold mk_builder in HM. bnd HM as [w' t'] Hp. bnd HM as u Hu. bnd HM as A' HA. now injection HM as <-. }
  clear H HM. revert b0 H0. unfold auditor_run. induction ops as [|o ops IH]; intros b0 H0; [exact H0|]. cbn [fold_left]. apply IH. destruct o as [X y|o]; [|exact H0]. cbn [auditor_step].
  assert (HL : forall l b, bd_cost (fst (audit_loop E sv b l)) = bd_cost b).
  { induction l as [|[i u] l IH2]; intro c; [reflexivity|]. cbn [audit_loop]. pose proof (same_set_x E c u) as (_ & _ & _ & _ & K & _).
    destruct (set_x E c u) as [c1 [q|er]]; cbn [fst] in *; [|exact K]. destruct (fit sv c1) as [[c2 s]|] eqn:HF; [|exact K]. pose proof (ss_fit _ _ _ _ HF) as KF.
    assert (KC : bd_cost c2 = bd_cost c1) by (unfold fit, solve_mip in HF; destruct (bd_mip c1); [|discriminate HF]; cbn in HF; now injection HF as <- _).
    pose proof (IH2 c2) as K2. destruct (audit_loop E sv c2 l) as [c3 [out|er]]; cbn [fst] in *; congruence. }
  unfold audit. match goal with |- context [match ?p with Ok _ => _ | Err _ => _ end] => destruct p as [rows|er]; [|exact H0] end.
  cbv zeta. match goal with |- context [audit_loop E sv b0 ?l] => pose proof (HL l b0) as K; destruct (audit_loop E sv b0 l) as [b3 [[|o out]|er]]; cbn [fst] in *; congruence end.
Qed.
Lemma auditor_is_builder E sv k A w t b : aset_reachable E A -> auditor_reachable E sv k A w t b -> builder_reachable E sv b.
Proof.
  intros HA (b0 & ops & H & ->). destruct (auditor_fresh _ _ _ _ _ _ HA H) as (_ & _ & HR).
  assert (R0 : builder_reachable E sv b0) by (exists b0, []; split; [exact HR|reflexivity]). clear H HR. revert b0 R0. unfold auditor_run.
  induction ops as [|o ops IH]; intros b0 R0; [exact R0|]. cbn [fold_left]. apply IH. destruct o as [X y|o]; cbn [auditor_step]; [now apply audit_reach|]. now apply (Proofs_builder6.reach_step E sv b0 (BAset o)).
Qed.
Theorem c124_auditor {I} E svs srt s i b (X : list (I * list Qc)) y b' out : ok_env E -> sound_solver (svs i) -> finishing_solver (svs i) -> ws_reachable E svs srt s -> holds s i (TAuditor b) ->
  audit E (svs i) b (table_of X) y = (b', Ok out) ->
  Forall2 (fun p q => forall c, snd q = Some (true, c) ->
    exists a cs m, c = Fin m /\ permitted_action (ws_A s) (snd p) a /\ (1 <= n_changed a)%nat /\ on_side (as_y (ws_A s)) (score (bd_w b) (bd_t b) (vadd (snd p) a)) /\
      action_costs E CMax (ws_A s) (snd p) a cs /\ largest cs m) X out.
Proof.
  intros HE HS HF HW Hi H. destruct (shared_auditor _ _ _ _ _ _ HW Hi) as [<- (k & A0 & w & t & HA0 & HAr)]. pose proof (auditor_is_builder _ _ _ _ _ _ _ HA0 HAr) as HR. pose proof (auditor_cost _ _ _ _ _ _ _ HAr) as HC.
  apply audit_ok in H. destruct H as (X0 & E0 & HN & HL & Hlab & o & Ho & _ & ->). apply table_inj in E0. subst X0.
  apply Forall2_map_r. intros [j r] Hp. cbn [fst snd]. intros c Hq.
  destruct (to_audit (bd_w b) (bd_t b) y r) eqn:T; [|apply (result_none _ _ _ _ _ _ _ r Ho) in T; [congruence|apply in_map_iff; exists (j, r); auto]].
  destruct (result_judged E (svs i) b y (map snd X) b' o r HR Ho) as (v & Hv & bi & b0 & b1 & q & SP & HAs & Hf & ->); [apply in_map_iff; exists (j, r); auto|exact T|]. rewrite Hv in Hq. injection Hq as Hq.
  pose proof SP as (_ & Pw & Pt & PA & Pc & _). destruct q as [q|]; cbn [verdict_of] in Hq; [|discriminate Hq]. injection Hq as <-.
  destruct (fit_some E (svs i) bi r b0 HE HS HAs b1 q Hf) as (K1 & _ & K3). rewrite PA in K1, K3. rewrite Pw, Pt in K3.
  assert (Ses : session (svs i) b0 ([q] ++ []) b1) by (exact (ses_fit (svs i) b0 b1 (Some q) [] b1 Hf (ses_done (svs i) b1))).
  destruct (c31_thm E (svs i) bi r b0 _ b1 q HE HS HAs Ses (or_introl eq_refl)) as (N1 & _ & N3).
  assert (HCi : bd_cost bi = CMax) by congruence.
  destruct (c30_costs E (svs i) bi r b0 _ b1 q HE HS HF HAs HCi Ses (or_introl eq_refl)) as (P1 & P2). rewrite HCi, PA in P1.
  exists (s_actions q), (s_costs q), (s_cost q). split; [reflexivity|]. split; [exact K1|]. split; [exact N1|]. split; [exact K3|]. split; [exact P1|exact P2].
Qed.
Theorem c124_flipset E svs srt s i f fuel total et ct f' : ok_env E -> sound_solver (svs i) -> ok_sorter srt -> ws_reachable E svs srt s -> holds s i (TFlipset f) -> f_builder f = None ->
  denied (as_y (ws_A s)) (score (f_w f) (f_t f) (f_x f)) -> scalar_keys (f_by f) -> total <> Some 0%nat -> (2 ^ as_len (ws_A s) < fuel)%nat ->
  f_populate E (svs i) srt fuel total et ct f = Some (f', Ok tt) ->
  exists l, f_items f' = f_items f ++ map filed l /\ forall r, In r l -> permitted_action (ws_A s) (f_x f) (s_actions r) /\ on_side (as_y (ws_A s)) (score (f_w f) (f_t f) (vadd (f_x f) (s_actions r))).
Proof.
  intros HE HS HSr HW Hi HB HD HK HT Hfu HP. destruct (shared_flipset _ _ _ _ _ _ HW Hi) as (k & A0 & x & w & t & f0 & HA & HF & _ & HN). destruct (HN HB) as [-> ->].
  destruct (own_reachable _ _ _ _ _ _ _ _ _ HA HF) as [F _]. destruct F as [_ _ _ _ Fx Fw Ft]. rewrite Fx, Fw, Ft in *.
  destruct (c45 E (svs i) srt k (ws_A s) x w t f0 fuel total et ct HE HS HSr HA HF HD HK HT Hfu) as [(er & _ & _ & K)|(b & b' & l & f2 & _ & _ & K & Ki & Kall)]; rewrite HP in K.
  - discriminate K.
  - injection K as <-. exists l. split; [exact Ki|]. intros r Hr. destruct (Kall r Hr) as (K1 & K2 & _). auto.
Qed.

(** ** Ignored *)
Definition freeze (n : string) : aset_op := OIndexSet (IStr n) "actionable" (PBool false).
Definition frozen (A : action_set) (j : nat) : bool := match nth_error (as_elems A) j with Some e => negb (e_actionable e) | None => false end.
Lemma ws_two E svs srt k A a ct x b op : mk_builder E k A a ct x = Ok b -> let A2 := aset_step E (bd_A b) op in
  ws_run E svs srt {| ws_A := A; ws_things := [] |} [WBuilder k a ct x; WAset op] = {| ws_A := A2; ws_things := [TBuilder (with_aset b A2)] |}.
Proof. intros H A2. cbn [ws_run fold_left ws_step ws_A ws_things]. unfold ws_run. cbn [fold_left ws_step ws_A ws_things]. rewrite H. rewrite <- (mk_aset _ _ _ _ _ _ _ H). reflexivity. Qed.
Theorem c124_builder_ignored k ct : exists A x w t, aset_reachable env0 A /\ forall svs srt, sound_solver (svs 0%nat) -> finishing_solver (svs 0%nat) ->
  let s := ws_run env0 svs srt {| ws_A := A; ws_things := [] |} [WBuilder k (coef_args w t) ct (Some x); WAset (OIndexSet (IStr "a") "actionable" (PBool false))] in
  exists b b1 r e, holds s 0 (TBuilder b) /\ nth_error (as_names (ws_A s)) 0 = Some "a" /\ nth_error (as_elems (ws_A s)) 0 = Some e /\ e_actionable e = false /\
    fit (svs 0%nat) b = Ok (b1, Some r) /\ changes (s_actions r) 0.
Proof.
  assert (HT : made_case (sc2 k ct (z (-6))) (fun A b0 => fit_test b0 changes_both && frozen (aset_step env0 (bd_A b0) (freeze "a")) 0 &&
    match nth_error (as_names (aset_step env0 (bd_A b0) (freeze "a"))) 0 with Some n => (n =? "a")%string | None => false end) = true) by (destruct k, ct; vm_compute; reflexivity).
  apply made_case_ok in HT. destruct HT as (A & b0 & HA & HM & HT). do 2 (apply andb_true_iff in HT; destruct HT as [HT ?]).
  change (sc_env (sc2 k ct (z (-6)))) with env0 in *. change (sc_kind (sc2 k ct (z (-6)))) with k in *. change (sc_w (sc2 k ct (z (-6)))) with [z 1; z 1] in *. change (sc_t (sc2 k ct (z (-6)))) with (z (-6)) in *.
  change (sc_cost (sc2 k ct (z (-6)))) with ct in *. change (sc_x (sc2 k ct (z (-6)))) with x01 in *.
  exists A, x01, [z 1; z 1], (z (-6)). split; [exact HA|]. intros svs srt HS HF. fold (freeze "a"). rewrite (ws_two env0 svs srt k A _ ct (Some x01) b0 (freeze "a") HM). cbv zeta.
  cbn [ws_A]. unfold frozen in H0. destruct (nth_error (as_elems (aset_step env0 (bd_A b0) (freeze "a"))) 0) as [e|] eqn:He; [|discriminate H0]. apply negb_true_iff in H0.
  destruct (nth_error (as_names (aset_step env0 (bd_A b0) (freeze "a"))) 0) as [n|] eqn:Hn; [|discriminate H]. apply String.eqb_eq in H. subst n.
  destruct (created_own env0 (svs 0%nat) k A x01 _ _ ct b0 HA HM) as (b & _ & Has). destruct (general_fit env0 (svs 0%nat) b x01 b0 changes_both env0_ok HS HF Has HT) as (b1 & r & K1 & K2).
  destruct r as [r|]; [|discriminate K2]. eexists _, _, r, e. split; [reflexivity|]. split; [reflexivity|]. split; [reflexivity|]. split; [exact H0|]. split; [rewrite query_fit, K1; reflexivity|].
  unfold view, changes_both in K2. destruct (s_actions r) as [|a0 [|a1 [|]]] eqn:Ha; try discriminate K2. apply andb_true_iff in K2. destruct K2 as [K2 _]. qbool.
  exists a0. split; [reflexivity|]. intros ->. apply (Qclt_not_eq _ _ K2). reflexivity.
Qed.
Lemma made_builder E sv srt fuel total et ct f b b' l f' r : (match f_builder f with Some b => Ok b | None => mk_builder E (f_kind f) (f_A f) (coef_args (f_w f) (f_t f)) ct (Some (f_x f)) end) = Ok b ->
  populate sv fuel total et b = Some (Ok (b', l)) -> f_populate E sv srt fuel total et ct f = Some (f', r) -> f_builder f' = Some b'.
Proof. intros H HP K. unfold f_populate in K. rewrite H, HP in K. pose proof (builder_add srt (f_with_builder f (Some b')) (map sol_item l)) as KB. destruct (f_add srt (f_with_builder f (Some b')) (map sol_item l)) as [f2 q]. now injection K as <- _. Qed.
Definition first_call ct := FPopulate 5 (Some 1%nat) DistinctSubsets ct.
Lemma keys_step E sv srt k A x w t f fuel total et ct f' r : flipset_reachable E sv srt k A x w t None f -> f_populate E sv srt fuel total et ct f = Some (f', r) -> f_by f' = f_by f.
Proof.
  intros _ H. unfold f_populate in H. destruct (match f_builder f with Some b => _ | None => _ end) as [b|e]; [|injection H as <- _; reflexivity].
  destruct (populate sv fuel total et b) as [[[b' l]|e]|]; [|injection H as <- _; reflexivity|discriminate H].
  assert (K : f_by (fst (f_add srt (f_with_builder f (Some b')) (map sol_item l))) = f_by f).
  { unfold f_add. destruct (mapM _ _) as [l'|e]; [|reflexivity]. unfold add_to_df. destruct l' as [|i l']; [reflexivity|]. destruct (mapM _ _) as [rows|e]; [|reflexivity].
    unfold f_resort. destruct (srt _ _); [|reflexivity]. cbn. destruct (f_inplace f); reflexivity. }
  injection H as H. rewrite H in K. exact K.
Qed.
Theorem c124_flipset_ignored k ct : exists A x w t, aset_reachable env0 A /\ forall svs srt, sound_solver (svs 0%nat) -> finishing_solver (svs 0%nat) -> ok_sorter srt ->
  let s := ws_run env0 svs srt {| ws_A := A; ws_things := [] |} [WFlipset k x (coef_args w t); WUse 0 (RFlipset (FPopulate 5 (Some 1%nat) DistinctSubsets ct)); WAset (OIndexSet (IStr "a") "actionable" (PBool false))] in
  exists f f' e l r, holds s 0 (TFlipset f) /\ nth_error (as_names (ws_A s)) 0 = Some "a" /\ nth_error (as_elems (ws_A s)) 0 = Some e /\ e_actionable e = false /\
    f_populate env0 (svs 0%nat) srt 5 None DistinctSubsets ct f = Some (f', Ok tt) /\ f_items f' = f_items f ++ map filed l /\ In r l /\ changes (s_actions r) 0.
Proof.
  assert (HT : made_case (sc2 k ct (- z 3)) (fun A b0 => ok_and (mk_builder env0 k A (coef_args [z 1; z 1] (- z 3)) ct None) (fun b => case_pre k ct b && acceptableb b x01 [z 2; z 0] && acceptableb b x01 [z 1; z 1] &&
     match set_x env0 b x01 with (b1, Ok _) => true | _ => false end) &&
    frozen (aset_step env0 (bd_A b0) (freeze "a")) 0 && Nat.eqb (as_len A) 2 && (as_y A =? 1)%Z && negb (on_sideb (as_y A) (score [z 1; z 1] (- z 3) x01)) &&
    match nth_error (as_names (aset_step env0 (bd_A b0) (freeze "a"))) 0 with Some n => (n =? "a")%string | None => false end) = true) by (destruct k, ct; vm_compute; reflexivity).
  apply made_case_ok in HT. destruct HT as (A & b0 & HA & HM & HT). do 5 (apply andb_true_iff in HT; destruct HT as [HT ?]).
  change (sc_env (sc2 k ct (- z 3))) with env0 in *. change (sc_kind (sc2 k ct (- z 3))) with k in *. change (sc_w (sc2 k ct (- z 3))) with [z 1; z 1] in *. change (sc_t (sc2 k ct (- z 3))) with (- z 3) in *.
  change (sc_cost (sc2 k ct (- z 3))) with ct in *. change (sc_x (sc2 k ct (- z 3))) with x01 in *.
  apply ok_and_true in HT. destruct HT as (bn & HMn & HT). do 3 (apply andb_true_iff in HT; destruct HT as [HT ?]). apply case_pre_ok in HT. destruct HT as (PS & RG & _ & Pk & Pc).
  apply acceptableb_ok in H5, H6. apply Nat.eqb_eq in H2. apply negb_true_iff in H0. 
  assert (HD : denied (as_y A) (score [z 1; z 1] (- z 3) x01)) by (now apply deniedb).
  exists A, x01, [z 1; z 1], (- z 3). split; [exact HA|]. intros svs srt HS HF HSr. set (sv := svs 0%nat) in *.
  assert (Has : assigned env0 sv bn x01 b0).
  { split; [exists bn, []; split; [exists k, A, (coef_args [z 1; z 1] (- z 3)), ct, None; split; [exact HA|exact HMn]|reflexivity]|].
    unfold mk_builder in HM, HMn. bnd HMn as [w' t'] Hp. rewrite Hp in HM. cbn [bind] in HM. bnd HMn as u Hu. rewrite Hu in HM. cbn [bind] in HM. bnd HMn as A' HA'. rewrite HA' in HM. cbn [bind] in HM. injection HMn as EB. rewrite EB in HM.
    destruct (set_x env0 bn x01) as [b1 q]. bnd HM as v Hv. destruct v. injection HM as <-. now rewrite Hv. }
  destruct (flipset_made k A x01 [z 1; z 1] (- z 3)) as (f0 & Hc0). assert (Hc : flipset_created k A x01 [z 1; z 1] (- z 3) None f0) by exact Hc0. 
  assert (Hmk : mk_flipset k A x01 (coef_args [z 1; z 1] (- z 3)) None = Ok f0). { destruct Hc0 as (aa & Pa & Ha). unfold mk_flipset in *. rewrite Pa in Ha. rewrite coef_parse. exact Ha. }
  assert (HR0 : flipset_reachable env0 sv srt k A x01 [z 1; z 1] (- z 3) None f0) by (exists f0, []; split; [exact Hc|reflexivity]).
  destruct (frame_created _ _ _ _ _ _ _ Hc) as (FR & _ & _ & FB & FK & _). assert (SK : scalar_keys (f_by f0)) by (rewrite FK; reflexivity).
  assert (Hfu : (2 ^ as_len A < 5)%nat) by (rewrite H2; cbn; lia).
  destruct (c45 env0 sv srt k A x01 _ _ f0 5 (Some 1%nat) DistinctSubsets ct env0_ok HS HSr HA HR0 HD SK ltac:(intro Q; discriminate Q) Hfu) as [(er & _ & Q & _)|(c & c' & l1 & f1 & Hcb & HP1 & HQ1 & Hi1 & _)]; [rewrite HM in Q; discriminate Q|].
  rewrite FB in Hcb. destruct Hcb as [Q|[_ Hcb]]; [discriminate Q|]. rewrite HM in Hcb. injection Hcb as <-.
  assert (HB1 : f_builder f1 = Some c'). { eapply made_builder; [|exact HP1|exact HQ1]. rewrite FB. destruct FR. rewrite fm_A, fm_kind, fm_w, fm_t, fm_x. exact HM. }
  assert (HR1 : flipset_reachable env0 sv srt k A x01 [z 1; z 1] (- z 3) None f1).
  { exists f0, [FPopulate 5 (Some 1%nat) DistinctSubsets ct]. split; [exact Hc|]. unfold flipset_run. cbn [fold_left flipset_step]. now rewrite HQ1. }
  assert (SK1 : scalar_keys (f_by f1)) by (rewrite (keys_step _ _ _ _ _ _ _ _ _ _ _ _ _ _ _ HR0 HQ1); exact SK).
  destruct (c45 env0 sv srt k A x01 _ _ f1 5 None DistinctSubsets ct env0_ok HS HSr HA HR1 HD SK1 ltac:(intro Q; discriminate Q) Hfu) as [(er & Q & _)|(c2 & c3 & l2 & f2 & Hcb & HP2 & HQ2 & Hi2 & _)]; [rewrite HB1 in Q; discriminate Q|].
  rewrite HB1 in Hcb. destruct Hcb as [Q|[Q _]]; [injection Q as <-|discriminate Q].
  set (A1 := bd_A b0) in *. set (A2 := aset_step env0 A1 (freeze "a")) in *.
  assert (HWS : ws_run env0 svs srt {| ws_A := A; ws_things := [] |} [WFlipset k x01 (coef_args [z 1; z 1] (- z 3)); WUse 0 (RFlipset (FPopulate 5 (Some 1%nat) DistinctSubsets ct)); WAset (freeze "a")] = {| ws_A := A2; ws_things := [TFlipset (f_shared f1 A2)] |}).
  { unfold ws_run. cbn [fold_left ws_step ws_A ws_things]. rewrite Hmk. cbn [add_thing app settle map share ws_A ws_things nth_error].
    rewrite (f_shared_same f0 A) by (first [exact FB|destruct FR; assumption]). cbn [respond flipset_step]. fold sv. rewrite HQ1, FB.
    assert (EL : left_by_builder env0 (f_kind f0) A (coef_args (f_w f0) (f_t f0)) ct = A1). { destruct FR. rewrite fm_kind, fm_w, fm_t. symmetry. eapply mk_aset; eassumption. }
    rewrite EL. cbn [list_set settle map share ws_A ws_things]. fold A2. unfold settle. cbn [map share]. now rewrite f_shared_twice. }
  fold (freeze "a"). rewrite HWS. cbv zeta. cbn [ws_A]. unfold frozen in H3. fold A2 in H3. destruct (nth_error (as_elems A2) 0) as [e|] eqn:He; [|discriminate H3]. apply negb_true_iff in H3.
  destruct (nth_error (as_names A2) 0) as [n|] eqn:Hn; [|discriminate H]. apply String.eqb_eq in H. subst n.
  assert (Hex : exists r, In r l2 /\ changes (s_actions r) 0).
  { destruct PS as (UN & PO & PF & _).
    assert (HSO : bd_kind bn = CPX -> switches_off env0 (bd_A bn) x01) by (intros _; now apply c37_unconstrained; [exact env0_ok|]).
    assert (EN : enumeration sv b0 (map (pair DistinctSubsets) l1 ++ []) c') by (eapply en_populate; [exact HP1|constructor]). rewrite app_nil_r in EN.
    assert (HX : forall a, acceptable bn x01 a -> exists r, In r (l1 ++ l2) /\ same_features (s_actions r) a).
    { intros a Ha. destruct (c39_exh_thm env0 sv bn x01 b0 _ c' 5 None DistinctSubsets l2 c3 a env0_ok HS HF env0_density (fun _ => env0_log) Has PO PF RG HSO EN HP2 ltac:(intro Q; discriminate Q) Ha) as (et' & r & Hr & Hx).
      rewrite <- map_app in Hr. apply in_map_iff in Hr. destruct Hr as (r' & Er & Hr). injection Er as <- <-. eauto. }
    pose proof (c40_count_thm env0 sv bn x01 b0 [] 1 b0 c' 5 DistinctSubsets l1 env0_ok HS Has (en_done sv b0) HP1) as HL1.
    assert (C1 : changes [z 2; z 0] 0) by (exists (z 2); split; [reflexivity|intro Q; discriminate Q]).
    assert (C2 : changes [z 1; z 1] 0) by (exists (z 1); split; [reflexivity|intro Q; discriminate Q]).
    assert (C3 : changes [z 1; z 1] 1) by (exists (z 1); split; [reflexivity|intro Q; discriminate Q]).
    assert (C4 : ~ changes [z 2; z 0] 1) by (intros (v & Q1 & Q2); cbn in Q1; injection Q1 as <-; apply Q2; apply Qc_is_canon; reflexivity).
    destruct (HX _ H6) as (r1 & I1 & S1), (HX _ H5) as (r2 & I2 & S2). apply in_app_iff in I1, I2.
    destruct I1 as [I1|I1]; [|exists r1; split; [exact I1|now apply S1]]. destruct I2 as [I2|I2]; [|exists r2; split; [exact I2|now apply S2]].
    exfalso. destruct l1 as [|q [|q' l1]]; cbn in HL1; [destruct I1| |lia]. destruct I1 as [<-|[]], I2 as [<-|[]]. apply C4. apply S1, S2, C3. }
  destruct Hex as (r & Hr & Hch).
  exists (f_shared f1 A2), (f_shared f2 A2), e, l2, r. split; [reflexivity|]. split; [reflexivity|]. split; [reflexivity|]. split; [exact H3|].
  split; [rewrite (shared_populate env0 sv srt 5 None DistinctSubsets ct f1 A2 c' HB1), HQ2; reflexivity|]. split; [exact Hi2|]. auto.
Qed.
Lemma c124_followed_case k ct : exists A x w t, aset_reachable env0 A /\ forall svs srt, sound_solver (svs 0%nat) -> finishing_solver (svs 0%nat) ->
  let s := ws_run env0 svs srt {| ws_A := A; ws_things := [] |} [WBuilder k (coef_args w t) ct (Some x); WAset (OIndexSet (IStr "a") "actionable" (PBool false))] in
  exists b b0 b1 r, holds s 0 (TBuilder b) /\ set_x env0 b x = (b0, Ok tt) /\ fit (svs 0%nat) b0 = Ok (b1, Some r) /\ changes (s_actions r) 1.
Proof.
  assert (HT : made_case (sc2 k ct (z (-3))) (fun A b0 => match set_x env0 (with_aset b0 (aset_step env0 (bd_A b0) (freeze "a"))) x01 with (c, Ok _) => fit_test c changes_second | _ => false end) = true) by (destruct k, ct; vm_compute; reflexivity).
  apply made_case_ok in HT. destruct HT as (A & b0 & HA & HM & HT).
  change (sc_env (sc2 k ct (z (-3)))) with env0 in *. change (sc_kind (sc2 k ct (z (-3)))) with k in *. change (sc_w (sc2 k ct (z (-3)))) with [z 1; z 1] in *. change (sc_t (sc2 k ct (z (-3)))) with (z (-3)) in *.
  change (sc_cost (sc2 k ct (z (-3)))) with ct in *. change (sc_x (sc2 k ct (z (-3)))) with x01 in *.
  exists A, x01, [z 1; z 1], (z (-3)). split; [exact HA|]. intros svs srt HS HF. fold (freeze "a"). rewrite (ws_two env0 svs srt k A _ ct (Some x01) b0 (freeze "a") HM). cbv zeta.
  set (b := with_aset b0 (aset_step env0 (bd_A b0) (freeze "a"))) in *. destruct (set_x env0 b x01) as [c [[]|er]] eqn:HX; [|discriminate HT].
  assert (Has : assigned env0 (svs 0%nat) b x01 c).
  { split; [|exact HX]. destruct (created_own env0 (svs 0%nat) k A x01 _ _ ct b0 HA HM) as (bb & _ & HB). pose proof (Proofs_builder6.reach_step env0 (svs 0%nat) bb (BSetX x01) (proj1 HB)) as R1. cbn [builder_step] in R1. rewrite (proj2 HB) in R1.
    exact (Proofs_builder6.reach_step env0 (svs 0%nat) b0 (BAset (freeze "a")) R1). }
  destruct (general_fit env0 (svs 0%nat) b x01 c changes_second env0_ok HS HF Has HT) as (b1 & r & K1 & K2). destruct r as [r|]; [|discriminate K2].
  exists b, c, b1, r. split; [reflexivity|]. split; [exact HX|]. split; [exact K1|].
  unfold view, changes_second in K2. destruct (s_actions r) as [|a0 [|a1 [|]]] eqn:Ha; try discriminate K2. apply andb_true_iff in K2. destruct K2 as [_ K2]. qbool.
  exists a1. split; [reflexivity|]. intros ->. apply (Qclt_not_eq _ _ K2). reflexivity.
Qed.
(** A workspace with an object of each kind, whose action set has just been edited. *)
Definition three : list ws_op := [WBuilder PyMIP (coef_args [z 1; z 1] (- z 3)) CTotal None; WAuditor CPX (coef_args [z 1; z (-1)] (- z 3)); WFlipset PyMIP x01 (coef_args [z 1; z 1] (- z 3)); WAset (freeze "a")].
Lemma c123_case : exists A, aset_reachable env0 A /\ forall svs srt, let s := ws_run env0 svs srt {| ws_A := A; ws_things := [] |} three in
  exists b b' f, holds s 0 (TBuilder b) /\ holds s 1 (TAuditor b') /\ holds s 2 (TFlipset f) /\ f_builder f = None /\ exists e, nth_error (as_elems (ws_A s)) 0 = Some e /\ e_actionable e = false.
Proof.
  assert (HT : ok_and (sc_aset (sc2 PyMIP CTotal 0)) (fun A => let s := ws_run env0 (fun _ _ _ => SUnknown) (fun _ d => Ok d) {| ws_A := A; ws_things := [] |} three in
    match ws_things s with [TBuilder _; TAuditor _; TFlipset f] => match f_builder f with None => true | _ => false end | _ => false end && frozen (ws_A s) 0) = true) by (vm_compute; reflexivity).
  apply ok_and_true in HT. destruct HT as (A & HA & HT). apply sc_aset_reach in HA. change (sc_env (sc2 PyMIP CTotal 0)) with env0 in HA. exists A. split; [exact HA|]. intros svs srt. cbv zeta.
  assert (ES : ws_run env0 svs srt {| ws_A := A; ws_things := [] |} three = ws_run env0 (fun _ _ _ => SUnknown) (fun _ d => Ok d) {| ws_A := A; ws_things := [] |} three) by reflexivity.
  rewrite ES. revert HT. generalize (ws_run env0 (fun _ _ _ => SUnknown) (fun _ d => Ok d) {| ws_A := A; ws_things := [] |} three) as s. clear. intros s HT. cbv zeta in HT. apply andb_true_iff in HT. destruct HT as [H1 H2].
  unfold holds. destruct (ws_things s) as [|[b|?|?] [|[?|b'|?] [|[?|?|f] [|? ?]]]]; try discriminate H1. exists b, b', f. split; [reflexivity|]. split; [reflexivity|]. split; [reflexivity|]. split; [destruct (f_builder f); [discriminate H1|reflexivity]|].
  unfold frozen in H2. destruct (nth_error (as_elems (ws_A s)) 0) as [e|]; [|discriminate H2]. exists e. split; [reflexivity|]. now apply negb_true_iff in H2.
Qed.
