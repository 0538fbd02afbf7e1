(** Proofs for C133: percentiles in the sets themselves, counterexamples, a case. *)
From Verif Require Import Spec_units Spec_setup Proofs_props_element Proofs_props_actionset Proofs_actionset Proofs_bounds Proofs_element Proofs_pct Proofs_setup Proofs_concrete Proofs_scen Proofs_audit4 Proofs_flipset3 Proofs_units Proofs_units2 Proofs_units3.
#[local] Open Scope string_scope.
#[local] Open Scope list_scope.
#[local] Open Scope Qc_scope.

Lemma set_up_uninterp E X A : set_up E X A -> forall j e, nth_error (as_elems A) j = Some e -> e_interp e = None.
Proof.
  intros (names & y & custom & dflt & dst & A0 & edits & H0 & HE & ->). pose proof H0 as HM. apply mk_aset_spec in H0. destruct H0 as (_ & _ & En & _ & _ & HL & HC).
  assert (L0 : length (as_elems A0) = as_len A0) by (unfold as_len; congruence).
  pose proof (run_kso E A0 edits HE L0) as (_ & _ & K2). apply Forall2_nth in K2. destruct K2 as (K2 & K3). intros j e He.
  assert (Hl : (j < length (as_elems A0))%nat) by (rewrite K2; apply nth_error_Some; congruence).
  destruct (nth_error (as_elems A0) j) as [e0|] eqn:H0'; [|apply nth_error_None in H0'; lia]. destruct (nth_error names j) as [n|] eqn:Hn; [|apply nth_error_None in Hn; lia].
  apply (K3 _ _ _ H0' He). pose proof (mk_column_created _ _ _ _ _ _ (HC j n e0 Hn H0')) as [Q _]. now apply (created_inv E) in Q.
Qed.
Lemma set_percentiles E X cs A A' j c k e e' v p p' m m' : other_units E X cs A A' -> nth_error cs j = Some c -> nth_error (as_elems A) j = Some e -> nth_error (as_elems A') j = Some e' ->
  0 < k -> unit_density E c k (e_values e) -> mass E e m -> mass E e' m' -> 0 < m ->
  percentile E e v = Ok p -> percentile E e' (c * v) = Ok p' -> qabs (p - p') <= buffer / m + buffer / m'.
Proof.
  intros HU Hc He He' Hk HD Hm Hm' H0 Hp Hp'. pose proof (other_units_spec _ _ _ _ _ HU) as (-> & HO & HL & SU & _). pose proof (set_up_uninterp _ _ _ SU _ _ He) as Hi.
  assert (HL' : length cs = length (as_elems A)) by (pose proof HO as HO2; unfold oks in HO2; exact (Forall2_length _ _ _ HO2)).
  destruct (sc_nth cs (as_elems A) j e HL' He) as (c0 & Hc0 & He0). rewrite Hc in Hc0. injection Hc0 as <-. change (as_elems (sc_set cs A)) with (sc_elems cs (as_elems A)) in He'. rewrite He0 in He'. injection He' as <-.
  pose proof (oks_pos _ _ HO) as HP. rewrite Forall_forall in HP. assert (Pc : 0 < c) by (apply HP; eapply nth_error_In; exact Hc). exact (percentile_units E c k e v p p' m m' Pc Hk Hi HD Hm Hm' H0 Hp Hp').
Qed.

(** ** Refutation: whole numbers *)
Definition X133 : list (list Qc) := [[z 0]; [qfrac 1 2]; [z 1]; [qfrac 3 2]].
Definition t133 (A A' : action_set) : bool := none_on_side A [z 1] (- qfrac 3 2) 1 [z 0] && permittedb A' [z 0] [z 3] && on_sideb 1 (score [qfrac 1 2] (- qfrac 3 2) [z 3]).
Lemma types_refuted : exists A A', mk_action_set X133 ["a"] 1 [] default_bounds default_step_type = Ok A /\ mk_action_set (map (in_units [z 2]) X133) ["a"] 1 [] default_bounds default_step_type = Ok A' /\
  set_up env0 X133 A /\ set_up env0 (map (in_units [z 2]) X133) A' /\
  (forall a, permitted_action A [z 0] a -> ~ on_side 1 (score [z 1] (- qfrac 3 2) (vadd [z 0] a))) /\
  exists a, permitted_action A' (in_units [z 2] [z 0]) a /\ on_side 1 (score (per_unit [z 2] [z 1]) (- qfrac 3 2) (vadd (in_units [z 2] [z 0]) a)).
Proof.
  assert (HT : match mk_action_set X133 ["a"] 1 [] default_bounds default_step_type, mk_action_set (map (in_units [z 2]) X133) ["a"] 1 [] default_bounds default_step_type with Ok A, Ok A' => t133 A A' | _, _ => false end = true) by (vm_compute; reflexivity).
  destruct (mk_action_set X133 ["a"] 1 [] default_bounds default_step_type) as [A|] eqn:H1; [|discriminate HT]. destruct (mk_action_set (map (in_units [z 2]) X133) ["a"] 1 [] default_bounds default_step_type) as [A'|] eqn:H2; [|discriminate HT].
  apply andb_true_iff in HT. destruct HT as [HT T3]. apply andb_true_iff in HT. destruct HT as [T1 T2]. exists A, A'. split; [reflexivity|]. split; [reflexivity|].
  split; [exists ["a"], 1%Z, [], default_bounds, default_step_type, A, []; auto|]. split; [exists ["a"], 1%Z, [], default_bounds, default_step_type, A', []; auto|].
  split; [now apply none_on_side_ok|]. assert (E1 : in_units [z 2] [z 0] = [z 0]) by (apply listeqb_ok; vm_compute; reflexivity). assert (E2 : per_unit [z 2] [z 1] = [qfrac 1 2]) by (apply listeqb_ok; vm_compute; reflexivity). assert (E3 : vadd [z 0] [z 3] = [z 3]) by (apply listeqb_ok; vm_compute; reflexivity).
  exists [z 3]. rewrite E1, E2, E3. split; [now apply permittedb_ok|now apply on_sideb_iff].
Qed.

(** ** Refutation: costs.  Density estimates as a uniform distribution over the range of the data, which rescales exactly. *)
Definition uniform (vs : list Qc) : option (Qc -> Qc) := match vs with [] => None | v :: _ => if last vs v - v <=? 0 then None else Some (fun _ => / (last vs v - v)) end.
Definition env_u : env :=
  {| kde := fun vs => uniform (qsort vs); nplog := fun q => q - 1; set_order := fun l => l |}.
Lemma env_u_ok : ok_env env_u.
Proof. intro l. apply Permutation_refl. Qed.
Lemma env_u_density : density env_u.
Proof.
  intros vs pdf v H. change (uniform (qsort vs) = Some pdf) in H. destruct (qsort vs) as [|u l]; [discriminate H|]. unfold uniform in H. set (r := last (u :: l) u - u) in *. destruct (r <=? 0) eqn:Q; [discriminate H|]. injection H as <-. qbool.
  apply Qclt_le_weak. apply Qcnot_le_lt. intro K. assert (Nr : r <> 0) by (intro Z0; rewrite Z0 in Q; discriminate Q).
  assert (G : / r * r <= 0) by (replace 0 with (0 * r) by ring; apply Qcmult_le_compat_r; [exact K|now apply Qclt_le_weak]). rewrite (Qcmult_comm (/ r)), Qcmult_inv_r in G by exact Nr. apply G. reflexivity.
Qed.
Lemma env_u_units c vs : 0 < c -> unit_density env_u c (/ c) vs.
Proof.
  intros Hc f H. change (uniform (qsort vs) = Some f) in H. change (exists f', uniform (qsort (map (Qcmult c) vs)) = Some f' /\ forall v, f' (c * v) = / c * f v). rewrite (qsort_mul c Hc).
  destruct (qsort vs) as [|u l]; [discriminate H|]. unfold uniform in *. cbn [map]. change (c * u :: map (Qcmult c) l) with (map (Qcmult c) (u :: l)). rewrite last_mul. set (r := last (u :: l) u - u) in *.
  assert (ER : c * last (u :: l) u - c * u = c * r) by (unfold r; ring). rewrite ER. assert (Q0 : (c * r <=? 0) = (r <=? 0)) by (rewrite <- (mul_qle c Hc r 0); f_equal; ring). rewrite Q0. clear Q0.
  destruct (r <=? 0) eqn:Q; [discriminate H|]. injection H as <-. eexists. split; [reflexivity|]. intro v0. cbv beta. qbool.
  field. split; [intro Z0; rewrite Z0 in Q; discriminate Q|now apply cne].
Qed.
Definition X133b : list (list Qc) := [[z 0; z 0]; [qfrac 1 2; qfrac 1 2]; [z 1; z 1]; [qfrac 3 2; qfrac 3 2]; [z 2; z 2]].
Definition ops133 : list aset_op := [OSetAttr "step_size" (PFloat (Fin (qfrac 1 2))); OUpdateGrid 0; OUpdateGrid 1].
Definition x133 : list Qc := [z 1; qfrac 1 50].
Definition sc133 (cs : list Qc) := mk env_u (map (in_units cs) X133b) ["a"; "b"] 1 ops133 PyMIP (per_unit cs [z 2; z 1]) (- qfrac 395 100) CMax (in_units cs x133).

Lemma sc_parts c b b0 : sc_run c = Ok (b, b0) -> exists A0, mk_action_set (sc_X c) (Proofs_concrete.sc_names c) (sc_y c) [] default_bounds default_step_type = Ok A0 /\
  mk_builder (sc_env c) (sc_kind c) (aset_run (sc_env c) A0 (sc_ops c)) (coef_args (sc_w c) (sc_t c)) (sc_cost c) None = Ok b.
Proof.
  #[local] Transparent sc_run sc_builder sc_aset. unfold sc_run, sc_builder, sc_aset. intro H. bnd H as b1 H1. destruct (set_x (sc_env c) b1 (sc_x c)) as [b2 r]. bnd H as u Hu. injection H as <- _.
  bnd H1 as A H2. bnd H2 as A0 H3. injection H2 as <-. exists A0. auto.
Qed.
#[global] Opaque sc_run sc_builder sc_aset.
Lemma ops133_free : Forall unit_free ops133.
Proof. apply Forall_forall. intros o [<-|[<-|[<-|[]]]]; cbn; tauto. Qed.
Lemma int_dec v : {is_int v} + {~ is_int v}.
Proof. destruct (is_integer v) eqn:Q; [left; now apply is_integer_iff|right; intro K; apply is_integer_iff in K; congruence]. Qed.
Definition cs1 : list Qc := [z 1; z 1].
Definition csM : list Qc := [z 1; qfrac 30000001 3].
Definition csT : list Qc := [z 1; qfrac 3000000000001 3].
Definition colsb (cs : list Qc) : bool := Nat.eqb (length cs) 2 && forallb (fun j => match nth_error cs j with Some c => (0 <? c) && negb (forallb is_integer (column X133b j)) && negb (forallb is_integer (map (Qcmult c) (column X133b j))) | None => false end) [0%nat; 1%nat].
Lemma not_all_int l : forallb is_integer l = false -> exists v, In v l /\ ~ is_int v.
Proof.
  intro Q. induction l as [|a l IH]; [discriminate Q|]. cbn in Q. destruct (is_integer a) eqn:Ia.
  - destruct IH as (v & Hv & Hn); [exact Q|]. exists v. split; [now right|exact Hn].
  - exists a. split; [now left|]. intro K. apply is_integer_iff in K. congruence.
Qed.
Lemma colsb_ok cs : colsb cs = true -> unit_change X133b ["a"; "b"] cs.
Proof.
  unfold colsb. intro H. apply andb_true_iff in H. destruct H as [H1 H2]. apply Nat.eqb_eq in H1. split; [exact H1|]. rewrite forallb_forall in H2. intros j c Hc.
  assert (Hj : (j < 2)%nat) by (rewrite <- H1; apply nth_error_Some; congruence). assert (Hi : In j [0%nat; 1%nat]) by (destruct j as [|[|j]]; [now left|right; now left|lia]).
  specialize (H2 j Hi). rewrite Hc in H2. apply andb_true_iff in H2. destruct H2 as [H2 H4]. apply andb_true_iff in H2. destruct H2 as [H2 H3]. apply negb_true_iff in H3, H4. split; [now qbool|]. intros _. split; [now apply not_all_int|].
  apply not_all_int in H4. destruct H4 as (v & Hv & Hn). apply in_map_iff in Hv. destruct Hv as (u & <- & Hu). eauto.
Qed.
Lemma default_pct : by_percentile default_bounds.
Proof. unfold by_percentile, default_bounds. do 3 eexists. split; [eauto|auto]. Qed.
Lemma sc133_units cs A A' A0 A0' : colsb cs = true -> mk_action_set X133b ["a"; "b"] 1 [] default_bounds default_step_type = Ok A0 -> A = aset_run env_u A0 ops133 ->
  mk_action_set (map (in_units cs) X133b) ["a"; "b"] 1 [] default_bounds default_step_type = Ok A0' -> A' = aset_run env_u A0' ops133 -> other_units env_u X133b cs A A'.
Proof.
  intros H H1 H2 H3 H4. exists ["a"; "b"], 1%Z, [], default_bounds, A0, A0', ops133. split; [now apply colsb_ok|]. split; [exact default_pct|]. split; [discriminate|]. split; [exact ops133_free|]. auto.
Qed.
Lemma lists_eqb l : forall m, forallb2 listeqb l m = true -> l = m.
Proof.
  induction l as [|a l IH]; intros [|b m] H; try discriminate H; [reflexivity|]. cbn in H. apply andb_true_iff in H. destruct H as [H1 H2]. f_equal; [now apply listeqb_ok|now apply IH].
Qed.
Lemma X133b_one : map (in_units cs1) X133b = X133b.
Proof. apply lists_eqb. vm_compute. reflexivity. Qed.
Lemma w_one : per_unit cs1 [z 2; z 1] = [z 2; z 1]. Proof. apply listeqb_ok; vm_compute; reflexivity. Qed.
Lemma x_one : in_units cs1 x133 = x133. Proof. apply listeqb_ok; vm_compute; reflexivity. Qed.
Definition acts (a : list Qc) (r : option (list Qc * list Qc * Qc)) : bool := match r with Some (a', _, _) => listeqb a' a | None => false end.
(** In the old units the first feature is changed, in the new ones the second. *)
Lemma costs_refuted : exists A A' b b0 b' b0', other_units env_u X133b csM A A' /\
  mk_builder env_u PyMIP A (coef_args [z 2; z 1] (- qfrac 395 100)) CMax None = Ok b /\ (forall sv, assigned env_u sv b x133 b0) /\
  mk_builder env_u PyMIP A' (coef_args (per_unit csM [z 2; z 1]) (- qfrac 395 100)) CMax None = Ok b' /\ (forall sv, assigned env_u sv b' (in_units csM x133) b0') /\
  forall sv, sound_solver sv -> finishing_solver sv ->
    (exists b1 s, fit sv b0 = Ok (b1, Some s) /\ s_actions s = [qfrac 98 100; z 0]) /\
    (exists b1' s', fit sv b0' = Ok (b1', Some s') /\ s_actions s' = in_units csM [z 0; qfrac 196 100]).
Proof.
  assert (H1 : sc_check (sc133 cs1) (fun b b0 => fit_test b0 (acts [qfrac 98 100; z 0])) = true) by (vm_compute; reflexivity).
  assert (H2 : sc_check (sc133 csM) (fun b b0 => fit_test b0 (acts (in_units csM [z 0; qfrac 196 100]))) = true) by (vm_compute; reflexivity).
  apply sc_check_ok in H1. destruct H1 as (b & b0 & R1 & T1). apply sc_check_ok in H2. destruct H2 as (b' & b0' & R2 & T2).
  destruct (sc_parts _ _ _ R1) as (A0 & P1 & P2). destruct (sc_parts _ _ _ R2) as (A0' & P1' & P2').
  pose proof (sc_assigned _ _ _ R1) as S1. pose proof (sc_assigned _ _ _ R2) as S2.
  cbn [sc133 mk sc_X Proofs_concrete.sc_names sc_y sc_env sc_kind sc_ops sc_w sc_t sc_cost sc_x] in *. rewrite X133b_one in P1. rewrite w_one in P2. rewrite x_one in S1.
  exists (aset_run env_u A0 ops133), (aset_run env_u A0' ops133), b, b0, b', b0'. split; [eapply sc133_units; eauto; vm_compute; reflexivity|]. split; [exact P2|]. split; [exact S1|]. split; [exact P2'|]. split; [exact S2|].
  intros sv HS HF. split.
  - destruct (sc_fit _ _ _ _ R1 env_u_ok T1 sv HS HF) as (b1 & [s|] & Hf & Ht); [|discriminate Ht]. exists b1, s. split; [exact Hf|]. now apply listeqb_ok.
  - destruct (sc_fit _ _ _ _ R2 env_u_ok T2 sv HS HF) as (b1 & [s|] & Hf & Ht); [|discriminate Ht]. exists b1, s. split; [exact Hf|]. now apply listeqb_ok.
Qed.
(** In much smaller units the weight of the second feature counts as zero: assigning the same individual raises. *)
Lemma weights_refuted : exists A A' b b0 b' b1', other_units env_u X133b csT A A' /\
  mk_builder env_u PyMIP A (coef_args [z 2; z 1] (- qfrac 395 100)) CMax None = Ok b /\ (forall sv, assigned env_u sv b x133 b0) /\
  (forall sv, sound_solver sv -> finishing_solver sv -> exists b1 s, fit sv b0 = Ok (b1, Some s)) /\
  mk_builder env_u PyMIP A' (coef_args (per_unit csT [z 2; z 1]) (- qfrac 395 100)) CMax None = Ok b' /\ set_x env_u b' (in_units csT x133) = (b1', Err AssertionError).
Proof.
  #[local] Transparent sc_run sc_builder sc_aset.
  assert (H1 : sc_check (sc133 cs1) (fun b b0 => fit_test b0 (acts [qfrac 98 100; z 0])) = true) by (vm_compute; reflexivity).
  assert (H2 : match mk_action_set (map (in_units csT) X133b) ["a"; "b"] 1 [] default_bounds default_step_type with Ok A0 => match mk_builder env_u PyMIP (aset_run env_u A0 ops133) (coef_args (per_unit csT [z 2; z 1]) (- qfrac 395 100)) CMax None with Ok b' => match snd (set_x env_u b' (in_units csT x133)) with Err AssertionError => true | _ => false end | _ => false end | _ => false end = true) by (vm_compute; reflexivity).
  apply sc_check_ok in H1. destruct H1 as (b & b0 & R1 & T1). destruct (sc_parts _ _ _ R1) as (A0 & P1 & P2). pose proof (sc_assigned _ _ _ R1) as S1.
  cbn [sc133 mk sc_X Proofs_concrete.sc_names sc_y sc_env sc_kind sc_ops sc_w sc_t sc_cost sc_x] in *. rewrite X133b_one in P1. rewrite w_one in P2. rewrite x_one in S1.
  destruct (mk_action_set (map (in_units csT) X133b) ["a"; "b"] 1 [] default_bounds default_step_type) as [A0'|] eqn:P1'; [|discriminate H2]. destruct (mk_builder env_u PyMIP (aset_run env_u A0' ops133) (coef_args (per_unit csT [z 2; z 1]) (- qfrac 395 100)) CMax None) as [b'|] eqn:P2'; [|discriminate H2].
  destruct (set_x env_u b' (in_units csT x133)) as [b1' r] eqn:S2. cbn [snd] in H2. exists (aset_run env_u A0 ops133), (aset_run env_u A0' ops133), b, b0, b', b1'. split; [eapply sc133_units; eauto; vm_compute; reflexivity|]. split; [exact P2|]. split; [exact S1|]. split; [|split; [exact P2'|]].
  - intros sv HS HF. destruct (sc_fit _ _ _ _ R1 env_u_ok T1 sv HS HF) as (b1 & [s|] & Hf & Ht); [eauto|discriminate Ht].
  - rewrite S2. destruct r as [u|[]]; try discriminate H2. reflexivity.
Qed.
#[global] Opaque sc_run sc_builder sc_aset.
(** ** A case *)
Lemma units_case : exists A A' b b' e, other_units env_u X133b csM A A' /\ auditor_created env_u PyMIP A [z 2; z 1] (- qfrac 395 100) b /\ auditor_created env_u PyMIP A' (per_unit csM [z 2; z 1]) (- qfrac 395 100) b' /\
  alignment_known A = false /\ denied (as_y A) (score [z 2; z 1] (- qfrac 395 100) x133) /\ like_rows X133b x133 /\ nth_error (as_elems A) 1 = Some e /\ (exists m, mass env_u e m /\ 0 < m) /\ e_grid e = [qfrac 1 50; z 1; qfrac 99 50].
Proof.
  assert (HT : match mk_action_set X133b ["a"; "b"] 1 [] default_bounds default_step_type, mk_action_set (map (in_units csM) X133b) ["a"; "b"] 1 [] default_bounds default_step_type with
    | Ok A0, Ok A0' => let A := aset_run env_u A0 ops133 in
        match mk_auditor env_u PyMIP A (coef_args [z 2; z 1] (- qfrac 395 100)), mk_auditor env_u PyMIP (aset_run env_u A0' ops133) (coef_args (per_unit csM [z 2; z 1]) (- qfrac 395 100)), nth_error (as_elems A) 1 with
        | Ok _, Ok _, Some e => negb (alignment_known A) && negb (on_sideb (as_y A) (score [z 2; z 1] (- qfrac 395 100) x133)) && listeqb (e_grid e) [qfrac 1 50; z 1; qfrac 99 50] &&
            match kde env_u (e_values e) with Some f => (0 <? qsum (map f (e_grid e))) | None => false end
        | _, _, _ => false end
    | _, _ => false end = true) by (vm_compute; reflexivity).
  destruct (mk_action_set X133b ["a"; "b"] 1 [] default_bounds default_step_type) as [A0|] eqn:P1; [|discriminate HT]. destruct (mk_action_set (map (in_units csM) X133b) ["a"; "b"] 1 [] default_bounds default_step_type) as [A0'|] eqn:P1'; [|discriminate HT]. cbv zeta in HT.
  destruct (mk_auditor env_u PyMIP (aset_run env_u A0 ops133) (coef_args [z 2; z 1] (- qfrac 395 100))) as [b|] eqn:P2; [|discriminate HT]. destruct (mk_auditor env_u PyMIP (aset_run env_u A0' ops133) (coef_args (per_unit csM [z 2; z 1]) (- qfrac 395 100))) as [b'|] eqn:P2'; [|discriminate HT].
  destruct (nth_error (as_elems (aset_run env_u A0 ops133)) 1) as [e|] eqn:He; [|discriminate HT]. destruct (kde env_u (e_values e)) as [f|] eqn:Hf; [|rewrite andb_false_r in HT; discriminate HT].
  apply andb_true_iff in HT. destruct HT as [HT T4]. apply andb_true_iff in HT. destruct HT as [HT T3]. apply andb_true_iff in HT. destruct HT as [T1 T2]. apply negb_true_iff in T1, T2.
  exists (aset_run env_u A0 ops133), (aset_run env_u A0' ops133), b, b', e. split; [eapply sc133_units; eauto; vm_compute; reflexivity|].
  split; [exists (coef_args [z 2; z 1] (- qfrac 395 100)); split; [apply coef_parse|exact P2]|]. split; [exists (coef_args (per_unit csM [z 2; z 1]) (- qfrac 395 100)); split; [apply coef_parse|exact P2']|].
  split; [exact T1|]. split; [now apply deniedb|]. split.
  - intros j xj Hx HI. exfalso. assert (Hj : (j < 2)%nat) by (change 2%nat with (length x133); apply nth_error_Some; congruence).
    assert (K : is_int (qfrac 1 2)) by (apply (HI [qfrac 1 2; qfrac 1 2]); [right; now left|destruct j as [|[|j]]; [reflexivity|reflexivity|lia]]). apply is_integer_iff in K. vm_compute in K. discriminate K.
  - split; [exact He|]. split; [|now apply listeqb_ok]. exists (qsum (map f (e_grid e))). split; [|now qbool]. exists f. split; [exact Hf|]. split; [|reflexivity]. intro v. exact (env_u_density _ _ v Hf).
Qed.
