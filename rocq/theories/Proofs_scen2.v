(** Counterexamples for the builder properties. *)
From Verif Require Import Proofs_props_element Proofs_props_actionset Spec_recourse Proofs_mip Proofs_info Proofs_vec Proofs_build Proofs_enum Proofs_session Proofs_recourse Proofs_subset Proofs_exchange Proofs_far Proofs_concrete Proofs_builder Proofs_builder2 Proofs_builder3 Proofs_builder4 Proofs_builder5 Proofs_scen.
#[local] Open Scope list_scope.
#[local] Open Scope Qc_scope.

(** What every sound solver that finishes returns. *)
Lemma forced c (pre : builder -> bool) (post : builder -> option (list Qc * list Qc * Qc) -> bool) : ok_env (sc_env c) ->
  sc_check c (fun b b0 => pre b && fit_test b0 (post b)) = true ->
  exists b b0, (forall sv, assigned (sc_env c) sv b (sc_x c) b0) /\ pre b = true /\
    forall sv, sound_solver sv -> finishing_solver sv -> exists b1 r, fit sv b0 = Ok (b1, r) /\ post b (view r) = true.
Proof.
  intros HE H. destruct (sc_check_ok _ _ H) as (b & b0 & HR & HT). apply andb_true_iff in HT. destruct HT as [H1 H2].
  exists b, b0. split; [exact (sc_assigned _ _ _ HR)|]. split; [exact H1|]. intros sv HS HF. exact (sc_fit _ _ _ _ HR HE H2 sv HS HF).
Qed.
(** The general situation the properties talk about. *)
Definition good_setupb (E : env) (b : builder) (x : list Qc) : bool :=
  unconstrainedb (bd_A b) && flipsb (bd_A b) (bd_w b) && currentb (bd_A b) && (bd_min b <=? 1)%Z && deniedb' b x.
Lemma good_setupb_ok E b x : good_setupb E b x = true -> plain_setup E b x.
Proof.
  unfold good_setupb, plain_setup, good_setup. intro H. repeat (apply andb_true_iff in H; destruct H as [H ?]). pose proof (unconstrainedb_ok _ H) as HU. split; [exact HU|]. split; [now apply unconstrained_orderly|]. split; [now apply flipsb_ok|].
  split; [now apply currentb_ok|]. split; [now apply Z.leb_le|]. now apply deniedb'_ok.
Qed.

(** C27: a current value that does not fit an integer grid makes its feature drop out. *)
Definition sc27 := mk env0 tab2 ["a"; "b"] 1 [] PyMIP [z 1; z 1] (- z 6) CTotal [qfrac 5 2; z 1].
Lemma c27_skip : exists b b0 x a, (forall sv, assigned env0 sv b x b0) /\ plain_setup env0 b x /\
  permitted_action (bd_A b) x a /\ (Z.of_nat (n_changed a) <= bd_max b)%Z /\ on_side (as_y (bd_A b)) (score (bd_w b) (bd_t b) (vadd x a)) /\
  forall sv, sound_solver sv -> finishing_solver sv -> exists b1, fit sv b0 = Ok (b1, None).
Proof.
  set (a := [qfrac 1 2; z 2]).
  destruct (forced sc27 (fun b => good_setupb env0 b (sc_x sc27) && permittedb (bd_A b) (sc_x sc27) a && (Z.of_nat (n_changed a) <=? bd_max b)%Z && on_sideb (as_y (bd_A b)) (score (bd_w b) (bd_t b) (vadd (sc_x sc27) a)))
    (fun _ r => match r with None => true | Some _ => false end) env0_ok) as (b & b0 & H1 & H2 & H3); [vm_compute; reflexivity|].
  do 3 (apply andb_true_iff in H2; destruct H2 as [H2 ?]).
  exists b, b0, (sc_x sc27), a. split; [exact H1|]. split; [eapply good_setupb_ok; eassumption|]. split; [now apply permittedb_ok|]. split; [now apply Z.leb_le|]. split; [now apply on_sideb_iff|].
  intros sv HS HF. destruct (H3 sv HS HF) as (b1 & [s|] & Hf & Ht); [discriminate Ht|eauto].
Qed.

(** C28: with a flat density estimate assigning the same individual fails. *)
Definition env_flat := {| kde := fun _ => Some (fun _ => 0); nplog := nplog env0; set_order := set_order env0 |}.
Lemma env_flat_ok : ok_env env_flat.
Proof. intro l. apply Permutation_refl. Qed.
Lemma env_flat_density : density env_flat.
Proof. intros values pdf v H. cbn in H. injection H as <-. apply Qcle_refl. Qed.
Lemma mk_builder_env E E' k A a ct : mk_builder E k A a ct None = mk_builder E' k A a ct None.
Proof. reflexivity. Qed.
Transparent sc_builder sc_aset.
Lemma sc_env_irrelevant E' c b sv : sc_ops c = [] -> sc_builder c = Ok b -> builder_reachable E' sv b.
Proof.
  unfold sc_builder, sc_aset. intros Ho H. rewrite Ho in H. bnd H as A HA. bnd HA as A0 H0. cbn in HA. injection HA as <-. exists b, []. split; [|reflexivity].
  exists (sc_kind c), A0, (sc_args (sc_w c) (sc_t c)), (sc_cost c), None. split; [|exact H]. exists A0, []. split; [|reflexivity].
  exists (sc_X c), (sc_names c), (sc_y c), [], default_bounds, default_step_type. exact H0.
Qed.
#[global] Opaque sc_builder sc_aset.
Definition sc28 := sc2 PyMIP CTotal (- z 3).
Lemma c28_flat : exists E1 E2 b b0 x, ok_env E1 /\ ok_env E2 /\ density E1 /\ density E2 /\ plain_setup E1 b x /\
  (forall sv, assigned E1 sv b x b0) /\ (forall sv, sound_solver sv -> finishing_solver sv -> exists b1 s, fit sv b0 = Ok (b1, Some s)) /\
  (forall sv, builder_reachable E2 sv b) /\ snd (set_x E2 b x) = Err ValueError.
Proof.
  destruct (sc_check_ok sc28 (fun b b0 => good_setupb env0 b (sc_x sc28) && match snd (set_x env_flat b (sc_x sc28)) with Err ValueError => true | _ => false end &&
    fit_test b0 (fun r => match r with None => false | Some _ => true end))) as (b & b0 & HR & H2); [vm_compute; reflexivity|].
  apply andb_true_iff in H2. destruct H2 as [H2 H3]. apply andb_true_iff in H2. destruct H2 as [H2 H4].
  exists env0, env_flat, b, b0, (sc_x sc28). split; [exact env0_ok|]. split; [exact env_flat_ok|]. split; [exact env0_density|]. split; [exact env_flat_density|].
  split; [eapply good_setupb_ok; eassumption|]. split; [exact (sc_assigned _ _ _ HR)|]. split.
  - intros sv HS HF. destruct (sc_fit _ _ _ _ HR env0_ok H3 sv HS HF) as (b1 & [s|] & Hf & Ht); [eauto|discriminate Ht].
  - split; [intro sv; eapply sc_env_irrelevant; [|eapply sc_run_builder, HR]; reflexivity|].
    destruct (snd (set_x env_flat b (sc_x sc28))) as [|[]]; try discriminate H4; reflexivity.
Qed.

(** C29: a current value above the grid has a smaller percentile than the top of the grid. *)
Definition sc29 := mk env0 tab2 ["a"; "b"] (-1) [] PyMIP [z 1; z 1] (- z 3) CTotal [z 5; z 0].
Lemma c29_outside : exists b b0 x a cs, (forall sv, assigned env0 sv b x b0) /\ plain_setup env0 b x /\ resolvable (bd_A b) x /\ bd_cost b = CTotal /\
  permitted_action (bd_A b) x a /\ (Z.of_nat (n_changed a) <= bd_max b)%Z /\ on_side (as_y (bd_A b)) (score (bd_w b) (bd_t b) (vadd x a)) /\
  action_costs env0 CTotal (bd_A b) x a cs /\
  forall sv, sound_solver sv -> finishing_solver sv -> exists b1 s, fit sv b0 = Ok (b1, Some s) /\ qsum cs < s_cost s.
Proof.
  set (a := [- z 2; z 0]). set (x := [z 5; z 0]).
  destruct (forced sc29 (fun b => good_setupb env0 b x && resolvableb (bd_A b) x && match bd_cost b with CTotal => true | _ => false end && permittedb (bd_A b) x a && (Z.of_nat (n_changed a) <=? bd_max b)%Z
      && on_sideb (as_y (bd_A b)) (score (bd_w b) (bd_t b) (vadd x a)) && costs_test env0 CTotal (bd_A b) x a (fun cs => qsum cs <? 0))
    (fun b r => match r with None => false | Some (_, _, c) => 0 <? c end) env0_ok) as (b & b0 & H1 & H2 & H3); [vm_compute; reflexivity|].
  do 6 (apply andb_true_iff in H2; destruct H2 as [H2 ?]). apply costs_test_ok in H. destruct H as (cs & Hcs & Q). apply qlt_iff in Q.
  exists b, b0, x, a, cs. split; [exact H1|]. split; [eapply good_setupb_ok; eassumption|]. split; [now apply resolvableb_ok|]. split; [destruct (bd_cost b); try discriminate; reflexivity|].
  split; [now apply permittedb_ok|]. split; [now apply Z.leb_le|]. split; [now apply on_sideb_iff|]. split; [exact Hcs|].
  intros sv HS HF. destruct (H3 sv HS HF) as (b1 & [s|] & Hf & Ht); [|discriminate Ht]. exists b1, s. split; [exact Hf|]. cbn in Ht. apply qlt_iff in Ht. qlra.
Qed.

(** C30: the tie-breaking term makes a larger maximum win. *)
Definition tab3 : list (list Qc) := [[z 0; z 0; z 0]; [z 1; z 1; z 0]; [z 0; z 0; z 1]; [z 1; z 0; z 0]].
Definition env_ab := {| kde := fun values => Some (fun v => if (qsum values =? z 2) && (v =? z 1) then qfrac 51 49 else 1); nplog := nplog env0; set_order := set_order env0 |}.
Lemma env_ab_ok : ok_env env_ab.
Proof. intro l. apply Permutation_refl. Qed.
Lemma env_ab_density : density env_ab.
Proof. intros values pdf v H. cbn in H. injection H as <-. destruct (_ && _); discriminate. Qed.
Definition sc30 := mk env_ab tab3 ["a"; "b"; "c"] 1 [] PyMIP [z 2; z 1; z 1] (- z 2) CMax [z 0; z 0; z 0].
Lemma c30_distorted : exists b b0 x a cs m, (forall sv, assigned env_ab sv b x b0) /\ plain_setup env_ab b x /\ regular env_ab (bd_A b) x /\ bd_cost b = CMax /\
  permitted_action (bd_A b) x a /\ (Z.of_nat (n_changed a) <= bd_max b)%Z /\ on_side (as_y (bd_A b)) (score (bd_w b) (bd_t b) (vadd x a)) /\
  action_costs env_ab CMax (bd_A b) x a cs /\ largest cs m /\
  forall sv, sound_solver sv -> finishing_solver sv -> exists b1 s, fit sv b0 = Ok (b1, Some s) /\ m < s_cost s.
Proof.
  set (a := [z 0; z 1; z 1]). set (x := [z 0; z 0; z 0]). set (m := qfrac 500000 1000001).
  destruct (forced sc30 (fun b => good_setupb env_ab b x && strictb env_ab (bd_A b) x && resolvableb (bd_A b) x && match bd_cost b with CMax => true | _ => false end && permittedb (bd_A b) x a && (Z.of_nat (n_changed a) <=? bd_max b)%Z
      && on_sideb (as_y (bd_A b)) (score (bd_w b) (bd_t b) (vadd x a)) && costs_test env_ab CMax (bd_A b) x a (fun cs => listeqb cs [0; m; m]))
    (fun b r => match r with None => false | Some (_, _, c) => m <? c end) env_ab_ok) as (b & b0 & H1 & H2 & H3); [vm_compute; reflexivity|].
  do 7 (apply andb_true_iff in H2; destruct H2 as [H2 ?]). apply costs_test_ok in H. destruct H as (cs & Hcs & Q). apply listeqb_ok in Q.
  exists b, b0, x, a, cs, m. split; [exact H1|]. split; [eapply good_setupb_ok; eassumption|]. split; [split; [now apply strictb_ok|now apply resolvableb_ok]|]. split; [destruct (bd_cost b); try discriminate; reflexivity|].
  split; [now apply permittedb_ok|]. split; [now apply Z.leb_le|]. split; [now apply on_sideb_iff|]. split; [exact Hcs|]. split.
  - subst cs. split; [right; now left|]. assert (0 <= m) by (apply qle_iff; vm_compute; reflexivity). intros c [<-|[<-|[<-|[]]]]; [assumption|apply Qcle_refl|apply Qcle_refl].
  - intros sv HS HF. destruct (H3 sv HS HF) as (b1 & [s|] & Hf & Ht); [|discriminate Ht]. exists b1, s. split; [exact Hf|]. cbn in Ht. now apply qlt_iff in Ht.
Qed.

(** C32: limits (1, 2) leave a program in which exactly one feature must change. *)
Lemma fit_result sv b b' : bd_mip b' = bd_mip b -> bd_kind b' = bd_kind b -> bd_w b' = bd_w b -> bd_cost b' = bd_cost b -> bd_calls b' = bd_calls b ->
  forall b1 r, fit sv b = Ok (b1, r) -> exists b1', fit sv b' = Ok (b1', r).
Proof.
  intros H1 H2 H3 H4 H5 b1 r H. unfold fit, solve_mip in *. rewrite H1. destruct (bd_mip b) as [ms|]; [|discriminate H]. cbn in *. injection H as _ <-. rewrite H2, H3, H4, H5. eauto.
Qed.
Definition sc32 := mk env0 tab3 ["a"; "b"; "c"] 1 [] PyMIP [z 1; z 1; z 1] (- z 2) CTotal [z 0; z 0; z 0].
Definition improvingb (e : element) (xj v : Qc) : bool :=
  match e_flip e with Some f => (if (0 <? f)%Z then xj <=? v else true) && (if (f <? 0)%Z then v <=? xj else true) | None => true end.
Lemma improvingb_ok e xj v : improvingb e xj v = true -> improving e xj v.
Proof.
  unfold improvingb, improving. destruct (e_flip e) as [f|]; [|auto]. intro H. apply andb_true_iff in H. destruct H as [H1 H2]. split; intro L.
  - rewrite (proj2 (Z.ltb_lt _ _) L) in H1. now qbool.
  - rewrite (proj2 (Z.ltb_lt _ _) L) in H2. now qbool.
Qed.
Definition offeredb (A : action_set) (x : list Qc) : bool :=
  fitsb A x && forall_at (as_elems A) x (fun e xj => match compatible e with Some true => true | _ => false end && existsb (fun v => improvingb e xj v && negb (v =? xj)) (targets e xj)).
Lemma offeredb_ok A x : offeredb A x = true -> all_offered A x.
Proof.
  unfold offeredb. intros H j e xj He Hx. apply andb_true_iff in H. destruct H as [H1 H2]. pose proof (forall_at_ok _ _ _ _ _ _ H2 He Hx) as G. cbn beta in G.
  apply andb_true_iff in G. destruct G as [G1 G2]. split; [destruct (compatible e) as [[]|]; try discriminate G1; reflexivity|]. split; [exact (fitsb_ok _ _ H1 j e xj He Hx)|].
  apply existsb_exists in G2. destruct G2 as (v & Hv & G2). apply andb_true_iff in G2. destruct G2 as [G2 G3]. exists v. split; [now apply targets_permitted|]. split; [now apply improvingb_ok|].
  apply negb_true_iff in G3. now apply qeq_false in G3.
Qed.
Definition sizeb (lo hi : Z) (a : list Qc) : bool := (Z.max lo 1 <=? Z.of_nat (n_changed a))%Z && (Z.of_nat (n_changed a) <=? hi)%Z.
Lemma sizeb_ok lo hi a : sizeb lo hi a = true -> size_between lo hi a.
Proof. unfold sizeb, size_between. intro H. apply andb_true_iff in H. destruct H as [H1 H2]. split; now apply Z.leb_le. Qed.
Lemma set_x_calls E b x : bd_calls (fst (set_x E b x)) = bd_calls b.
Proof. unfold set_x. destruct (Nat.eqb _ _); [|reflexivity]. destruct (build _ _ _ _ _ _ _ _ _); reflexivity. Qed.
Lemma c32_slip : exists b b0 x a, (forall sv, assigned env0 sv b x b0) /\ plain_setup env0 b x /\ all_offered (bd_A b) x /\
  permitted_action (bd_A b) x a /\ size_between 1 2 a /\ on_side (as_y (bd_A b)) (score (bd_w b) (bd_t b) (vadd x a)) /\
  let '(b1, r) := set_mip_item_limits b0 (Some 1%Z) (Some 2%Z) in
  r = Ok tt /\ bd_min b1 = 1%Z /\ bd_max b1 = 2%Z /\
  forall sv, sound_solver sv -> finishing_solver sv -> exists b2, fit sv b1 = Ok (b2, None).
Proof.
  set (a := [z 1; z 1; z 0]). set (x := [z 0; z 0; z 0]).
  destruct (sc_check_ok sc32 (fun b b0 => good_setupb env0 b x && offeredb (bd_A b) x && permittedb (bd_A b) x a && sizeb 1 2 a && on_sideb (as_y (bd_A b)) (score (bd_w b) (bd_t b) (vadd x a)) &&
     (bd_min b =? 0)%Z && (bd_max b =? 3)%Z && (Nat.eqb (length (bd_actionable b)) 3) && (Nat.eqb (as_len (bd_A b)) 3) &&
     fit_test (fst (set_x env0 (with_limits b 1 1) x)) (fun r => match r with None => true | Some _ => false end))) as (b & b0 & HR & H); [vm_compute; reflexivity|].
  do 9 (apply andb_true_iff in H; destruct H as [H ?]).
  pose proof (sc_assigned _ _ _ HR) as HA. exists b, b0, x, a. split; [exact HA|]. split; [eapply good_setupb_ok; eassumption|]. pose proof (offeredb_ok _ _ H8) as HO. split; [exact HO|].
  split; [now apply permittedb_ok|]. split; [now apply sizeb_ok|]. split; [now apply on_sideb_iff|].
  apply Z.eqb_eq in H4, H3. apply Nat.eqb_eq in H2, H1.
  assert (HN : n_actionable b = 3%Z) by (unfold n_actionable; now rewrite H2).
  pose proof (c32_both env0 (fun _ _ => SUnknown) b x b0 1 2 env0_ok (HA _) ltac:(lia) ltac:(lia) ltac:(lia)) as K.
  pose proof (ss_limits b0 (Some 1%Z) (Some 2%Z)) as SS.
  assert (HC : bd_calls (fst (set_mip_item_limits b0 (Some 1%Z) (Some 2%Z))) = bd_calls b0).
  { clear. unfold set_mip_item_limits, set_mip_rhs, set_min_items, set_max_items. rewrite (proj2 (Z.leb_le 1 2)) by lia. rewrite (proj2 (Z.leb_le 0 1)) by lia. rewrite (proj2 (Z.leb_le 0 2)) by lia.
    destruct (1 =? bd_min b0)%Z; [|destruct (bd_mip b0) eqn:Em]; cbn [fst bd_max with_limits with_mip bd_mip]; try reflexivity; destruct (2 =? bd_max b0)%Z; reflexivity. }
  destruct (set_mip_item_limits b0 (Some 1%Z) (Some 2%Z)) as [b1 r]. destruct K as (K1 & K2 & K3 & K4 & K5).
  { intros ms Hms. rewrite H2, <- H1. exact (infos_all env0 (fun _ _ => SUnknown) b x b0 env0_ok (HA _) HO ms Hms). }
  split; [exact K1|]. split; [exact K2|]. split; [rewrite K3, HN; reflexivity|]. intros sv HS HF. cbn [fst] in *.
  set (b' := with_limits b 1 1) in *.
  assert (HRe : builder_reachable env0 sv b').
  { destruct (HA sv) as [(bb & ops & C1 & C2) _]. change (sc_env sc32) with env0 in *. exists bb, (ops ++ [BMax (Some 1%Z); BMin (Some 1%Z)]). split; [exact C1|]. unfold builder_run in *. rewrite fold_left_app, <- C2. cbn [fold_left builder_step].
    unfold set_max_items. cbn [Z.leb]. rewrite HN. cbn. reflexivity. }
  destruct (set_x env0 b' x) as [b0' r'] eqn:EX. cbn [fst snd] in *. assert (HA' : assigned env0 sv b' x b0') by (split; [exact HRe|congruence]).
  destruct (assigned_ready _ _ _ _ _ env0_ok HA') as (ms & R). destruct (fit_test_ok sv b0' ms _ _ HS HF (rd_good _ _ _ _ _ R) H0) as (c1 & [s|] & Hf & Ht); [discriminate Ht|].
  destruct (HA sv) as [_ HX]. 
  assert (C1 : bd_calls b0' = bd_calls b) by (pose proof (set_x_calls env0 b' x) as Q; rewrite EX in Q; exact Q).
  assert (C2 : bd_calls b0 = bd_calls b) by (pose proof (set_x_calls (sc_env sc32) b (sc_x sc32)) as Q; rewrite HX in Q; exact Q).
  destruct (rd_static _ _ _ _ _ R) as (S1 & S2 & _ & _ & S5 & _). destruct (ss_set_x (sc_env sc32) b (sc_x sc32)) as (T1 & T2 & _ & _ & T5 & _). rewrite HX in T1, T2, T5. destruct SS as (U1 & U2 & _ & _ & U5 & _). cbn [fst bd_kind bd_w bd_cost b' with_limits] in *.
  eapply (fit_result sv b0' b1); eauto; congruence.
Qed.

(** C34: with a feature that cannot act in front, the limit binds the wrong features. *)
Definition tab4 : list (list Qc) := [[z 0; z 0; z 0; z 0]; [z 1; z 1; z 0; z 1]; [z 0; z 0; z 1; z 0]; [z 1; z 0; z 0; z 0]].
Definition sc34 k := mk env0 tab4 ["a"; "b"; "c"; "d"] 1 [OIndexSet (IStr "a") "actionable" (PBool false); OAdd ["b"; "c"] (z 0) (z 1) (Some "one")] k
  [z 1; z 2; z 2; z 1] (- z 4) CTotal [z 0; z 0; z 0; z 0].
Definition conb (A : action_set) (id : string) (js : list nat) (lb ub : Z) : bool :=
  match dget id (r_cons (as_cons A)) with Some c => if list_eq_dec Nat.eq_dec (c_indices c) js then (c_lb c =? lb)%Z && (c_ub c =? ub)%Z else false | None => false end.
Lemma conb_ok A id js lb ub : conb A id js lb ub = true -> exists c, stored (as_cons A) id c /\ c_indices c = js /\ c_lb c = lb /\ c_ub c = ub.
Proof.
  unfold conb, stored. destruct (dget id (r_cons (as_cons A))) as [c|]; [|discriminate]. destruct (list_eq_dec Nat.eq_dec (c_indices c) js) as [E|]; [|discriminate].
  intro H. apply andb_true_iff in H. destruct H as [H1 H2]. apply Z.eqb_eq in H1, H2. exists c. auto.
Qed.
Lemma c34_mixup : exists b b0 x c, (forall sv, assigned env0 sv b x b0) /\ Forall (fun v => v = 0) x /\
  stored (as_cons (bd_A b)) "one" c /\ c_indices c = [1; 2]%nat /\ c_ub c = 1%Z /\
  forall sv, sound_solver sv -> finishing_solver sv -> exists b1 s, fit sv b0 = Ok (b1, Some s) /\ n_on (vadd x (s_actions s)) (c_indices c) = 2%nat.
Proof.
  set (x := [z 0; z 0; z 0; z 0]).
  destruct (forced (sc34 PyMIP) (fun b => conb (bd_A b) "one" [1; 2]%nat 0 1) (fun b r => match r with None => false | Some (a, _, _) => Nat.eqb (n_on (vadd x a) [1; 2]%nat) 2 end) env0_ok) as (b & b0 & H1 & H2 & H3); [vm_compute; reflexivity|].
  apply conb_ok in H2. destruct H2 as (c & C1 & C2 & C3 & C4). exists b, b0, x, c. split; [exact H1|]. split; [repeat constructor|]. split; [exact C1|]. split; [exact C2|]. split; [exact C4|].
  intros sv HS HF. destruct (H3 sv HS HF) as (b1 & [s|] & Hf & Ht); [|discriminate Ht]. exists b1, s. split; [exact Hf|]. rewrite C2. now apply Nat.eqb_eq in Ht.
Qed.

(** C35: nothing can be changed and the cost type is 'total': assigning x raises KeyError. *)
Definition sc35 ct := mk env0 tab2 ["a"; "b"] 1 [OSetAttr "actionable" (PBool false)] PyMIP [z 1; z 1] (- z 8) ct [z 3; z 3].
Definition stuckb (A : action_set) (x : list Qc) : bool := Nat.eqb (length x) (as_len A) && Nat.eqb (length (as_elems A)) (as_len A) && forall_at (as_elems A) x (fun e xj => forallb (qeq xj) (targets e xj)).
Lemma stuckb_ok A x : stuckb A x = true -> nothing_to_change A x.
Proof.
  unfold stuckb. intros H a [La Ha]. apply andb_true_iff in H. destruct H as [H H3]. apply andb_true_iff in H. destruct H as [H1 H2]. apply Nat.eqb_eq in H1, H2.
  unfold n_changed. destruct (filter _ a) as [|v l] eqn:Q; [reflexivity|]. exfalso.
  assert (Hin : In v (filter (fun v => negb (v =? 0)) a)) by (rewrite Q; now left). apply filter_In in Hin. destruct Hin as [Hin Hz]. apply In_nth_error in Hin. destruct Hin as (j & Hj).
  assert (Lj : (j < as_len A)%nat) by (rewrite <- La; apply nth_error_Some; congruence).
  destruct (nth_error (as_elems A) j) as [e|] eqn:Ee; [|apply nth_error_None in Ee; lia]. destruct (nth_error x j) as [xj|] eqn:Ex; [|apply nth_error_None in Ex; lia].
  pose proof (forall_at_ok _ _ _ _ _ _ H3 Ee Ex) as G. cbn beta in G. rewrite forallb_forall in G. specialize (G _ (targets_ok _ _ _ (Ha j e xj v Ee Ex Hj))). qbool.
  apply negb_true_iff in Hz. apply qeq_false in Hz. apply Hz. replace v with (xj + v - xj) by ring. rewrite <- G. ring.
Qed.
Lemma sc_builder_reachable c b sv : sc_builder c = Ok b -> builder_reachable (sc_env c) sv b.
Proof. intro H. exact (sc_reachable c sv b [] H). Qed.
Lemma c35_keyerror : exists b x, (forall sv, builder_reachable env0 sv b) /\ bd_cost b = CTotal /\ length x = as_len (bd_A b) /\ nothing_to_change (bd_A b) x /\
  unconstrained (bd_A b) /\ snd (set_x env0 b x) = Err KeyError.
Proof.
  assert (H : ok_and (sc_builder (sc35 CTotal)) (fun b => match bd_cost b with CTotal => true | _ => false end && Nat.eqb 2 (as_len (bd_A b)) && stuckb (bd_A b) [z 3; z 3] && unconstrainedb (bd_A b) &&
     match snd (set_x env0 b [z 3; z 3]) with Err KeyError => true | _ => false end) = true) by (vm_compute; reflexivity).
  apply ok_and_true in H. destruct H as (b & Hb & H). do 4 (apply andb_true_iff in H; destruct H as [H ?]). exists b, [z 3; z 3].
  split; [intro sv; exact (sc_builder_reachable _ _ sv Hb)|]. split; [destruct (bd_cost b); try discriminate H; reflexivity|]. split; [now apply Nat.eqb_eq in H3|]. split; [now apply stuckb_ok|]. split; [now apply unconstrainedb_ok|].
  destruct (snd (set_x env0 b [z 3; z 3])) as [|[]]; try discriminate H0; reflexivity.
Qed.

(** C37: forced outcomes of an enumeration of [n] items. *)
Fixpoint nonempty_below (n : nat) (et : enum_type) (k : backend) (ct : cost_type) (infos : list info) (l : list choice) : bool :=
  match n with
  | O => true
  | S n' => negb (match l with [] => true | _ => false end) && forallb (fun c => nonempty_below n' et k ct infos (filter (exclb et k infos c) l)) (cheapest ct infos l)
  end.
Definition pop_test (b : builder) (n : nat) (et : enum_type) (t : list (list Qc) -> bool) : bool :=
  match bd_mip b with
  | None => false
  | Some ms => nonempty_below n et (bd_kind b) (bd_cost b) (ms_infos ms) (accepted ms) &&
      forallb (fun tr => t (map (avec (length (bd_w b)) (ms_infos ms)) tr)) (traces n et (bd_kind b) (bd_cost b) (ms_infos ms) (accepted ms))
  end.
Lemma nonempty_trace et k ct infos n : forall m l tr, (m < n)%nat -> nonempty_below n et k ct infos l = true -> In tr (traces m et k ct infos l) ->
  fold_left (fun l c => filter (exclb et k infos c) l) tr l <> [].
Proof.
  induction n as [|n IH]; intros m l tr Hm HN Hin; [lia|]. cbn [nonempty_below] in HN. apply andb_true_iff in HN. destruct HN as [H1 H2]. destruct m as [|m].
  - destruct Hin as [<-|[]]. cbn. destruct l; [discriminate H1|discriminate].
  - cbn [traces] in Hin. apply in_flat_map in Hin. destruct Hin as (c & Hc & Hin). apply in_map_iff in Hin. destruct Hin as (tr' & <- & Ht). cbn [fold_left].
    rewrite forallb_forall in H2. apply (IH m _ tr'); [lia|now apply H2|exact Ht].
Qed.
Lemma pop_test_ok sv b ms P n et t fuel b' l : sound_solver sv -> finishing_solver sv -> good b ms P -> pop_test b n et t = true ->
  populate sv fuel (Some n) et b = Some (Ok (b', l)) -> length l = n /\ t (map s_actions l) = true.
Proof.
  intros HS HF G HT HP. unfold pop_test in HT. rewrite (gd_mip _ _ _ G) in HT. apply andb_true_iff in HT. destruct HT as [T1 T2].
  destruct (populate_good' _ _ _ _ _ _ _ _ _ HS G HP) as (chs & ms' & F2 & EN & _ & _ & _ & HB & HX).
  pose proof (Forall2_length _ _ _ F2) as LL. specialize (HB n eq_refl).
  destruct (enum_traces _ _ _ _ et HF _ _ _ (accepted_lists _ _ _ G) EN) as (tr & Htr & Hsame & HLi).
  assert (Hn : length l = n).
  { destruct (Nat.eq_dec (length l) n) as [E|N]; [exact E|]. exfalso. assert (Hlt : (length chs < n)%nat) by lia.
    pose proof (nonempty_trace _ _ _ _ n (length chs) _ tr Hlt T1 Htr) as NE. assert (Q : Some n <> Some (length l)) by congruence. specialize (HX HF Q).
    destruct (fold_left _ tr (accepted ms)) as [|c r]; [now apply NE|]. apply (HX c). apply (proj1 HLi). now left. }
  split; [exact Hn|]. rewrite LL, Hn in Htr. rewrite forallb_forall in T2. specialize (T2 tr Htr).
  replace (map s_actions l) with (map (avec (length (bd_w b)) (ms_infos ms)) tr); [exact T2|].
  clear -F2 Hsame. revert l F2. induction Hsame as [|c c' chs tr Hs Hsame IH]; intros l F2; inversion F2 as [|? s ? l' H1 H2]; subst; [reflexivity|]. cbn. f_equal; [|now apply IH].
  destruct H1 as [-> _]. symmetry. now apply avec_same.
Qed.
Definition same_featuresb (a a' : list Qc) : bool := Nat.eqb (length a) (length a') && forallb (fun p => Bool.eqb (fst p =? 0) (snd p =? 0)) (combine a a').
Lemma same_featuresb_ok a a' : same_featuresb a a' = true -> same_features a a'.
Proof.
  unfold same_featuresb. intro H. apply andb_true_iff in H. destruct H as [H1 H2]. apply Nat.eqb_eq in H1. revert a' H1 H2.
  induction a as [|u a IH]; intros [|v a'] H1 H2; try discriminate H1; [intro j; split; intros (aj & Hj & _); destruct j; discriminate Hj|].
  cbn [combine forallb fst snd] in H2. apply andb_true_iff in H2. destruct H2 as [H2 H3]. apply Bool.eqb_prop in H2. specialize (IH a' (f_equal pred H1) H3).
  intros [|j].
  - unfold changes. cbn. split; intros (aj & Hj & Hne); apply (f_equal (fun o => match o with Some q => q | None => 0 end)) in Hj; cbn in Hj; subst aj.
    + exists v. split; [reflexivity|]. apply qeq_false. rewrite <- H2. now apply qeq_false.
    + exists u. split; [reflexivity|]. apply qeq_false. rewrite H2. now apply qeq_false.
  - exact (IH j).
Qed.
Definition tab37 : list (list Qc) := [[z 0; z 0]; [z 1; z 1]; [z 2; z 0]].
Definition sc37 k := mk env0 tab37 ["a"; "b"] 1 [OAdd ["a"; "b"] (z 0) (z 2) (Some "one")] k [- z 2; z 1] (z 2) CTotal [z 2; z 0].
Lemma c37_repeat : exists b b0 x, (forall sv, assigned env0 sv b x b0) /\ bd_kind b = CPX /\
  forall sv fuel b1 l, sound_solver sv -> finishing_solver sv -> populate sv fuel (Some 2%nat) DistinctSubsets b0 = Some (Ok (b1, l)) ->
    exists s s', l = [s; s'] /\ same_features (s_actions s) (s_actions s').
Proof.
  destruct (sc_check_ok (sc37 CPX) (fun b b0 => match bd_kind b with CPX => true | _ => false end && pop_test b0 2 DistinctSubsets (fun l => match l with [a; a'] => same_featuresb a a' | _ => false end))) as (b & b0 & HR & H); [vm_compute; reflexivity|].
  apply andb_true_iff in H. destruct H as [H1 H2]. pose proof (sc_assigned _ _ _ HR) as HA. exists b, b0, [z 2; z 0]. split; [exact HA|]. split; [destruct (bd_kind b); [reflexivity|discriminate H1]|].
  intros sv fuel b1 l HS HF HP. destruct (assigned_ready _ _ _ _ _ env0_ok (HA sv)) as (ms & R). destruct (pop_test_ok sv b0 ms _ _ _ _ _ _ _ HS HF (rd_good _ _ _ _ _ R) H2 HP) as [HL HT].
  destruct l as [|s [|s' [|? ?]]]; try discriminate HL. exists s, s'. split; [reflexivity|]. cbn in HT. now apply same_featuresb_ok.
Qed.

(** C41: after a failed assignment fit answers for the previous individual. *)
Lemma c41_stale : exists b x x1 x2 b1 b2, (forall sv, builder_reachable env0 sv b) /\
  set_x env0 (fst (set_x env0 b x1)) x = (b1, Err AssertionError) /\ set_x env0 (fst (set_x env0 b x2)) x = (b2, Err AssertionError) /\
  bd_x b1 = Some x /\ bd_x b2 = Some x /\ same_problem b1 b2 /\
  forall sv, sound_solver sv -> finishing_solver sv -> exists c1 c2 s1 s2, fit sv b1 = Ok (c1, Some s1) /\ fit sv b2 = Ok (c2, Some s2) /\ s_actions s1 <> s_actions s2.
Proof.
  set (x := [qfrac 1 2; z 1]). set (x1 := [z 0; z 1]). set (x2 := [z 2; z 1]).
  assert (H : ok_and (sc_builder (sc2 PyMIP CTotal (- z 6))) (fun b =>
     match set_x env0 b x1, set_x env0 b x2 with
     | (b1, Ok tt), (b2, Ok tt) =>
        match set_x env0 b1 x, set_x env0 b2 x with
        | (c1, Err AssertionError), (c2, Err AssertionError) => fit_test b1 (fun r => match r with Some (a, _, _) => listeqb a [z 3; z 2] | None => false end) && fit_test b2 (fun r => match r with Some (a, _, _) => listeqb a [z 1; z 2] | None => false end)
        | _, _ => false end
     | _, _ => false end) = true) by (vm_compute; reflexivity).
  apply ok_and_true in H. destruct H as (b & Hb & H).
  destruct (set_x env0 b x1) as [b1 [[]|]] eqn:E1; [|discriminate H]. destruct (set_x env0 b x2) as [b2 [[]|]] eqn:E2; [|discriminate H].
  destruct (set_x env0 b1 x) as [c1 r1] eqn:F1. destruct (set_x env0 b2 x) as [c2 r2] eqn:F2.
  destruct r1 as [|[]]; try discriminate H. destruct r2 as [|[]]; try discriminate H. apply andb_true_iff in H. destruct H as [H1 H2].
  exists b, x, x1, x2, c1, c2. cbn [fst]. rewrite E1, E2. cbn [fst]. split; [intro sv; exact (sc_builder_reachable _ _ sv Hb)|]. split; [exact F1|]. split; [exact F2|].
  assert (K : forall c d, set_x env0 c x = (d, Err AssertionError) -> length x = length (bd_w c) -> d = with_x c (Some x)).
  { intros c d Q L. unfold set_x in Q. rewrite (proj2 (Nat.eqb_eq _ _) L) in Q. destruct (build _ _ _ _ _ _ _ _ _); apply pair_equal_spec in Q; destruct Q as [<- Q]; [discriminate Q|reflexivity]. }
  destruct (ss_set_x env0 b x1) as (S1 & S2 & S3 & S4 & S5 & S6). destruct (ss_set_x env0 b x2) as (T1 & T2 & T3 & T4 & T5 & T6). rewrite E1 in *. rewrite E2 in *. cbn [fst] in *.
  assert (L : forall c xx d, set_x env0 c xx = (d, Ok tt) -> length xx = length (bd_w c)).
  { intros c xx d Q. unfold set_x in Q. destruct (Nat.eqb_spec (length xx) (length (bd_w c))); [assumption|]. apply pair_equal_spec in Q. destruct Q as [_ Q]. discriminate Q. }
  pose proof (L _ _ _ E1) as L1. pose proof (L _ _ _ E2) as L2.
  assert (G1 : c1 = with_x b1 (Some x)) by (apply K; [exact F1|]; rewrite S2, <- L1; reflexivity). assert (G2 : c2 = with_x b2 (Some x)) by (apply K; [exact F2|]; rewrite T2, <- L2; reflexivity).
  assert (A1 : forall sv, assigned env0 sv b x1 b1) by (intro sv; split; [exact (sc_builder_reachable _ _ sv Hb)|exact E1]).
  assert (A2 : forall sv, assigned env0 sv b x2 b2) by (intro sv; split; [exact (sc_builder_reachable _ _ sv Hb)|exact E2]).
  destruct (assigned_ready _ _ _ _ _ env0_ok (A1 (fun _ _ => SUnknown))) as (m1 & R1). destruct (assigned_ready _ _ _ _ _ env0_ok (A2 (fun _ _ => SUnknown))) as (m2 & R2).
  split; [now rewrite G1|]. split; [now rewrite G2|]. split.
  { rewrite G1, G2. unfold same_problem. cbn [with_x bd_kind bd_w bd_t bd_A bd_cost bd_min bd_max]. rewrite (rd_min _ _ _ _ _ R1), (rd_min _ _ _ _ _ R2), (rd_max _ _ _ _ _ R1), (rd_max _ _ _ _ _ R2). repeat split; congruence. }
  intros sv HS HF. destruct (fit_test_ok sv b1 m1 _ _ HS HF (rd_good _ _ _ _ _ R1) H1) as (d1 & [s1|] & Q1 & T1'); [|discriminate T1'].
  destruct (fit_test_ok sv b2 m2 _ _ HS HF (rd_good _ _ _ _ _ R2) H2) as (d2 & [s2|] & Q2 & T2'); [|discriminate T2'].
  destruct (fit_result sv b1 c1) with (b1 := d1) (r := Some s1) as (e1 & Z1); try (rewrite G1; reflexivity); [exact Q1|].
  destruct (fit_result sv b2 c2) with (b1 := d2) (r := Some s2) as (e2 & Z2); try (rewrite G2; reflexivity); [exact Q2|].
  exists e1, e2, s1, s2. split; [exact Z1|]. split; [exact Z2|]. cbn in T1', T2'. apply listeqb_ok in T1', T2'. rewrite T1', T2'. intro Q.
  apply (f_equal (hd 0)) in Q. cbn [hd] in Q. assert (W : (z 3 =? z 1) = false) by (vm_compute; reflexivity). apply qeq_false in W. exact (W Q).
Qed.
