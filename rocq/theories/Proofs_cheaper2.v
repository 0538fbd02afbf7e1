(** Concrete scenarios for C129. *)
From Verif Require Import Spec_cheaper Proofs_props_element Proofs_props_actionset Proofs_actionset Proofs_registry Proofs_builder Proofs_builder3 Proofs_builder6 Proofs_builder8 Proofs_concrete Proofs_scen Proofs_scen2 Proofs_binding Proofs_session Proofs_assign3 Proofs_widen Proofs_pareto Proofs_cheaper.
#[local] Open Scope string_scope.
#[local] Open Scope list_scope.
#[local] Open Scope Qc_scope.

(** ** One edit, before and after *)
Definition two_test (E : env) (o : aset_op) (x : list Qc) (pre : builder -> builder -> bool) (t t' : option (list Qc * list Qc * Qc) -> bool) (b b0 : builder) : bool :=
  let b' := with_aset b (aset_step E (bd_A b) o) in
  match set_x E b' x with (b0', Ok _) => pre b b' && fit_test b0 t && fit_test b0' t' | _ => false end.
Lemma two_case c o pre t t' : ok_env (sc_env c) -> sc_check c (two_test (sc_env c) o (sc_x c) pre t t') = true ->
  exists b b' b0 b0', (forall sv, assigned (sc_env c) sv b (sc_x c) b0) /\ (forall sv, assigned (sc_env c) sv b' (sc_x c) b0') /\ bd_A b' = aset_step (sc_env c) (bd_A b) o /\ bd_w b' = bd_w b /\ bd_t b' = bd_t b /\ bd_cost b' = bd_cost b /\ bd_max b' = bd_max b /\ pre b b' = true /\
    forall sv, sound_solver sv -> finishing_solver sv -> (exists b1 r, fit sv b0 = Ok (b1, r) /\ t (view r) = true) /\ exists b1 r, fit sv b0' = Ok (b1, r) /\ t' (view r) = true.
Proof.
  intros HE H. apply sc_check_ok in H. destruct H as (b & b0 & HR & HT). unfold two_test in HT. cbv zeta in HT. set (b' := with_aset b _) in HT.
  destruct (set_x (sc_env c) b' (sc_x c)) as [b0' [[]|]] eqn:EX; [|discriminate HT]. do 2 (apply andb_true_iff in HT; destruct HT as [HT ?]).
  pose proof (sc_assigned _ _ _ HR) as HA. assert (HA' : forall sv, assigned (sc_env c) sv b' (sc_x c) b0') by (intro sv; split; [apply (Proofs_builder6.reach_step (sc_env c) sv b (BAset o)), HA|exact EX]).
  exists b, b', b0, b0'. split; [exact HA|]. split; [exact HA'|]. do 5 (split; [reflexivity|]). split; [exact HT|]. intros sv Hs Hf. split; eapply general_fit; eauto.
Qed.
Definition cost_is (m : Qc) (v : option (list Qc * list Qc * Qc)) : bool := match v with Some (_, _, c) => c =? m | None => false end.
Definition cost_in (lo hi : Qc) (v : option (list Qc * list Qc * Qc)) : bool := match v with Some (_, _, c) => (lo <? c) && (c <? hi) | None => false end.
(** Cost type 'max': making a feature actionable raises the cost. *)
Definition x000 : list Qc := [z 0; z 0; z 0].
Definition sc129 k := mk env_ab tab3 ["a"; "b"; "c"] 1 [OIndexSet (IStr "a") "actionable" (PBool false)] k [z 2; z 1; z 1] (- z 2) CMax x000.
Lemma dearer k : exists E b b' x b0 b0' o, ok_env E /\ density E /\ (forall sv, assigned E sv b x b0) /\ (forall sv, assigned E sv b' x b0') /\ bd_kind b = k /\ relaxing o /\ bd_A b' = aset_step E (bd_A b) o /\ bd_w b' = bd_w b /\ bd_t b' = bd_t b /\
  bd_cost b = CMax /\ bd_cost b' = CMax /\ bd_max b' = bd_max b /\ plain_setup E b x /\ regular E (bd_A b) x /\ plain_setup E b' x /\ regular E (bd_A b') x /\
  forall sv, sound_solver sv -> finishing_solver sv -> exists b1 s b1' s', fit sv b0 = Ok (b1, Some s) /\ fit sv b0' = Ok (b1', Some s') /\ s_cost s < s_cost s'.
Proof.
  set (m := qfrac 500000 1000001).
  destruct (two_case (sc129 k) op67 (fun b b' => good_setupb env_ab b x000 && strictb env_ab (bd_A b) x000 && resolvableb (bd_A b) x000 && good_setupb env_ab b' x000 && strictb env_ab (bd_A b') x000 && resolvableb (bd_A b') x000 && match bd_cost b with CMax => true | _ => false end && match bd_kind b, k with PyMIP, PyMIP | CPX, CPX => true | _, _ => false end)
     (cost_is m) (fun r => match r with Some (_, _, c) => m <? c | None => false end) env_ab_ok) as (b & b' & b0 & b0' & A1 & A2 & A3 & A4 & A5 & A6 & A7 & HP & HF); [destruct k; vm_compute; reflexivity|].
  do 7 (apply andb_true_iff in HP; destruct HP as [HP ?]). change (sc_env (sc129 k)) with env_ab in *. change (sc_x (sc129 k)) with x000 in *.
  assert (C : bd_cost b = CMax) by (destruct (bd_cost b); try discriminate; reflexivity).
  exists env_ab, b, b', x000, b0, b0', op67. split; [exact env_ab_ok|]. split; [exact env_ab_density|]. split; [exact A1|]. split; [exact A2|]. split; [destruct (bd_kind b), k; try discriminate; reflexivity|]. split; [left; auto|]. do 3 (split; [assumption|]). split; [exact C|]. split; [congruence|]. split; [exact A7|].
  split; [eapply good_setupb_ok; eassumption|]. split; [split; [now apply strictb_ok|now apply resolvableb_ok]|]. split; [eapply good_setupb_ok; eassumption|]. split; [split; [now apply strictb_ok|now apply resolvableb_ok]|].
  intros sv Hs Hf. destruct (HF sv Hs Hf) as ((b1 & [s|] & F1 & T1) & b1' & [s'|] & F2 & T2); try discriminate T1; try discriminate T2. exists b1, s, b1', s'. split; [exact F1|]. split; [exact F2|]. cbn in T1, T2. qbool. rewrite T1. exact T2.
Qed.
(** 'total' and 'local': the same edit makes the answer strictly cheaper. *)
Definition sc129c k ct := mk env0 tab2 ["a"; "b"] 1 [OIndexSet (IStr "a") "actionable" (PBool false)] k [z 2; z 1] (- z 3) ct [z 0; z 0].
Lemma cheaper_case k ct : ct <> CMax -> exists b b' x b0 b0' o, (forall sv, assigned env0 sv b x b0) /\ (forall sv, assigned env0 sv b' x b0') /\ bd_kind b = k /\ bd_cost b = ct /\ relaxing o /\ bd_A b' = aset_step env0 (bd_A b) o /\ bd_w b' = bd_w b /\ bd_t b' = bd_t b /\
  bd_cost b' = bd_cost b /\ bd_max b' = bd_max b /\ good_setup env0 b x /\ good_setup env0 b' x /\ regular env0 (bd_A b') x /\
  forall sv, sound_solver sv -> finishing_solver sv -> exists b1 s b1' s', fit sv b0 = Ok (b1, Some s) /\ fit sv b0' = Ok (b1', Some s') /\ s_cost s' < s_cost s.
Proof.
  intro NC.
  assert (W : exists m, sc_check (sc129c k ct) (two_test env0 op67 [z 0; z 0] (fun b b' => good_setupb env0 b [z 0; z 0] && good_setupb env0 b' [z 0; z 0] && strictb env0 (bd_A b') [z 0; z 0] && resolvableb (bd_A b') [z 0; z 0] && match bd_cost b, ct with CTotal, CTotal | CLocal, CLocal => true | _, _ => false end && match bd_kind b, k with PyMIP, PyMIP | CPX, CPX => true | _, _ => false end)
     (fun r => match r with Some (_, _, c) => m <? c | None => false end) (fun r => match r with Some (_, _, c) => c <? m | None => false end)) = true).
  { destruct ct; [| |now elim NC].
    - exists (qfrac 6 10). destruct k; vm_compute; reflexivity.
    - exists (z 2). destruct k; vm_compute; reflexivity. }
  destruct W as (m & W). destruct (two_case (sc129c k ct) op67 _ _ _ env0_ok W) as (b & b' & b0 & b0' & A1 & A2 & A3 & A4 & A5 & A6 & A7 & HP & HF).
  apply andb_true_iff in HP; destruct HP as [HP Q1]; apply andb_true_iff in HP; destruct HP as [HP Q2]; do 3 (apply andb_true_iff in HP; destruct HP as [HP ?]). change (sc_env (sc129c k ct)) with env0 in *. change (sc_x (sc129c k ct)) with [z 0; z 0] in *.
  exists b, b', [z 0; z 0], b0, b0', op67. split; [exact A1|]. split; [exact A2|]. split; [clear - Q1; destruct (bd_kind b), k; try discriminate Q1; reflexivity|]. split; [clear - Q2; destruct (bd_cost b), ct; try discriminate Q2; reflexivity|]. split; [left; auto|]. do 5 (split; [assumption|]).
  split; [eapply good_setupb_ok; eassumption|]. split; [eapply good_setupb_ok; eassumption|]. split; [split; [now apply strictb_ok|now apply resolvableb_ok]|].
  intros sv Hs Hf. destruct (HF sv Hs Hf) as ((b1 & [s|] & F1 & T1) & b1' & [s'|] & F2 & T2); try discriminate T1; try discriminate T2. exists b1, s, b1', s'. split; [exact F1|]. split; [exact F2|]. cbn in T1, T2. qbool. qlra.
Qed.
