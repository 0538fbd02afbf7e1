(** Concrete scenarios for C131, and auditing after the changes. *)
From Verif Require Import Spec_steps Proofs_props_element Proofs_props_actionset Proofs_actionset Proofs_registry Proofs_builder Proofs_builder3 Proofs_builder6 Proofs_builder7 Proofs_builder8 Proofs_concrete Proofs_scen Proofs_scen2 Proofs_binding Proofs_session Proofs_audit Proofs_audit2 Proofs_audit3 Proofs_audit4 Proofs_steps Proofs_flipset3 Proofs_lenient2 Proofs_cheaper2 Proofs_widen Proofs_pareto.
#[local] Open Scope string_scope.
#[local] Open Scope list_scope.
#[local] Open Scope Qc_scope.

Lemma after_acting {I} E sv sv' k A w t b ba x b0 l b1 s (X : list (I * list Qc)) y c out : ok_env E -> sound_solver sv -> assigned E sv b x b0 -> session sv b0 l b1 -> In s l ->
  bd_w b = w -> bd_t b = t -> (0 <? y)%Z = (0 <? as_y (bd_A b))%Z -> (0 < y)%Z \/ score w t (vadd x (s_actions s)) <> 0 ->
  auditor_reachable E sv' k A w t ba -> audit E sv' ba (table_of X) y = (c, Ok out) ->
  forall i r q, nth_error X i = Some r -> snd r = vadd x (s_actions s) -> nth_error out i = Some q -> snd q = None.
Proof.
  intros HE HS HA Hs Hin Ew Et HY HN HR H i r q Hr Er Hq. pose proof (c50 E sv' k A w t ba X y c out HR H) as T. apply Forall2_nth in T. destruct T as [_ T]. destruct (T i r q Hr Hq) as [_ T1]. apply T1. rewrite Er.
  pose proof (c26_thm E sv b x b0 l b1 s HE HS HA Hs Hin) as K. rewrite Ew, Et in K. unfold on_side in K. rewrite <- HY in K. unfold has_outcome. destruct (0 <? y)%Z eqn:EY; [exact K|].
  apply Z.ltb_ge in EY. destruct HN as [HN|HN]; [lia|]. apply Qcle_lteq in K || idtac. destruct (Qcle_lt_or_eq _ _ K) as [Q|Q]; [exact Q|now destruct (HN Q)].
Qed.

(** ** y_desired = -1: the advice may end on the decision boundary, which an audit takes for a rejection *)
Definition acts_are (a : list Qc) (v : option (list Qc * list Qc * Qc)) : bool := match v with Some (a', _, _) => listeqb a' a | None => false end.
Definition someb (v : option (list Qc * list Qc * Qc)) : bool := match v with Some _ => true | None => false end.
Definition sc131 k := mk env0 tab2 ["a"; "b"] (-1) [] k [z 1; z 1] (- z 4) CMax [z 3; z 3].
Definition x33 : list Qc := [z 3; z 3].
Definition x22 : list Qc := [z 2; z 2].
Definition am1 : list Qc := [- z 1; - z 1].
Lemma zero_general (E : env) k A w t b x y u a : ok_env E -> aset_reachable E A -> auditor_created E k A w t b -> y = (-1)%Z -> length u = length w -> vadd x a = u -> to_audit w t (-1) u = true ->
  x_test E b x (acts_are a) = true -> x_test E b u someb = true ->
  forall sv, sound_solver sv -> finishing_solver sv -> exists b0 b1 s b' c, assigned E sv b x b0 /\ fit sv b0 = Ok (b1, Some s) /\ vadd x (s_actions s) = u /\ audit E sv b (table_of [(0%nat, u)]) y = (b', Ok [(0%nat, Some (true, Fin c))]).
Proof.
  intros HE HA HC -> HL HV HZ T1 T2 sv HS HF. destruct (auditor_fresh _ _ _ _ _ _ HA HC) as (F & _). pose proof (fr_w _ _ _ _ _ _ _ F) as Ew. pose proof (fr_t _ _ _ _ _ _ _ F) as Et.
  pose proof (created_reach E sv k A w t b HA HC) as HR.
  destruct (x_test_ok E sv b x _ HE HS HF HR T1) as (b0 & b1 & r & Hx & Hf & Hr). destruct r as [s|]; [|discriminate Hr]. cbn in Hr. apply listeqb_ok in Hr.
  assert (N1 : [(0%nat, u)] <> []) by discriminate.
  assert (N2 : forall p, In p [(0%nat, u)] -> length (snd p) = length (bd_w b)) by (intros p [<-|[]]; rewrite Ew; exact HL).
  assert (N3 : label (-1)) by (right; now left).
  assert (N4 : exists i, todo_of b (-1) (map snd [(0%nat, u)]) = [(i, u)]).
  { exists 0%nat. unfold todo_of. rewrite Ew, Et. change (unique_rows (map snd [(0%nat, u)])) with [u]. cbn [length seq combine filter snd]. rewrite HZ. reflexivity. }
  destruct (audit_one E sv b _ _ u _ HE HS HF HR N1 N2 N3 N4 T2) as (b' & r' & g & Hr' & Ha & Hg). destruct r' as [s'|]; [|discriminate Hr'].
  exists b0, b1, s, b', (s_cost s'). split; [split; [exact HR|exact Hx]|]. split; [exact Hf|]. split; [rewrite Hr; exact HV|]. rewrite Ha. cbn [map fst snd]. rewrite Hg; [reflexivity|now left].
Qed.
Lemma exact_zero k : exists A w t b x, aset_reachable env0 A /\ auditor_created env0 k A w t b /\ as_y A = (-1)%Z /\ unconstrained A /\ fits_grids A x /\ current_percentiles A /\
  forall sv, sound_solver sv -> finishing_solver sv -> exists b0 b1 s b' c, assigned env0 sv b x b0 /\ fit sv b0 = Ok (b1, Some s) /\ audit env0 sv b (table_of [(0%nat, vadd x (s_actions s))]) (-1) = (b', Ok [(0%nat, Some (true, Fin c))]).
Proof.
  destruct (aud_case_ok (sc131 k) (fun A b => (as_y A =? -1)%Z && unconstrainedb A && fitsb A x33 && currentb A && x_test env0 b x33 (acts_are am1) && x_test env0 b x22 someb)) as (A & b & HA & HC & HT); [destruct k; vm_compute; reflexivity|].
  do 5 (apply andb_true_iff in HT; destruct HT as [HT ?]). change (sc_env (sc131 k)) with env0 in *. change (sc_kind (sc131 k)) with k in *.
  exists A, [z 1; z 1], (- z 4), b, x33. split; [exact HA|]. split; [exact HC|]. split; [now apply Z.eqb_eq|]. split; [now apply unconstrainedb_ok|]. split; [now apply fitsb_ok|]. split; [now apply currentb_ok|].
  intros sv HS HF. assert (V : vadd x33 am1 = x22) by (apply listeqb_ok; vm_compute; reflexivity). assert (Z0 : to_audit [z 1; z 1] (- z 4) (-1) x22 = true) by (vm_compute; reflexivity).
  destruct (zero_general env0 k A [z 1; z 1] (- z 4) b x33 (-1) x22 am1 env0_ok HA HC eq_refl eq_refl V Z0 H0 H sv HS HF) as (b0 & b1 & s & b' & c & P1 & P2 & P3 & P4).
  exists b0, b1, s, b', c. split; [exact P1|]. split; [exact P2|]. rewrite P3. exact P4.
Qed.

(** ** Half of an action carried out *)
Definition sc131c k ct := mk env0 tab2 ["a"; "b"] 1 [] k [z 1; z 1] (- z 6) ct [z 0; z 0].
Definition x00 : list Qc := [z 0; z 0].
Definition half : list Qc := [z 3; z 0].
Definition x30 : list Qc := [z 3; z 0].
Definition half_test (b b0 : builder) : bool :=
  match set_x env0 b x30 with (b0', Ok _) => good_setupb env0 b x30 && good_setupb env0 b x00 && strictb env0 (bd_A b) x30 && resolvableb (bd_A b) x30 && fit_test b0 (acts_are [z 3; z 3]) && fit_test b0' (acts_are [z 0; z 3]) | _ => false end.
Lemma half_case k ct : exists b b0 b0', (forall sv, assigned env0 sv b x00 b0) /\ (forall sv, assigned env0 sv b (vadd x00 half) b0') /\ bd_kind b = k /\ bd_cost b = ct /\
  orderly env0 (bd_A b) (bd_w b) x00 /\ good_setup env0 b (vadd x00 half) /\ regular env0 (bd_A b) (vadd x00 half) /\
  forall sv, sound_solver sv -> finishing_solver sv -> exists b1 s b1' s', fit sv b0 = Ok (b1, Some s) /\ part_of half (s_actions s) /\ s_actions s = [z 3; z 3] /\ fit sv b0' = Ok (b1', Some s') /\ s_actions s' = [z 0; z 3].
Proof.
  assert (H : sc_check (sc131c k ct) (fun b b0 => match bd_kind b, k with PyMIP, PyMIP | CPX, CPX => true | _, _ => false end && match bd_cost b, ct with CTotal, CTotal | CLocal, CLocal | CMax, CMax => true | _, _ => false end && half_test b b0) = true) by (destruct k, ct; vm_compute; reflexivity).
  apply sc_check_ok in H. destruct H as (b & b0 & HR & HT). apply andb_true_iff in HT. destruct HT as [HT T]. apply andb_true_iff in HT. destruct HT as [Tk Tc]. unfold half_test in T.
  destruct (set_x env0 b x30) as [b0' [[]|]] eqn:EX; [|discriminate T]. do 5 (apply andb_true_iff in T; destruct T as [T ?]).
  pose proof (sc_assigned _ _ _ HR) as HA. change (sc_env (sc131c k ct)) with env0 in *. change (sc_x (sc131c k ct)) with x00 in *.
  assert (V : vadd x00 half = x30) by (apply listeqb_ok; vm_compute; reflexivity).
  assert (HA' : forall sv, assigned env0 sv b x30 b0') by (intro sv; split; [apply HA|exact EX]).
  exists b, b0, b0'. split; [exact HA|]. rewrite V. split; [exact HA'|]. split; [clear - Tk; destruct (bd_kind b), k; try discriminate Tk; reflexivity|]. split; [clear - Tc; destruct (bd_cost b), ct; try discriminate Tc; reflexivity|].
  split; [exact (proj1 (proj2 (good_setupb_ok _ _ _ H3)))|]. split; [exact (proj2 (good_setupb_ok _ _ _ T))|]. split; [split; [now apply strictb_ok|now apply resolvableb_ok]|].
  intros sv Hs Hf. destruct (general_fit env0 sv b x00 b0 _ env0_ok Hs Hf (HA sv) H0) as (b1 & r & F1 & T1). destruct (general_fit env0 sv b x30 b0' _ env0_ok Hs Hf (HA' sv) H) as (b1' & r' & F2 & T2).
  destruct r as [s|]; [|discriminate T1]. destruct r' as [s'|]; [|discriminate T2]. cbn in T1, T2. apply listeqb_ok in T1, T2. exists b1, s, b1', s'. split; [exact F1|]. rewrite T1. split.
  - constructor; [right; reflexivity|]. constructor; [left; reflexivity|constructor].
  - auto.
Qed.
