(** Audits: counterexamples and concrete cases. *)
From Verif Require Import Proofs_props_element Proofs_props_actionset Spec_recourse Proofs_mip Proofs_info Proofs_vec Proofs_build Proofs_enum Proofs_session Proofs_recourse Proofs_exchange Proofs_far Proofs_concrete Proofs_builder Proofs_builder2 Proofs_builder3 Proofs_builder4 Proofs_builder5 Proofs_scen Proofs_scen2 Proofs_builder6 Proofs_builder7 Proofs_builder8 Proofs_flipset Proofs_flipset3.
From Verif Require Import Spec_audit Proofs_audit Proofs_audit2 Proofs_audit3.
#[local] Open Scope list_scope.
#[local] Open Scope Qc_scope.

(** ** All permitted actions of a concrete individual *)
Fixpoint all_actions (es : list element) (x : list Qc) : list (list Qc) :=
  match es, x with
  | [], [] => [[]]
  | e :: es', xj :: x' => flat_map (fun v => map (cons (v - xj)) (all_actions es' x')) (targets e xj)
  | _, _ => []
  end.
Lemma all_actions_In es : forall x a, length x = length es -> length a = length es ->
  (forall j e xj aj, nth_error es j = Some e -> nth_error x j = Some xj -> nth_error a j = Some aj -> permitted e xj (xj + aj)) -> In a (all_actions es x).
Proof.
  induction es as [|e es IH]; intros [|xj x] [|aj a] L1 L2 H; try discriminate L1; try discriminate L2; [now left|]. cbn [all_actions]. apply in_flat_map. exists (xj + aj). split.
  - apply targets_ok. exact (H 0%nat e xj aj eq_refl eq_refl eq_refl).
  - apply in_map_iff. exists a. split; [f_equal; ring|]. apply IH; [cbn in L1; lia|cbn in L2; lia|]. intros j. exact (H (S j)).
Qed.
Definition none_on_side (A : action_set) (w : list Qc) (t : Qc) (y : Z) (x : list Qc) : bool :=
  Nat.eqb (length x) (length (as_elems A)) && Nat.eqb (as_len A) (length (as_elems A)) && forallb (fun a => negb (on_sideb y (score w t (vadd x a)))) (all_actions (as_elems A) x).
Lemma none_on_side_ok A w t y x : none_on_side A w t y x = true -> forall a, permitted_action A x a -> ~ on_side y (score w t (vadd x a)).
Proof.
  unfold none_on_side. intros H a [H1 H2]. do 2 (apply andb_true_iff in H; destruct H as [H ?]). apply Nat.eqb_eq in H, H3. rewrite forallb_forall in H0. specialize (H0 a (all_actions_In _ x a H ltac:(congruence) H2)).
  apply negb_true_iff in H0. now apply deniedb.
Qed.

(** ** Concrete auditors *)
Definition aud_case (c : scenario) (test : action_set -> builder -> bool) : bool :=
  ok_and (sc_aset c) (fun A => ok_and (mk_auditor (sc_env c) (sc_kind c) A (sc_args (sc_w c) (sc_t c))) (test A)).
Lemma aud_case_ok c test : aud_case c test = true -> exists A b, aset_reachable (sc_env c) A /\ auditor_created (sc_env c) (sc_kind c) A (sc_w c) (sc_t c) b /\ test A b = true.
Proof.
  unfold aud_case. intro H. apply ok_and_true in H. destruct H as (A & HA & H). apply ok_and_true in H. destruct H as (b & Hb & H). exists A, b. split; [exact (sc_aset_reach _ _ HA)|]. split; [|exact H].
  exists (sc_args (sc_w c) (sc_t c)). split; [exact (coef_parse _ _)|exact Hb].
Qed.
(** What any sound solver that finishes answers for [x]. *)
Definition x_test (E : env) (b : builder) (x : list Qc) (t : option (list Qc * list Qc * Qc) -> bool) : bool :=
  match set_x E b x with (b0, Ok _) => fit_test b0 t | _ => false end.
Lemma x_test_ok E sv b x t : ok_env E -> sound_solver sv -> finishing_solver sv -> builder_reachable E sv b -> x_test E b x t = true ->
  exists b0 b1 r, set_x E b x = (b0, Ok tt) /\ fit sv b0 = Ok (b1, r) /\ t (view r) = true.
Proof.
  unfold x_test. intros HE HS HF HR H. destruct (set_x E b x) as [b0 [[]|e]] eqn:Hx; [|discriminate H]. destruct (assigned_ready E sv b x b0 HE (conj HR Hx)) as (ms & R).
  destruct (fit_test_ok sv b0 ms _ t HS HF (rd_good _ _ _ _ _ R) H) as (b1 & r & H1 & H2). eauto 6.
Qed.
Lemma created_reach E sv k A w t b : aset_reachable E A -> auditor_created E k A w t b -> builder_reachable E sv b.
Proof. intros HA HC. destruct (auditor_fresh _ _ _ _ _ _ HA HC) as (_ & _ & C). exists b, []. auto. Qed.
Lemma audit_one {I} E sv b (X : list (I * list Qc)) y u t : ok_env E -> sound_solver sv -> finishing_solver sv -> builder_reachable E sv b ->
  X <> [] -> (forall p, In p X -> length (snd p) = length (bd_w b)) -> label y -> (exists i, todo_of b y (map snd X) = [(i, u)]) -> x_test E b u t = true ->
  exists b' r g, t (view r) = true /\ audit E sv b (table_of X) y = (b', Ok (map (fun p => (fst p, g (snd p))) X)) /\ (In u (map snd X) -> g u = Some (verdict_of r)).
Proof.
  intros HE HS HF HR HN HL Hy (i & Ht) HT. destruct (x_test_ok E sv b u t HE HS HF HR HT) as (b0 & b1 & r & Hx & Hf & Hv).
  pose proof (audit_table E sv b X y HN HL Hy) as Q. rewrite Ht in Q. cbn [audit_loop] in Q. rewrite Hx, Hf in Q. exists b1, r, (result_of (map snd X) [(i, verdict_of r)]).
  split; [exact Hv|]. split; [exact Q|]. intro Hu. unfold result_of.
  assert (Hi : In (i, u) (todo_of b y (map snd X))) by (rewrite Ht; now left). apply todo_In in Hi. destruct Hi as [Hi _].
  assert (Ei : row_pos u (unique_rows (map snd X)) = i).
  { apply unique_rows_In in Hu. pose proof (row_pos_nth _ _ Hu) as HP. pose proof (sorted_nodup _ (unique_rows_sorted (map snd X))) as ND. rewrite NoDup_nth_error in ND. apply ND; [apply nth_error_Some; rewrite HP; discriminate|]. now rewrite HP, Hi. }
  cbn. rewrite Ei, Nat.eqb_refl. reflexivity.
Qed.

(** ** C53: y_desired = -1 on an action set that wants 1 *)
Definition sc53 := sc2 PyMIP CMax (z 1).
Lemma c53_refuted : exists A w t b x, aset_reachable env0 A /\ auditor_created env0 PyMIP A w t b /\
  (forall a, permitted_action A x a -> ~ on_side (-1) (score w t (vadd x a))) /\
  forall sv, sound_solver sv -> finishing_solver sv -> exists b' c, audit env0 sv b (table_of [(0%nat, x)]) (-1) = (b', Ok [(0%nat, Some (true, Fin c))]).
Proof.
  destruct (aud_case_ok sc53 (fun A b => none_on_side A [z 1; z 1] (z 1) (-1) x01 && x_test env0 b x01 (fun r => match r with Some _ => true | None => false end))) as (A & b & HA & HC & HT); [vm_compute; reflexivity|].
  apply andb_true_iff in HT. destruct HT as [T1 T2]. change (sc_env sc53) with env0 in *. exists A, [z 1; z 1], (z 1), b, x01. split; [exact HA|]. split; [exact HC|]. split; [now apply none_on_side_ok|].
  intros sv HS HF. destruct (auditor_fresh _ _ _ _ _ _ HA HC) as (F & _). pose proof (fr_w _ _ _ _ _ _ _ F) as Ew. pose proof (fr_t _ _ _ _ _ _ _ F) as Et.
  assert (N1 : [(0%nat, x01)] <> []) by discriminate.
  assert (N2 : forall p, In p [(0%nat, x01)] -> length (snd p) = length (bd_w b)) by (intros p [<-|[]]; rewrite Ew; reflexivity).
  assert (N3 : label (-1)) by (right; now left).
  assert (N4 : exists i, todo_of b (-1) (map snd [(0%nat, x01)]) = [(i, x01)]) by (unfold todo_of; rewrite Ew, Et; exists 0%nat; vm_compute; reflexivity).
  destruct (audit_one env0 sv b _ _ x01 _ env0_ok HS HF (created_reach _ _ _ _ _ _ _ HA HC) N1 N2 N3 N4 T2) as (b' & r & g & Hr & Ha & Hg).
  rewrite Ha. destruct r as [s|]; [|discriminate Hr]. exists b', (s_cost s). cbn [map fst snd]. rewrite Hg; [reflexivity|now left].
Qed.

(** ** A case for C49-C52: a denied individual (twice) and an approved one *)
Definition x44 : list Qc := [z 4; z 4].
Definition X_case : list (nat * list Qc) := [(5%nat, x01); (7%nat, x44); (9%nat, x01)].
Definition sc52 t := sc2 PyMIP CMax t.
Lemma audit_case t0 (fe : bool) : (t0 = - z 3 /\ fe = true) \/ (t0 = - z 7 /\ fe = false) -> exists A b, aset_reachable env0 A /\ auditor_created env0 PyMIP A [z 1; z 1] t0 b /\
  unconstrained A /\ current_percentiles A /\ as_y A = 1%Z /\ fits_grids A x01 /\ denied 1 (score [z 1; z 1] t0 x01) /\
  forall sv, sound_solver sv -> finishing_solver sv -> exists b' v, audit env0 sv b (table_of X_case) 1 = (b', Ok [(5%nat, Some (fe, v)); (7%nat, None); (9%nat, Some (fe, v))]).
Proof.
  intro HT0.
  assert (HT : aud_case (sc52 t0) (fun A b => unconstrainedb A && currentb A && (as_y A =? 1)%Z && fitsb A x01 && x_test env0 b x01 (fun r => match r with Some _ => fe | None => negb fe end)) = true) by (destruct HT0 as [[-> ->]|[-> ->]]; vm_compute; reflexivity).
  apply aud_case_ok in HT. destruct HT as (A & b & HA & HC & HT). do 4 (apply andb_true_iff in HT; destruct HT as [HT ?]). change (sc_env (sc52 t0)) with env0 in *. exists A, b. split; [exact HA|]. split; [exact HC|].
  split; [now apply unconstrainedb_ok|]. split; [now apply currentb_ok|]. split; [now apply Z.eqb_eq|]. split; [now apply fitsb_ok|]. split; [apply deniedb; destruct HT0 as [[-> _]|[-> _]]; vm_compute; reflexivity|].
  intros sv HS HF. destruct (auditor_fresh _ _ _ _ _ _ HA HC) as (F & _). pose proof (fr_w _ _ _ _ _ _ _ F) as Ew. pose proof (fr_t _ _ _ _ _ _ _ F) as Et.
  assert (Td : exists i, todo_of b 1 (map snd X_case) = [(i, x01)]). { unfold todo_of. rewrite Ew, Et. exists 0%nat. destruct HT0 as [[-> _]|[-> _]]; vm_compute; reflexivity. }
  assert (N1 : X_case <> []) by discriminate.
  assert (N2 : forall p, In p X_case -> length (snd p) = length (bd_w b)) by (intros p Hp; rewrite Ew; destruct Hp as [<-|[<-|[<-|[]]]]; reflexivity).
  assert (N3 : label 1) by now left.
  destruct (audit_one env0 sv b _ _ x01 _ env0_ok HS HF (created_reach _ _ _ _ _ _ _ HA HC) N1 N2 N3 Td H) as (b' & r & g & Hr & Ha & Hg).
  pose proof (c50 env0 sv PyMIP A _ _ b X_case 1 b' _ (ex_intro _ b (ex_intro _ [] (conj HC eq_refl))) Ha) as K.
    cbn [X_case map fst snd] in *. rewrite Hg in * by now left. rewrite Ha. inversion K as [|? ? ? ? _ K2]; subst. inversion K2 as [|? ? ? ? K3 _]; subst. destruct K3 as [_ K3]. cbn [snd] in K3.
    assert (g x44 = None) as ->. { apply K3. unfold has_outcome. change (0 <? 1)%Z with true. cbn iota. destruct HT0 as [[-> _]|[-> _]]; apply qle_iff; vm_compute; reflexivity. }
    destruct r as [s|]; cbn [verdict_of]; [exists b', (Fin (s_cost s))|exists b', PosInf]; (assert (Q : fe = true \/ fe = false) by (destruct fe; auto)); destruct HT0 as [[_ ->]|[_ ->]]; try discriminate Hr; reflexivity.
Qed.
(** C54 *)
Lemma c54_case : exists A b, aset_reachable env0 A /\ auditor_created env0 PyMIP A [z 1; z 1] (- z 3) b /\ label 1 /\ forall p, In p [(7%nat, x44); (8%nat, x44)] -> length (snd p) = length [z 1; z 1] /\ has_outcome 1 (score [z 1; z 1] (- z 3) (snd p)).
Proof.
  destruct (audit_case (- z 3) true) as (A & b & H1 & H2 & _); [left; auto|]. exists A, b. split; [exact H1|]. split; [exact H2|]. split; [now left|]. intros p Hp. assert (p = (7%nat, x44) \/ p = (8%nat, x44)) as [->| ->] by (destruct Hp as [<-|[<-|[]]]; auto); (split; [reflexivity|]); unfold has_outcome; change (0 <? 1)%Z with true; cbn iota; apply qle_iff; vm_compute; reflexivity.
Qed.

(** ** C55: action sets aligned with another classifier *)
Definition align_op (w : list Qc) : aset_op := OAlign {| k_clf := None; k_classifier := None; k_coefs := None; k_intercept := None; a_pos := [AVec (map Fin w)] |}.
Definition sc55 := mk env0 tab2 ["a"; "b"] 1 [align_op [z 0; z 1]] PyMIP [z 1; z 1] (- z 5) CTotal [z 0; z 1].
Lemma c55_refuted : exists A w t x b0, aset_reachable env0 A /\ alignment_known A = true /\ mk_builder env0 PyMIP A (coef_args w t) CTotal (Some x) = Ok b0 /\
  unconstrained A /\ as_y A = 1%Z /\ fits_grids A x /\ current_percentiles A /\ denied 1 (score w t x) /\
  (exists a, permitted_action A x a /\ on_side 1 (score w t (vadd x a))) /\
  forall sv, sound_solver sv -> finishing_solver sv -> exists b1, fit sv b0 = Ok (b1, None).
Proof.
  set (a := [z 3; z 2]).
  assert (H : ok_and (sc_aset sc55) (fun A => ok_and (mk_builder env0 PyMIP A (coef_args [z 1; z 1] (- z 5)) CTotal (Some x01)) (fun b0 => alignment_known A && unconstrainedb A && (as_y A =? 1)%Z && fitsb A x01 && currentb A && permittedb A x01 a &&
    fit_test b0 (fun r => match r with None => true | Some _ => false end))) = true) by (vm_compute; reflexivity).
  apply ok_and_true in H. destruct H as (A & HA & H). apply ok_and_true in H. destruct H as (b0 & Hb & H). do 6 (apply andb_true_iff in H; destruct H as [H ?]). pose proof (sc_aset_reach _ _ HA) as HR. change (sc_env sc55) with env0 in HR.
  exists A, [z 1; z 1], (- z 5), x01, b0. split; [exact HR|]. split; [exact H|]. split; [exact Hb|]. split; [now apply unconstrainedb_ok|]. split; [now apply Z.eqb_eq|]. split; [now apply fitsb_ok|]. split; [now apply currentb_ok|].
  split; [apply deniedb; vm_compute; reflexivity|]. split; [exists a; split; [now apply permittedb_ok|apply on_sideb_iff; vm_compute; reflexivity]|].
  intros sv HS HF. destruct (created_assigned _ _ _ _ _ _ _ HR Hb) as (b & _ & _ & _ & Has). destruct (assigned_ready _ sv _ _ _ env0_ok (Has sv)) as (ms & R).
  destruct (fit_test_ok sv b0 ms _ _ HS HF (rd_good _ _ _ _ _ R) H0) as (b1 & [s|] & H6 & H7); [discriminate H7|eauto].
Qed.
Definition sc55b := mk env0 tab2 ["a"; "b"] 1 [align_op [- z 1; - z 1]] PyMIP [z 1; z 1] (- z 5) CTotal [z 0; z 1].
Lemma c55_raises : exists A w t x, aset_reachable env0 A /\ unconstrained A /\ as_y A = 1%Z /\ fits_grids A x /\ current_percentiles A /\ denied 1 (score w t x) /\
  (exists a, permitted_action A x a /\ on_side 1 (score w t (vadd x a))) /\ forall k ct, mk_builder env0 k A (coef_args w t) ct (Some x) = Err AssertionError.
Proof.
  set (a := [z 3; z 2]).
  assert (H : ok_and (sc_aset sc55b) (fun A => unconstrainedb A && (as_y A =? 1)%Z && fitsb A x01 && currentb A && permittedb A x01 a &&
     forallb (fun k => forallb (fun ct => match mk_builder env0 k A (coef_args [z 1; z 1] (- z 5)) ct (Some x01) with Err AssertionError => true | _ => false end) [CTotal; CLocal; CMax]) [CPX; PyMIP]) = true) by (vm_compute; reflexivity).
  apply ok_and_true in H. destruct H as (A & HA & H). do 5 (apply andb_true_iff in H; destruct H as [H ?]). pose proof (sc_aset_reach _ _ HA) as HR. change (sc_env sc55b) with env0 in HR.
  exists A, [z 1; z 1], (- z 5), x01. split; [exact HR|]. split; [now apply unconstrainedb_ok|]. split; [now apply Z.eqb_eq|]. split; [now apply fitsb_ok|]. split; [now apply currentb_ok|].
  split; [apply deniedb; vm_compute; reflexivity|]. split; [exists a; split; [now apply permittedb_ok|apply on_sideb_iff; vm_compute; reflexivity]|].
  intros k ct. rewrite forallb_forall in H0. assert (Hk : In k [CPX; PyMIP]) by (destruct k; cbn; auto). specialize (H0 k Hk). rewrite forallb_forall in H0. assert (Hc : In ct [CTotal; CLocal; CMax]) by (destruct ct; cbn; auto). specialize (H0 ct Hc).
  destruct (mk_builder env0 k A (coef_args [z 1; z 1] (- z 5)) ct (Some x01)) as [|[]]; try discriminate H0; reflexivity.
Qed.
(** Aligning the shared action set with another classifier (as creating an auditor for it does) disturbs an
    existing builder. *)
Definition sc55c := mk env0 tab2 ["a"; "b"] 1 [] PyMIP [z 1; z 1] (- z 5) CTotal [z 0; z 1].
Lemma c55_disturbed : exists A b w t w' t' x b1, aset_reachable env0 A /\ mk_builder env0 PyMIP A (coef_args w t) CTotal None = Ok b /\
  auditor_created env0 PyMIP (bd_A b) w' t' b1 /\
  forall sv, sound_solver sv -> finishing_solver sv ->
    (exists c0 c1 s, set_x env0 b x = (c0, Ok tt) /\ fit sv c0 = Ok (c1, Some s)) /\
    (exists c0 c1, set_x env0 (with_aset b (bd_A b1)) x = (c0, Ok tt) /\ fit sv c0 = Ok (c1, None)).
Proof.
  assert (H : ok_and (sc_aset sc55c) (fun A => ok_and (mk_builder env0 PyMIP A (coef_args [z 1; z 1] (- z 5)) CTotal None) (fun b => ok_and (mk_auditor env0 PyMIP (bd_A b) (sc_args [z 0; z 1] 0)) (fun b1 =>
     x_test env0 b x01 (fun r => match r with None => false | Some _ => true end) && x_test env0 (with_aset b (bd_A b1)) x01 (fun r => match r with None => true | Some _ => false end)))) = true) by (vm_compute; reflexivity).
  apply ok_and_true in H. destruct H as (A & HA & H). apply ok_and_true in H. destruct H as (b & Hb & H). apply ok_and_true in H. destruct H as (b1 & Hb1 & H). apply andb_true_iff in H. destruct H as [T1 T2].
  pose proof (sc_aset_reach _ _ HA) as HR. change (sc_env sc55c) with env0 in HR. assert (HC : auditor_created env0 PyMIP (bd_A b) [z 0; z 1] 0 b1) by (exists (sc_args [z 0; z 1] 0); split; [exact (coef_parse _ _)|exact Hb1]).
  exists A, b, [z 1; z 1], (- z 5), [z 0; z 1], 0, x01, b1. split; [exact HR|]. split; [exact Hb|]. split; [exact HC|]. intros sv HS HF.
  assert (RB : builder_reachable env0 sv b) by (exists b, []; split; [exists PyMIP, A, (coef_args [z 1; z 1] (- z 5)), CTotal, None; auto|reflexivity]).
  assert (RC : builder_reachable env0 sv (with_aset b (bd_A b1))).
  { destruct (auditor_parts _ _ _ _ _ _ HC) as (A1 & K1 & K2). assert (bd_A b1 = aset_step env0 (bd_A b) (align_op [z 0; z 1])) as ->.
    { unfold align_op. cbn [aset_step]. rewrite K1. unfold mk_builder in K2. rewrite coef_parse in K2. cbn [bind] in K2. bnd K2 as u Hu. assert (AK : alignment_known A1 = true).
      { apply set_alignment_spec in K1. destruct K1 as (w & t & _ & _ & _ & _ & _ & K1). unfold alignment_known. rewrite K1. apply forallb_forall. intros e He. apply in_map_iff in He. destruct He as ([e0 f] & <- & _). reflexivity. }
      rewrite AK in K2. cbn [bind] in K2. injection K2 as <-. reflexivity. }
    exact (reach_step env0 sv b (BAset (align_op [z 0; z 1])) RB). }
  destruct (x_test_ok env0 sv _ _ _ env0_ok HS HF RB T1) as (c0 & c1 & r & P1 & P2 & P3). destruct (x_test_ok env0 sv _ _ _ env0_ok HS HF RC T2) as (d0 & d1 & r' & Q1 & Q2 & Q3).
  destruct r as [s|]; [|discriminate P3]. destruct r' as [s'|]; [discriminate Q3|]. split; eauto 6.
Qed.
