(** Proofs about the settings of a feature (C118). *)
From Verif Require Import Proofs_num Proofs_element Spec_settings.
#[local] Open Scope string_scope.
#[local] Open Scope list_scope.
#[local] Open Scope Qc_scope.

Lemma qz_bit n : ((qz n =? 0) || (qz n =? 1)) = true -> exists b : bool, n = (if b then 1%Z else 0%Z).
Proof.
  intro H. apply orb_true_iff in H. destruct H as [H|H]; apply qeq_iff in H.
  - exists false. change 0 with (qz 0) in H. apply qz_inj in H. exact H.
  - exists true. rewrite <- qz_1 in H. apply qz_inj in H. exact H.
Qed.
Lemma fin_bit q : ((q =? 0) || (q =? 1)) = true -> exists b : bool, q = if b then 1 else 0.
Proof. intro H. apply orb_true_iff in H. destruct H as [H|H]; apply qeq_iff in H; [exists false|exists true]; exact H. Qed.
Lemma bit_ok (b : bool) : (((if b then 1 else 0) =? 0) || ((if b then 1 else 0) =? 1)) = true.
Proof. destruct b; reflexivity. Qed.
Lemma bit_neg (b : bool) : negb ((if b then 1 else 0) =? 0) = b.
Proof. destruct b; reflexivity. Qed.
Lemma qz_ifb (b : bool) : qz (if b then 1 else 0)%Z = if b then 1 else 0.
Proof. destruct b; [apply qz_1|reflexivity]. Qed.

Lemma actionable_set e v e' : plain v ->
  elem_setattr "actionable" v e = Ok e' <-> exists b, truth v b /\ e' = with_actionable e b.
Proof.
  intro HP. change (elem_setattr "actionable" v e) with (set_actionable e v). unfold set_actionable, is01.
  split.
  - intro H. destruct v as [| c |n|f|n|s|l|l|l|t]; try (exfalso; exact HP); cbn [pynum] in H; try discriminate H.
    + destruct c; injection H as <-; (eexists; split; [reflexivity|reflexivity]).
    + bnd H as u Hu. injection H as <-. apply passert_ok in Hu. destruct (qz_bit n Hu) as (b & ->). exists b. split; [reflexivity|]. now rewrite qz_ifb, bit_neg.
    + destruct f as [q| | |]; try discriminate H. bnd H as u Hu. injection H as <-. apply passert_ok in Hu. destruct (fin_bit q Hu) as (b & ->). exists b. split; [reflexivity|]. now rewrite bit_neg.
    + bnd H as u Hu. injection H as <-. apply passert_ok in Hu. destruct (qz_bit n Hu) as (b & ->). exists b. split; [reflexivity|]. now rewrite qz_ifb, bit_neg.
    + destruct l as [|f [|? ?]]; try discriminate H. destruct f as [q| | |]; try discriminate H. bnd H as u Hu. injection H as <-. apply passert_ok in Hu. destruct (fin_bit q Hu) as (b & ->). exists b. split; [reflexivity|]. now rewrite bit_neg.
  - intros (b & HT & ->). destruct v as [| c |n|f|n|s|l|l|l|t]; try (exfalso; exact HP); cbn [truth] in HT; try contradiction; cbn [pynum].
    + subst b. destruct c; reflexivity.
    + subst n. rewrite qz_ifb, bit_ok, bit_neg. reflexivity.
    + subst f. rewrite bit_ok, bit_neg. reflexivity.
    + subst n. rewrite qz_ifb, bit_ok, bit_neg. reflexivity.
    + destruct l as [|f [|? ?]]; try contradiction. subst f. cbn [pynum]. rewrite bit_ok, bit_neg. reflexivity.
Qed.
Lemma sign_of_qsign q : sign_of q (qsign q).
Proof.
  unfold sign_of, qsign. destruct (qlt_spec 0 q) as [H|H]; [left; auto|]. destruct (qlt_spec q 0) as [H'|H']; [right; right; auto|].
  right; left. split; [|reflexivity]. apply Qcle_antisym; assumption.
Qed.
Lemma sign_of_uniq q s s' : sign_of q s -> sign_of q s' -> s = s'.
Proof.
  intros [[H ->]|[[H ->]|[H ->]]] [[H' ->]|[[H' ->]|[H' ->]]]; try reflexivity; exfalso; subst; qlra.
Qed.
Lemma sign_arg_iff v s : plain v -> sign_arg v = Ok s <-> exists q, numeric v q /\ sign_of q s.
Proof.
  intro HP. unfold sign_arg. split.
  - intro H. destruct v as [| c |n|f|n|st|l|l|l|t]; try (exfalso; exact HP); cbn [pynum] in H; try discriminate H.
    + injection H as <-. exists (qz n). split; [reflexivity|apply sign_of_qsign].
    + destruct f as [q| | |]; try discriminate H. injection H as <-. exists q. split; [reflexivity|apply sign_of_qsign].
    + injection H as <-. exists (qz n). split; [reflexivity|apply sign_of_qsign].
    + destruct l as [|f [|? ?]]; try discriminate H. destruct f as [q| | |]; try discriminate H. injection H as <-. exists q. split; [reflexivity|apply sign_of_qsign].
  - intros (q & HN & HS). pose proof (sign_of_uniq _ _ _ HS (sign_of_qsign q)) as ->.
    destruct v as [| c |n|f|n|st|l|l|l|t]; try (exfalso; exact HP); cbn [numeric] in HN; try contradiction; try (subst; reflexivity).
    destruct l as [|f [|? ?]]; try contradiction; subst; reflexivity.
Qed.
Lemma step_direction_set e v e' : plain v ->
  elem_setattr "step_direction" v e = Ok e' <-> exists q s, numeric v q /\ sign_of q s /\ e' = with_step_dir e s.
Proof.
  intro HP. change (elem_setattr "step_direction" v e) with (set_step_direction e v). unfold set_step_direction. split.
  - intro H. bnd H as s Hs. injection H as <-. apply (sign_arg_iff v s HP) in Hs. destruct Hs as (q & H1 & H2). eauto.
  - intros (q & s & H1 & H2 & ->). rewrite (proj2 (sign_arg_iff v s HP)) by eauto. reflexivity.
Qed.
Lemma flip_direction_set e v e' : plain v ->
  elem_setattr "flip_direction" v e = Ok e' <-> exists q s, numeric v q /\ sign_of q s /\ e' = with_flip e (Some s).
Proof.
  intro HP. change (elem_setattr "flip_direction" v e) with (set_flip_direction e v). unfold set_flip_direction. split.
  - intro H. bnd H as s Hs. injection H as <-. apply (sign_arg_iff v s HP) in Hs. destruct Hs as (q & H1 & H2). eauto.
  - intros (q & s & H1 & H2 & ->). rewrite (proj2 (sign_arg_iff v s HP)) by eauto. reflexivity.
Qed.
Lemma step_type_set e v e' :
  elem_setattr "step_type" v e = Ok e' <-> (v = PStr "relative" /\ e' = with_step_type e Relative) \/ (v = PStr "absolute" /\ e' = with_step_type e AbsoluteStep).
Proof.
  change (elem_setattr "step_type" v e) with (set_step_type e v). unfold set_step_type. split.
  - destruct v as [| c |n|f|n|s|l|l|l|t]; intro H; try discriminate H.
    destruct (String.eqb_spec s "relative") as [->|]; [left; injection H as <-; auto|].
    destruct (String.eqb_spec s "absolute") as [->|]; [right; injection H as <-; auto|discriminate H].
  - intros [[-> ->]|[-> ->]]; reflexivity.
Qed.
Lemma variable_type_set e v e' :
  elem_setattr "variable_type" v e = Ok e' <-> exists t, (v = PType t \/ (v = PNone /\ t = determine_variable_type (e_values e))) /\ e' = with_vtype e t.
Proof.
  change (elem_setattr "variable_type" v e) with (set_variable_type e v). unfold set_variable_type. split.
  - destruct v; intro H; try discriminate H; injection H as <-; eauto.
  - intros (t & [->|[-> ->]] & ->); reflexivity.
Qed.
Lemma step_size_set e v e' : ~ infinite v ->
  elem_setattr "step_size" v e = Ok e' <-> exists q, py_number v q /\ 0 < q /\ (e_step_type e = Relative -> q <= 1) /\ e' = with_step_size e q.
Proof.
  intro HI. change (elem_setattr "step_size" v e) with (set_step_size e v).
  set (chk := fun f => match f with
    | Fin q => let! _ := passert (0 <? q) in
               let! _ := match e_step_type e with Relative => passert (q <=? 1) | _ => Ok tt end in
               Ok (with_step_size e q)
    | PosInf => match e_step_type e with Relative => Err AssertionError | _ => Err Unmodelled end
    | _ => Err AssertionError end).
  assert (D : set_step_size e v = match v with
    | PBool _ | PInt _ | PFloat _ => match pynum v with Some f => chk f | None => Err AssertionError end
    | PArr [f] => chk f | PArr (_ :: _ :: _) => Err ValueError | _ => Err AssertionError end) by reflexivity.
  rewrite D. clear D.
  assert (K : forall q, chk (Fin q) = Ok e' <-> 0 < q /\ (e_step_type e = Relative -> q <= 1) /\ e' = with_step_size e q).
  { intro q. unfold chk. split.
    - intro H. bnd H as u Hu. apply passert_ok in Hu. apply qlt_iff in Hu. bnd H as u' Hu'. injection H as <-. split; [exact Hu|]. split; [|reflexivity].
      intro R. rewrite R in Hu'. apply passert_ok in Hu'. apply qle_iff in Hu'. exact Hu'.
    - intros (H1 & H2 & ->). rewrite (proj2 (qlt_iff 0 q) H1). cbn [passert bind]. destruct (e_step_type e); [|reflexivity].
      rewrite (proj2 (qle_iff q 1) (H2 eq_refl)). reflexivity. }
  assert (KI : v = PFloat PosInf \/ v = PArr [PosInf] -> False) by exact HI.
  assert (KN : forall f, chk f = Ok e' -> f = PosInf \/ exists q, f = Fin q).
  { intros [q| | |] H; try discriminate H; [right; eauto|left; reflexivity]. }
  clearbody chk. split.
  - intro H. destruct v as [| c |n|f|n|s|l|l|l|t]; try discriminate H; cbn [pynum] in H.
    + apply K in H. exists (if c then 1 else 0). cbn [py_number]. tauto.
    + apply K in H. exists (qz n). cbn [py_number]. tauto.
    + destruct (KN f H) as [->|(q & ->)]; [exfalso; apply HI; left; reflexivity|]. apply K in H. exists q. cbn [py_number]. tauto.
    + destruct l as [|f [|? ?]]; try discriminate H. destruct (KN f H) as [->|(q & ->)]; [exfalso; apply HI; right; reflexivity|].
      apply K in H. exists q. cbn [py_number]. tauto.
  - intros (q & HN & HR). apply K in HR. destruct v as [| c |n|f|n|s|l|l|l|t]; cbn [py_number] in HN; try contradiction; cbn [pynum].
    + subst q. exact HR.
    + subst q. exact HR.
    + destruct f as [r| | |]; try contradiction. subst q. exact HR.
    + destruct l as [|[r| | |] [|? ?]]; try contradiction. subst q. exact HR.
Qed.
Lemma created_settings name values bounds vt act st sd ss e :
  mk_element name values bounds vt act st sd ss = Ok e ->
  (forall b, truth act b -> e_actionable e = b) /\ (forall t, vt = PType t -> e_vtype e = t) /\
  (forall q s, numeric sd q -> sign_of q s -> e_step_dir e = s) /\
  (st = PStr "relative" -> e_step_type e = Relative) /\ (st = PStr "absolute" -> e_step_type e = AbsoluteStep) /\
  (forall q, py_number ss q -> e_step_size e = q).
Proof.
  unfold mk_element. intro H. bnd H as u0 H0. bnd H as u1 H1. set (e0 := {| e_name := name |}) in H.
  bnd H as e1 K1. bnd H as e2 K2. bnd H as e3 K3. bnd H as e4 K4. bnd H as e5 K5. bnd H as e6 K6. bnd H as e7 K7. bnd H as u8 K8. injection H as <-.
  assert (F7 : exists g gi, e7 = with_grid e6 g gi).
  { unfold update_grid in K7. destruct (grid_step e6 =? 0); [discriminate K7|]. injection K7 as <-. eauto. }
  destruct F7 as (g & gi & ->).
  assert (F6 : exists s, sign_arg sd = Ok s /\ e6 = with_step_dir e5 s).
  { unfold set_step_direction in K6. bnd K6 as s Hs. injection K6 as <-. eauto. }
  destruct F6 as (s6 & S6 & ->).
  assert (F5 : exists q, (forall r, py_number ss r -> q = r) /\ e5 = with_step_size e4 q).
  { destruct (set_step_size_ok _ _ _ K5) as (q & _ & _ & ->). exists q. split; [|reflexivity]. intros r Hr.
    assert (HI : ~ infinite ss). { intros [->| ->]; exact Hr. }
    apply (step_size_set e4 ss _ HI) in K5. destruct K5 as (q' & HN & _ & _ & HE).
    assert (q = q') by (apply (f_equal e_step_size) in HE; exact HE). subst q'.
    clear -HN Hr. destruct ss as [| c |n|f|n|s|l|l|l|t]; cbn [py_number] in HN, Hr; try contradiction; try congruence.
    - destruct f; try contradiction; congruence.
    - destruct l as [|[r'| | |] [|? ?]]; try contradiction; congruence. }
  destruct F5 as (q5 & S5 & ->).
  apply step_type_set in K4.
  assert (F3 : exists b, e3 = with_bounds e2 b).
  { destruct (set_bounds_ok _ _ _ K3) as (b & _ & _ & _ & _ & ->). eauto. }
  destruct F3 as (b3 & ->).
  assert (F2 : exists b, (forall c, truth act c -> b = c) /\ e2 = with_actionable e1 b).
  { destruct (set_actionable_ok _ _ _ K2) as (b & ->). exists b. split; [|reflexivity]. intros c Hc.
    assert (HP : plain act) by (destruct act; try exact I; exact Hc).
    apply (actionable_set e1 act _ HP) in K2. destruct K2 as (b' & HT & HE). assert (b = b') by (apply (f_equal e_actionable) in HE; exact HE). subst b'.
    clear -HT Hc. assert (Q : forall b c : bool, (if b then 1%Z else 0%Z) = (if c then 1%Z else 0%Z) -> b = c) by (intros [] []; (reflexivity || (intro D; discriminate D))).
    assert (R : forall b c : bool, Fin (if b then 1 else 0) = Fin (if c then 1 else 0) -> b = c) by (intros [] []; (reflexivity || (intro D; discriminate D))).
    destruct act as [| d |n|f|n|s|l|l|l|t]; cbn [truth] in HT, Hc; try contradiction.
    - congruence. - apply Q; congruence. - apply R; congruence. - apply Q; congruence.
    - destruct l as [|f [|? ?]]; try contradiction. apply R; congruence. }
  destruct F2 as (b2 & S2 & ->).
  apply variable_type_set in K1. destruct K1 as (t1 & T1 & ->).
  split; [intros b Hb; destruct K4 as [[_ ->]|[_ ->]]; exact (S2 b Hb)|].
  split; [intros t ->; destruct T1 as [T1|[T1 _]]; [injection T1 as <-|discriminate T1]; destruct K4 as [[_ ->]|[_ ->]]; reflexivity|].
  split.
  { intros q s HN HS. assert (HP : plain sd) by (destruct sd; try exact I; exact HN).
    assert (SS : sign_arg sd = Ok s) by (apply (sign_arg_iff sd s HP); eauto). rewrite S6 in SS. injection SS as <-. reflexivity. }
  split; [intros ->; destruct K4 as [[_ ->]|[D _]]; [reflexivity|discriminate D]|].
  split; [intros ->; destruct K4 as [[D _]|[_ ->]]; [discriminate D|reflexivity]|].
  intros q Hq. exact (S5 q Hq).
Qed.
