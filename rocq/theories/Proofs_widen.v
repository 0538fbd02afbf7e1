(** Proofs for C105. *)
From Verif Require Import Spec_widen Proofs_actionset Proofs_registry Proofs_builder3 Proofs_builder8 Proofs_audit3 Proofs_concrete Proofs_builder6 Proofs_session Proofs_builder Proofs_builder7 Proofs_scen Proofs_scen2 Proofs_compare4 Proofs_values Proofs_audit4 Proofs_assign3.
#[local] Open Scope string_scope.
#[local] Open Scope list_scope.
#[local] Open Scope Qc_scope.

Lemma widens_refl e : widens e e.
Proof. unfold widens. auto. Qed.
Lemma widens_permitted e e' x v : widens e e' -> permitted e x v -> permitted e' x v.
Proof.
  intros (H1 & H2 & H3) [->|(K1 & K2 & K3 & K4)]; [now left|]. right. split; [auto|]. split; [auto|].
  destruct H3 as [-> | ->]; [split; intro; lia|auto].
Qed.
Lemma more_permitted A A' x a : allows_more A A' -> permitted_action A x a -> permitted_action A' x a.
Proof.
  intros (EN & _ & HF & _) (L & H). apply Forall2_nth in HF. destruct HF as [EL HF]. split; [unfold as_len in *; congruence|].
  intros j e' xj aj He' Hx Ha. destruct (nth_error (as_elems A) j) as [e|] eqn:He.
  - eapply widens_permitted; [|eapply H; eauto]. eapply HF; eauto.
  - apply nth_error_None in He. assert (j < length (as_elems A'))%nat by (apply nth_error_Some; congruence). lia.
Qed.
Lemma more_movable A A' x a : allows_more A A' -> no_coarser A A' x -> movable_only A x a -> movable_only A' x a.
Proof.
  intros (_ & _ & HF & _) HN HM j e xj aj He Hx Ha Hz. apply Forall2_nth in HF. destruct HF as [HL HF]. destruct (nth_error (as_elems A) j) as [e0|] eqn:He0.
  - apply (HN j e0 e xj He0 He Hx). exact (HM j e0 xj aj He0 Hx Ha Hz).
  - apply nth_error_None in He0. assert (j < length (as_elems A'))%nat by (apply nth_error_Some; congruence). lia.
Qed.
Lemma fits_no_coarser A A' x : fits_grids A' x -> no_coarser A A' x.
Proof. intros H j e e' xj _ He' Hx _. exact (H j e' xj He' Hx). Qed.
Lemma more_compliant A A' x a : allows_more A A' -> compliant A x a -> compliant A' x a.
Proof. intros (_ & _ & _ & H) HC id c Hs. destruct (H id c Hs) as (id0 & c0 & Hs0 & -> & H1 & H2). specialize (HC id0 c0 Hs0). lia. Qed.

Lemma widen_thm E E' sv sv' b b' x b0 b0' b1 s : ok_env E -> ok_env E' -> sound_solver sv -> sound_solver sv' -> finishing_solver sv' -> density E' -> log_ok E' (bd_cost b') ->
  assigned E sv b x b0 -> assigned E' sv' b' x b0' -> allows_more (bd_A b) (bd_A b') -> bd_w b' = bd_w b -> bd_t b' = bd_t b -> (bd_max b <= bd_max b')%Z ->
  orderly E (bd_A b) (bd_w b) x -> flips_match (bd_A b) (bd_w b) -> good_setup E' b' x -> no_coarser (bd_A b) (bd_A b') x ->
  fit sv b0 = Ok (b1, Some s) -> exists b1' s', fit sv' b0' = Ok (b1', Some s').
Proof.
  intros HE HE' HS HS' HF' HD HL HA HA' HM EW ET HMx HO HFl HG HFit Hf.
  destruct (fit_some E sv b x b0 HE HS HA b1 s Hf) as (K1 & K2 & K3). pose proof (fit_compliant E sv b x b0 HE HS HA b1 s Hf HO HFl) as K4.
  destruct (fit_total E' sv' b' x b0' HE' HS' HA') as (b1' & [s'|] & Hf'); [eauto|]. exfalso.
  refine (c27_thm E' sv' b' x b0' b1' (s_actions s) HE' HS' HF' HD HL HA' HG Hf' (more_permitted _ _ _ _ HM K1) (more_movable _ _ _ _ HM HFit (fit_movable E sv b x b0 HE HS HA b1 s Hf)) _ (more_compliant _ _ _ _ HM K4) _).
  - unfold size_between in K2. lia.
  - destruct HM as (_ & EY & _). now rewrite EY, EW, ET.
Qed.
Lemma widen_audit {I} E E' sv sv' k k' A A' w t b b' (X : list (I * list Qc)) y c out c' out' : ok_env E -> ok_env E' -> sound_solver sv -> sound_solver sv' -> finishing_solver sv -> finishing_solver sv' ->
  density E -> density E' -> aset_reachable E A -> aset_reachable E' A' -> current_percentiles A -> current_percentiles A' -> auditor_used E sv k A w t b -> auditor_used E' sv' k' A' w t b' ->
  (0 <? y)%Z = (0 <? as_y A)%Z -> allows_more A A' -> audit E sv b (table_of X) y = (c, Ok out) -> audit E' sv' b' (table_of X) y = (c', Ok out') ->
  forall i r l l', nth_error X i = Some r -> nth_error out i = Some l -> nth_error out' i = Some l' -> orderly E A w (snd r) -> orderly E' A' w (snd r) -> no_coarser A A' (snd r) ->
    denied y (score w t (snd r)) -> (exists v, snd l = Some (true, Fin v)) -> exists v', snd l' = Some (true, Fin v').
Proof.
  intros HE HE' HS HS' HF HF' HD HD' HA HA' HC HC' HU HU' HY HM H H' i r l l' Hr Hl Hl' HO HO' HG' HDn Hv.
  assert (HY' : (0 <? y)%Z = (0 <? as_y A')%Z) by (destruct HM as (_ & -> & _); exact HY).
  pose proof (c52 E sv k A w t b X y c out HE HS HF HD HA HC HU HY H) as T. pose proof (c52 E' sv' k' A' w t b' X y c' out' HE' HS' HF' HD' HA' HC' HU' HY' H') as T'.
  apply Forall2_nth in T, T'. destruct T as [_ T], T' as [_ T']. destruct (T i r l Hr Hl HO HDn) as [T1 _]. destruct (T' i r l' Hr Hl' HO' HDn) as [T1' _].
  apply T1'. apply T1 in Hv. destruct Hv as (a & P & P' & Q & R). exists a. split; [eapply more_permitted; eauto|]. split; [eapply more_movable; eauto|]. split; [eapply more_compliant; eauto|exact R].
Qed.

(** Edits of an action set that only allow more. *)
Lemma widens_set e v e' n : (n = "actionable" /\ v = PBool true) \/ (n = "step_direction" /\ v = PInt 0) -> elem_setattr n v e = Ok e' -> widens e e'.
Proof.
  intros [[-> ->]|[-> ->]] H; cbn in H; injection H as <-; unfold widens; cbn; auto.
Qed.
Lemma widens_trans e1 e2 e3 : widens e1 e2 -> widens e2 e3 -> widens e1 e3.
Proof. intros (A1 & B1 & C1) (A2 & B2 & C2). unfold widens. split; [auto|]. split; [auto|]. destruct C2 as [->| ->]; [auto|exact C1]. Qed.
Lemma widens_list_refl es : Forall2 widens es es.
Proof. induction es; constructor; auto using widens_refl. Qed.
Lemma widens_list_set es p e e' : nth_error es p = Some e -> widens e e' -> Forall2 widens es (list_set p e' es).
Proof.
  revert p. induction es as [|a es IH]; intros [|p] H W; cbn in *; try discriminate H.
  - injection H as ->. constructor; [exact W|apply widens_list_refl].
  - constructor; [apply widens_refl|now apply IH].
Qed.
Lemma widens_list_trans l1 l2 l3 : Forall2 widens l1 l2 -> Forall2 widens l2 l3 -> Forall2 widens l1 l3.
Proof. intro H. revert l3. induction H; intros l3 K; inversion K; subst; constructor; eauto using widens_trans. Qed.
Lemma assign_widens n vals work es v : (n = "actionable" /\ v = PBool true) \/ (n = "step_direction" /\ v = PInt 0) -> Forall (eq v) vals -> Forall2 widens es (fst (assign_loop n vals work es)).
Proof.
  intros HN HV. revert es. induction work as [|[p j] work IH]; intro es; cbn [assign_loop]; [apply widens_list_refl|].
  destruct (nth_error es p) as [e|] eqn:He; [|apply widens_list_refl]. destruct (nth_error vals j) as [u|] eqn:Hu; [|apply widens_list_refl].
  rewrite Forall_forall in HV. pose proof (HV u (nth_error_In _ _ Hu)) as <-. destruct (elem_setattr n v e) as [e'|] eqn:Hs; [|apply widens_list_refl].
  eapply widens_list_trans; [|apply IH]. eapply widens_list_set; eauto using widens_set.
Qed.
Lemma expand_const v k vals : v = PBool true \/ v = PInt 0 -> expand_values v k = Ok vals -> Forall (eq v) vals.
Proof.
  intros [-> | ->] H; unfold expand_values in H; cbn in H; injection H as <-; apply Forall_forall; intros u Hu; apply repeat_spec in Hu; congruence.
Qed.
Lemma more_elems A es : Forall2 widens (as_elems A) es -> allows_more A (with_elems A es).
Proof. intro H. split; [reflexivity|]. split; [reflexivity|]. split; [exact H|]. intros id c Hs. exists id, c. split; [exact Hs|]. split; [reflexivity|lia]. Qed.
Lemma more_refl A : allows_more A A.
Proof. replace A with (with_elems A (as_elems A)) at 2 by now destruct A. apply more_elems, widens_list_refl. Qed.
Lemma more_trans A B C : allows_more A B -> allows_more B C -> allows_more A C.
Proof.
  intros (N1 & Y1 & F1 & C1) (N2 & Y2 & F2 & C2). split; [congruence|]. split; [congruence|]. split; [eapply widens_list_trans; eauto|].
  intros id c Hs. destruct (C2 id c Hs) as (i2 & c2 & S2 & E2 & L2 & U2). destruct (C1 i2 c2 S2) as (i1 & c1 & S1 & E1 & L1 & U1). exists i1, c1. split; [exact S1|]. split; [congruence|lia].
Qed.
Lemma index_more A i n v : (n = "actionable" /\ v = PBool true) \/ (n = "step_direction" /\ v = PInt 0) -> allows_more A (fst (index_setattr A i n v)).
Proof.
  intro H. unfold index_setattr. destruct (select A i) as [ps|]; [|apply more_refl].
  assert (K1 : allows_more A (fst (match ps with
          | [p] => match nth_error (as_elems A) p with
                   | Some e => match elem_setattr n v e with
                               | Ok e' => (with_elems A (list_set p e' (as_elems A)), Ok tt)
                               | Err x => (A, Err x)
                               end
                   | None => (A, Err KeyError)
                   end
          | _ => (A, Err KeyError)
          end))).
  { destruct ps as [|p [|q ps]]; try apply more_refl. destruct (nth_error (as_elems A) p) as [e|] eqn:He; [|apply more_refl]. destruct (elem_setattr n v e) as [e'|] eqn:Hs; [|apply more_refl].
    apply more_elems. eapply widens_list_set; eauto using widens_set. }
  assert (K2 : allows_more A (fst (if elem_hasattr n then
            let work := slice_dict A ps in
            match expand_values v (length work) with
            | Err x => (A, Err x)
            | Ok vals =>
                let '(es, r) := assign_loop n vals work (as_elems A) in
                (with_elems A es, r)
            end
          else (A, Err AssertionError)))).
  { destruct (elem_hasattr n); [|apply more_refl]. cbv zeta. destruct (expand_values v _) as [vals|] eqn:Ev; [|apply more_refl].
    pose proof (assign_widens n vals (slice_dict A ps) (as_elems A) v H) as K. destruct (assign_loop _ _ _ _) as [es r]. cbn [fst] in *. apply more_elems, K. eapply expand_const; [|exact Ev]. destruct H as [(_ & ->)|(_ & ->)]; auto. }
  destruct i; assumption.
Qed.
Lemma widens_touch E e : widens e (touch_interp E e).
Proof. unfold touch_interp. repeat match goal with |- context [match ?x with _ => _ end] => destruct x end; unfold widens; cbn; auto. Qed.
Lemma relaxing_more E A o : relaxing o -> allows_more A (aset_step E A o).
Proof.
  destruct o; cbn [relaxing aset_step]; intro H; try destruct H.
  1, 2 : unfold set_setattr; destruct (elem_hasattr attr); [|apply more_refl]; destruct (expand_values v (as_len A)) as [vals|] eqn:Ev; [|apply more_refl];
    pose proof (assign_widens attr vals (map (fun j => (j, j)) (seq 0 (as_len A))) (as_elems A) v) as K; destruct (assign_loop _ _ _ _) as [es r]; cbn [fst] in *; apply more_elems, K; [auto|]; eapply expand_const; [|exact Ev]; destruct H as (_ & ->); auto.
  1, 2 : apply index_more; auto.
  - unfold on_elem. destruct (nth_error (as_elems A) j) as [e|] eqn:He; [|apply more_refl]. apply more_elems. eapply widens_list_set; [exact He|]. cbn [elem_step]. apply widens_touch.
  - destruct (remove_constraint A id) as [A'|] eqn:HR; [|apply more_refl]. unfold remove_constraint in HR. bnd HR as r Hr. injection HR as <-.
    split; [reflexivity|]. split; [reflexivity|]. split; [apply widens_list_refl|]. intros id' c Hs. cbn in Hs. exists id', c. split; [|split; [reflexivity|lia]].
    destruct (remove_only _ _ _ Hr) as (_ & R1 & R2). destruct (string_dec id' id) as [->|Hne]; [destruct (R1 _ Hs)|]. apply (R2 id' c Hne). exact Hs.
Qed.

Lemma relaxing_run E A ops : Forall relaxing ops -> allows_more A (aset_run E A ops).
Proof.
  intro H. unfold aset_run. revert A. induction H as [|o ops Ho _ IH]; intro A; cbn [fold_left]; [apply more_refl|]. eapply more_trans; [apply relaxing_more, Ho|apply IH].
Qed.

(** ** A wider interval with fewer reachable values *)
Definition wops (lo : Z) := [OSetAttr "step_type" (PStr "absolute"); OSetAttr "step_size" (PInt 4); OIndexSet (IStr "a") "bounds" (PList [PInt lo; PInt 10; PStr "absolute"]); OUpdateGrid 0].
Definition wsc lo := mk env0 [[z 0]; [z 3]; [z 10]] ["a"] 1 (wops lo) PyMIP [z 1] (- z 12) CTotal [z 0].
Definition wtest (lo : Z) (b : builder) : bool :=
  match as_elems (bd_A b) with
  | [e] => (e_lb e =? z lo) && (e_ub e =? z 10) && (if list_eq_dec Qc_eq_dec (e_values e) [z 0; z 3; z 10] then true else false) &&
           (match e_vtype e with TInt => true | _ => false end) && e_actionable e && (match e_step_type e with AbsoluteStep => true | _ => false end) && (e_step_size e =? z 4) && (e_step_dir e =? 0)%Z
  | _ => false
  end && (if list_eq_dec string_dec (as_names (bd_A b)) ["a"] then true else false) && (as_y (bd_A b) =? 1)%Z && (if list_eq_dec Qc_eq_dec (bd_w b) [z 1] then true else false) && (bd_t b =? - z 12) && (match bd_cost b with CTotal => true | _ => false end) &&
  (bd_min b =? 0)%Z && (bd_max b =? 1)%Z && good_setupb env0 b [z 0] && fitsb (bd_A b) [z 0].
Lemma wtest_ok lo b : wtest lo b = true -> (exists e, as_elems (bd_A b) = [e] /\ e_lb e = z lo /\ e_ub e = z 10 /\ e_values e = [z 0; z 3; z 10] /\ e_vtype e = TInt /\ e_actionable e = true /\ e_step_type e = AbsoluteStep /\ e_step_size e = z 4 /\ e_step_dir e = 0%Z) /\
  as_names (bd_A b) = ["a"] /\ as_y (bd_A b) = 1%Z /\ bd_w b = [z 1] /\ bd_t b = - z 12 /\ bd_cost b = CTotal /\ bd_min b = 0%Z /\ bd_max b = 1%Z /\ plain_setup env0 b [z 0] /\ fits_grids (bd_A b) [z 0].
Proof.
  unfold wtest. intro H. do 9 (apply andb_true_iff in H; destruct H as [H ?]).
  destruct (as_elems (bd_A b)) as [|e [|? ?]]; try discriminate H. do 7 (apply andb_true_iff in H; destruct H as [H ?]).
  split.
  - exists e. destruct (list_eq_dec Qc_eq_dec (e_values e) _) as [EV|]; [|discriminate]. destruct (e_vtype e); try discriminate. destruct (e_step_type e); try discriminate. qbool. repeat split; auto. now apply Z.eqb_eq.
  - destruct (list_eq_dec string_dec _ _) as [EN|]; [|discriminate]. destruct (list_eq_dec Qc_eq_dec (bd_w b) _) as [EW|]; [|discriminate]. destruct (bd_cost b); try discriminate.
    repeat match goal with K : (_ =? _)%Z = true |- _ => apply Z.eqb_eq in K end. qbool. split; [exact EN|]. split; [assumption|]. split; [exact EW|]. split; [assumption|]. split; [reflexivity|]. split; [assumption|]. split; [assumption|]. split; [now apply good_setupb_ok|now apply fitsb_ok].
Qed.
Lemma widen_refuted : exists b b' x b0 b0', (forall sv, assigned env0 sv b x b0) /\ (forall sv, assigned env0 sv b' x b0') /\
  Forall2 wider_bounds (as_elems (bd_A b)) (as_elems (bd_A b')) /\ as_names (bd_A b') = as_names (bd_A b) /\ as_y (bd_A b') = as_y (bd_A b) /\ bd_w b' = bd_w b /\ bd_t b' = bd_t b /\ bd_cost b' = bd_cost b /\ bd_min b' = bd_min b /\ bd_max b' = bd_max b /\
  plain_setup env0 b x /\ fits_grids (bd_A b) x /\ plain_setup env0 b' x /\ fits_grids (bd_A b') x /\
  forall sv, sound_solver sv -> finishing_solver sv -> (exists b1 s, fit sv b0 = Ok (b1, Some s)) /\ exists b1, fit sv b0' = Ok (b1, None).
Proof.
  destruct (sc_check_ok (wsc 0) (fun b b0 => fit_test b0 some_b && wtest 0 b)) as (b & b0 & H & HT); [vm_compute; reflexivity|].
  destruct (sc_check_ok (wsc (-1)) (fun b b0 => fit_test b0 none_b && wtest (-1) b)) as (b' & b0' & H' & HT'); [vm_compute; reflexivity|].
  apply andb_true_iff in HT, HT'. destruct HT as [HT W], HT' as [HT' W']. apply wtest_ok in W, W'.
  destruct W as ((e & EE & L & U & V & T & AC & ST & SS & SD) & N & Y & EW & ET & EC & EM & EX & PS & FG). destruct W' as ((e' & EE' & L' & U' & V' & T' & AC' & ST' & SS' & SD') & N' & Y' & EW' & ET' & EC' & EM' & EX' & PS' & FG').
  exists b, b', [z 0], b0, b0'. split; [exact (sc_assigned _ _ _ H)|]. split; [exact (sc_assigned _ _ _ H')|]. split.
  { rewrite EE, EE'. constructor; [|constructor]. unfold wider_bounds. rewrite L, U, V, T, AC, ST, SS, SD, L', U', V', T', AC', ST', SS', SD'. repeat split; try reflexivity; apply qle_iff; reflexivity. }
  split; [congruence|]. split; [congruence|]. split; [congruence|]. split; [congruence|]. split; [congruence|]. split; [congruence|]. split; [congruence|]. split; [exact PS|]. split; [exact FG|]. split; [exact PS'|]. split; [exact FG'|].
  intros sv S F. split.
  - destruct (sc_fit _ _ _ some_b H env0_ok HT sv S F) as (b1 & [s|] & Hf & Ht); [eauto|discriminate Ht].
  - destruct (sc_fit _ _ _ none_b H' env0_ok HT' sv S F) as (b1 & [s|] & Hf & Ht); [discriminate Ht|eauto].
Qed.

(** ** When wider bounds do allow more *)
Lemma wider_grid e e' g g' : wider_bounds e e' -> e_step_type e = AbsoluteStep -> is_grid_of e g -> is_grid_of e' g' ->
  (forall v, nth_error g 0 = Some v -> In v g') -> forall v, In v g -> In v g'.
Proof.
  intros (HL & HU & HV & HT & HA & HST & HSS & HSD) Hst (lo & hi & s & last & F & T & ST & P & N0 & HG & NL & L1 & L2) (lo' & hi' & s' & last' & F' & T' & ST' & P' & N0' & HG' & NL' & L1' & L2') H0 v Hv.
  assert (ES : s' = s). { unfold grid_step_is in *. rewrite HST, HT, HSS, Hst in *. destruct (e_vtype e); [congruence| |congruence]. destruct ST as (I1 & A1 & A2), ST' as (I2 & B1 & B2). apply int_between; auto; qlra. }
  assert (EH : hi <= hi'). { unfold grid_to in *. rewrite HT in T'. destruct (e_vtype e); [subst; exact HU| |subst; exact HU]. destruct T as ((zi & ->) & A1 & A2), T' as ((zi' & ->) & B1 & B2). apply qz_le. assert (qz zi < qz (zi' + 1)) as K by (rewrite qz_plus, qz_1; qlra). apply (proj1 (qz_lt _ _)) in K. lia. }
  subst s'. pose proof (H0 lo N0) as Hlo. apply In_nth_error in Hlo. destruct Hlo as (k & Hk). apply In_nth_error in Hv. destruct Hv as (i & Hi).
  pose proof (HG _ _ Hi) as Ev. pose proof (HG' _ _ Hk) as El. assert (EV : v = lo' + qz (Z.of_nat (k + i)) * s) by (rewrite Nat2Z.inj_add, qz_plus, Ev, El; ring).
  destruct (nth_error g' (k + i)) as [u|] eqn:Hu; [pose proof (HG' _ _ Hu); apply nth_error_In in Hu; congruence|]. exfalso.
  apply nth_error_None in Hu. assert (length g' <> 0%nat) by (destruct g'; [discriminate N0'|discriminate]).
  pose proof (HG' _ _ NL') as E1. pose proof (HG _ _ NL) as E2. assert (i < length g)%nat by (apply nth_error_Some; congruence).
  assert (A1 : qz (Z.of_nat (pred (length g')) + 1) * s <= qz (Z.of_nat (k + i)) * s) by (apply qmul_le_r; [qlra|apply qz_le; lia]). rewrite qz_plus, qz_1 in A1.
  assert (A2 : qz (Z.of_nat i) * s <= qz (Z.of_nat (pred (length g))) * s) by (apply qmul_le_r; [qlra|apply qz_le; lia]).
  assert (v <= last) by (rewrite Ev, E2; qlra). assert (last' + s <= v) by (rewrite EV, E1; qlra). qlra.
Qed.

Definition sc105 := mk env0 tab2 ["a"; "b"] 1 [OIndexSet (IStr "a") "actionable" (PBool false)] PyMIP [z 1; z 1] (- z 3) CTotal x01.
Lemma widen_case : exists b b' x b0 b0', (forall sv, assigned env0 sv b x b0) /\ (forall sv, assigned env0 sv b' x b0') /\ relaxing op67 /\ bd_A b' = aset_step env0 (bd_A b) op67 /\ allows_more (bd_A b) (bd_A b') /\
  (n_actionable_features (bd_A b) < n_actionable_features (bd_A b'))%nat /\ bd_w b' = bd_w b /\ bd_t b' = bd_t b /\ (bd_max b <= bd_max b')%Z /\
  orderly env0 (bd_A b) (bd_w b) x /\ flips_match (bd_A b) (bd_w b) /\ good_setup env0 b' x /\ no_coarser (bd_A b) (bd_A b') x /\
  forall sv, sound_solver sv -> finishing_solver sv -> exists b1 s, fit sv b0 = Ok (b1, Some s).
Proof.
  destruct (sc_check_ok sc105 (fun b b0 => fit_test b0 some_b && good_setupb env0 b x01 && let b1 := with_aset b (aset_step env0 (bd_A b) op67) in good_setupb env0 b1 x01 && fitsb (bd_A b1) x01 && Nat.ltb (n_actionable_features (bd_A b)) (n_actionable_features (bd_A b1)) &&
     match snd (set_x env0 b1 x01) with Ok _ => true | _ => false end)) as (b & b0 & H & HT); [vm_compute; reflexivity|]. cbv zeta in HT.
  apply andb_true_iff in HT. destruct HT as [HT HT1]. apply andb_true_iff in HT. destruct HT as [HT G0]. do 3 (apply andb_true_iff in HT1; destruct HT1 as [HT1 ?]).
  set (b1 := with_aset b (aset_step env0 (bd_A b) op67)) in *. destruct (set_x env0 b1 x01) as [b0' r] eqn:EX. cbn [snd] in H0. destruct r as [[]|]; [|discriminate H0].
  apply good_setupb_ok in G0. apply good_setupb_ok in HT1. destruct G0 as (_ & G1 & G2 & _), HT1 as (_ & GG).
  assert (RX : relaxing op67) by (left; auto). pose proof (sc_assigned _ _ _ H) as HA. change (sc_env sc105) with env0 in HA. change (sc_x sc105) with x01 in HA.
  exists b, b1, x01, b0, b0'. split; [exact HA|]. split; [intro sv; split; [apply (reach_step env0 sv b (BAset op67)), HA|exact EX]|]. split; [exact RX|]. split; [reflexivity|]. split; [apply relaxing_more, RX|].
  split; [now apply Nat.ltb_lt|]. split; [reflexivity|]. split; [reflexivity|]. split; [apply Z.le_refl|]. split; [exact G1|]. split; [exact G2|]. split; [exact GG|]. split; [now apply fits_no_coarser, fitsb_ok|].
  intros sv S F. destruct (sc_fit _ _ _ some_b H env0_ok HT sv S F) as (b2 & [s|] & Hf & Ht); [eauto|discriminate Ht].
Qed.
