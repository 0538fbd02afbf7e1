(** Proofs for C129. *)
From Verif Require Import Spec_cheaper Proofs_props_element Proofs_props_actionset Proofs_actionset Proofs_registry Proofs_builder Proofs_builder3 Proofs_builder6 Proofs_builder8 Proofs_concrete Proofs_scen Proofs_scen2 Proofs_binding Proofs_session Proofs_assign3 Proofs_widen Proofs_pareto.
#[local] Open Scope string_scope.
#[local] Open Scope list_scope.
#[local] Open Scope Qc_scope.

Lemma prices_costs E ct A A' x a cs : same_prices E A A' -> action_costs E ct A x a cs -> action_costs E ct A' x a cs.
Proof.
  intros HP [L H]. split; [exact L|]. intros j e' xj aj c He' Hx Ha Hc. unfold same_prices in HP. apply Forall2_nth in HP. destruct HP as [HL HP].
  destruct (nth_error (as_elems A) j) as [e|] eqn:He; [|apply nth_error_None in He; assert (j < length (as_elems A'))%nat by (apply nth_error_Some; congruence); lia].
  destruct (H j e xj aj c He Hx Ha Hc) as [K|[N (p & q & K1 & K2 & K3)]]; [now left|]. right. split; [exact N|]. exists p, q. rewrite !(HP j e e' He He'). auto.
Qed.
Section Two.
Context (E : env) (sv sv' : solver) (b b' : builder) (x : list Qc) (b0 b0' b1 : builder) (s : sol).
Context (HE : ok_env E) (HS : sound_solver sv) (HF : finishing_solver sv) (HS' : sound_solver sv') (HF' : finishing_solver sv') (HD : density E) (HL : log_ok E (bd_cost b)).
Context (HA : assigned E sv b x b0) (HA' : assigned E sv' b' x b0') (HM : allows_more (bd_A b) (bd_A b')) (HP : same_prices E (bd_A b) (bd_A b')).
Context (EW : bd_w b' = bd_w b) (ET : bd_t b' = bd_t b) (EC : bd_cost b' = bd_cost b) (EX : (bd_max b <= bd_max b')%Z).
Context (HO : orderly E (bd_A b) (bd_w b) x) (HFl : flips_match (bd_A b) (bd_w b)) (HG : good_setup E b' x) (HR : regular E (bd_A b') x).
Context (Hf : fit sv b0 = Ok (b1, Some s)).
Lemma cheaper_exists : exists b1' s', fit sv' b0' = Ok (b1', Some s').
Proof.
  eapply (widen_thm E E sv sv' b b' x b0 b0' b1 s); eauto; [now rewrite EC|]. apply fits_no_coarser. intros j e xj He Hx. exact (proj1 (proj2 HR j e xj He Hx)).
Qed.
Lemma carried : permitted_action (bd_A b') x (s_actions s) /\ (Z.of_nat (n_changed (s_actions s)) <= bd_max b')%Z /\ on_side (as_y (bd_A b')) (score (bd_w b') (bd_t b') (vadd x (s_actions s))) /\
  compliant (bd_A b') x (s_actions s) /\ action_costs E (bd_cost b') (bd_A b') x (s_actions s) (s_costs s).
Proof.
  destruct (fit_some E sv b x b0 HE HS HA b1 s Hf) as (K1 & K2 & K3). pose proof (fit_compliant E sv b x b0 HE HS HA b1 s Hf HO HFl) as K4.
  assert (Hs : session sv b0 ([s] ++ []) b1) by (exact (ses_fit sv b0 b1 (Some s) [] b1 Hf (ses_done sv b1))).
  pose proof (item_costs E sv b x b0 HE HS HA _ b1 s Hs (or_introl eq_refl)) as K5.
  split; [eapply more_permitted; eauto|]. split; [unfold size_between in K2; lia|]. split; [destruct HM as (_ & EY & _); now rewrite EY, EW, ET|]. split; [eapply more_compliant; eauto|]. rewrite EC. now apply (prices_costs E _ (bd_A b)).
Qed.
Lemma cheaper_sum : bd_cost b <> CMax -> exists b1' s', fit sv' b0' = Ok (b1', Some s') /\ s_cost s' <= s_cost s.
Proof.
  intro NC. destruct cheaper_exists as (b1' & s' & Hf'). exists b1', s'. split; [exact Hf'|]. destruct carried as (C1 & C2 & C3 & C4 & C5).
  assert (Hs : session sv b0 ([s] ++ []) b1) by (exact (ses_fit sv b0 b1 (Some s) [] b1 Hf (ses_done sv b1))).
  rewrite (proj2 (c29_costs E sv b x b0 _ b1 s HE HS HA NC Hs (or_introl eq_refl))).
  apply (c29_thm E sv' b' x b0' b1' s' (s_actions s) (s_costs s)); auto; rewrite EC; auto.
Qed.
Lemma cheaper_max : bd_cost b = CMax -> exists b1' s', fit sv' b0' = Ok (b1', Some s') /\ (s_cost s <= s_cost s' -> qsum (s_costs s') <= qsum (s_costs s)) /\ (qsum (s_costs s) <= qsum (s_costs s') -> s_cost s' <= s_cost s).
Proof.
  intro NC. destruct cheaper_exists as (b1' & s' & Hf'). exists b1', s'. split; [exact Hf'|]. destruct carried as (C1 & C2 & C3 & C4 & C5).
  assert (Hs : session sv b0 ([s] ++ []) b1) by (exact (ses_fit sv b0 b1 (Some s) [] b1 Hf (ses_done sv b1))).
  pose proof (proj2 (c30_costs E sv b x b0 _ b1 s HE HS HF HA NC Hs (or_introl eq_refl))) as LG.
  assert (HL' : log_ok E (bd_cost b')) by now rewrite EC. assert (NC' : bd_cost b' = CMax) by congruence.
  exact (c30_undominated E sv' b' x b0' b1' s' (s_actions s) (s_costs s) (s_cost s) HE HS' HF' HD HL' HA' HG HR NC' Hf' C1 C2 C3 C4 C5 LG).
Qed.
End Two.

(** Edits that only allow more keep the prices. *)
Definition alike E (e e' : element) : Prop := forall v, percentile E e' v = percentile E e v.
Lemma alike_list_refl E es : Forall2 (alike E) es es.
Proof. induction es; constructor; unfold alike; auto. Qed.
Lemma alike_list_set E es p e e' : nth_error es p = Some e -> alike E e e' -> Forall2 (alike E) es (list_set p e' es).
Proof.
  revert p. induction es as [|a es IH]; intros [|p] H W; cbn in *; try discriminate H.
  - injection H as ->. constructor; [exact W|apply alike_list_refl].
  - constructor; [unfold alike; auto|now apply IH].
Qed.
Lemma alike_list_trans E l1 l2 l3 : Forall2 (alike E) l1 l2 -> Forall2 (alike E) l2 l3 -> Forall2 (alike E) l1 l3.
Proof. intro H. revert l3. induction H; intros l3 K; inversion K; subst; constructor; unfold alike in *; [congruence|auto]. Qed.
Lemma alike_set E e v e' n : (n = "actionable" /\ v = PBool true) \/ (n = "step_direction" /\ v = PInt 0) -> elem_setattr n v e = Ok e' -> alike E e e'.
Proof. intros [[-> ->]|[-> ->]] H; cbn in H; injection H as <-; intro u; reflexivity. Qed.
Lemma assign_alike E n vals work es v : (n = "actionable" /\ v = PBool true) \/ (n = "step_direction" /\ v = PInt 0) -> Forall (eq v) vals -> Forall2 (alike E) es (fst (assign_loop n vals work es)).
Proof.
  intros HN HV. revert es. induction work as [|[p j] work IH]; intro es; cbn [assign_loop]; [apply alike_list_refl|].
  destruct (nth_error es p) as [e|] eqn:He; [|apply alike_list_refl]. destruct (nth_error vals j) as [u|] eqn:Hu; [|apply alike_list_refl].
  rewrite Forall_forall in HV. pose proof (HV u (nth_error_In _ _ Hu)) as <-. destruct (elem_setattr n v e) as [e'|] eqn:Hs; [|apply alike_list_refl].
  eapply alike_list_trans; [|apply IH]. eapply alike_list_set; eauto using alike_set.
Qed.
Lemma index_alike E A i n v : (n = "actionable" /\ v = PBool true) \/ (n = "step_direction" /\ v = PInt 0) -> same_prices E A (fst (index_setattr A i n v)).
Proof.
  intro H. change (Forall2 (alike E) (as_elems A) (as_elems (fst (index_setattr A i n v)))). unfold index_setattr. destruct (select A i) as [ps|]; [|apply alike_list_refl].
  assert (K1 : Forall2 (alike E) (as_elems A) (as_elems (fst (match ps with
          | [p] => match nth_error (as_elems A) p with
                   | Some e => match elem_setattr n v e with
                               | Ok e' => (with_elems A (list_set p e' (as_elems A)), Ok tt)
                               | Err x => (A, Err x)
                               end
                   | None => (A, Err KeyError)
                   end
          | _ => (A, Err KeyError)
          end)))).
  { destruct ps as [|p [|q ps]]; try apply alike_list_refl. destruct (nth_error (as_elems A) p) as [e|] eqn:He; [|apply alike_list_refl]. destruct (elem_setattr n v e) as [e'|] eqn:Hs; [|apply alike_list_refl].
    cbn. eapply alike_list_set; eauto using alike_set. }
  assert (K2 : Forall2 (alike E) (as_elems A) (as_elems (fst (if elem_hasattr n then
            let work := slice_dict A ps in
            match expand_values v (length work) with
            | Err x => (A, Err x)
            | Ok vals =>
                let '(es, r) := assign_loop n vals work (as_elems A) in
                (with_elems A es, r)
            end
          else (A, Err AssertionError))))).
  { destruct (elem_hasattr n); [|apply alike_list_refl]. cbv zeta. destruct (expand_values v _) as [vals|] eqn:Ev; [|apply alike_list_refl].
    pose proof (assign_alike E n vals (slice_dict A ps) (as_elems A) v H) as K. destruct (assign_loop _ _ _ _) as [es r]. cbn [fst] in *. apply K. eapply expand_const; [|exact Ev]. destruct H as [(_ & ->)|(_ & ->)]; auto. }
  destruct i; assumption.
Qed.
Lemma relaxing_prices E A o : relaxing o -> same_prices E A (aset_step E A o).
Proof.
  unfold same_prices. change (relaxing o -> Forall2 (alike E) (as_elems A) (as_elems (aset_step E A o))).
  destruct o; cbn [relaxing aset_step]; intro H; try destruct H.
  1, 2 : unfold set_setattr; destruct (elem_hasattr attr); [|apply alike_list_refl]; destruct (expand_values v (as_len A)) as [vals|] eqn:Ev; [|apply alike_list_refl];
    pose proof (assign_alike E attr vals (map (fun j => (j, j)) (seq 0 (as_len A))) (as_elems A) v) as K; destruct (assign_loop _ _ _ _) as [es r]; cbn [fst] in *; apply K; [auto|]; eapply expand_const; [|exact Ev]; destruct H as (_ & ->); auto.
  1, 2 : apply index_alike; auto.
  - unfold on_elem. destruct (nth_error (as_elems A) j) as [e|] eqn:He; [|apply alike_list_refl]. cbn. eapply alike_list_set; [exact He|]. intro u. apply c14_touch.
  - destruct (remove_constraint A id) as [A'|] eqn:HR; [|apply alike_list_refl]. unfold remove_constraint in HR. bnd HR as r Hr. injection HR as <-. apply alike_list_refl.
Qed.
Lemma relaxing_run_prices E A ops : Forall relaxing ops -> same_prices E A (aset_run E A ops).
Proof.
  intro H. unfold aset_run. revert A. induction H as [|o ops Ho _ IH]; intro A; cbn [fold_left]; [apply alike_list_refl|]. eapply alike_list_trans; [apply (relaxing_prices E A o Ho)|apply IH].
Qed.
