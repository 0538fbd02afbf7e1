(** What subset limits limit: exactly what is looked for, and found. *)
From Verif Require Import Proofs_props_element Proofs_props_actionset Spec_lineup Proofs_mip Proofs_info Proofs_vec Proofs_build Proofs_enum Proofs_session Proofs_recourse Proofs_subset Proofs_exchange Proofs_builder Proofs_builder2 Proofs_builder3 Proofs_builder5 Proofs_lineup Proofs_concrete Proofs_scen Proofs_scen2.
#[local] Open Scope list_scope.
#[local] Open Scope Qc_scope.

Section Sought.
Context (E : env) (b : builder) (x : list Qc) (b0 : builder).
Context (HE : ok_env E).
(** Every helpful change is offered, whatever the order. *)
Lemma offered_worthwhile ms j e xj wj aj p : flips_match (bd_A b) (bd_w b) -> ready E b x b0 ms ->
  nth_error (as_elems (bd_A b)) j = Some e -> nth_error x j = Some xj -> nth_error (bd_w b) j = Some wj -> permitted e xj (xj + aj) -> aj <> 0 ->
  representable e xj -> qfrac 1 100000000 < qabs aj -> move_cost E (bd_cost b) e xj (xj + aj) p -> 0 < p ->
  constrained_at (bd_A b) j \/ attains (as_y (bd_A b)) (wj * aj) -> exists i k, In i (ms_infos ms) /\ i_idx i = j /\ (0 < k < nopt i)%nat /\ act i k = aj.
Proof.
  intros HFl R He Hx Hw Hp Ha HRp HRv Hmc Hpp D. pose proof (rd_wf _ _ _ _ _ R) as HA. pose proof (rd_info _ _ _ _ _ R) as HI.
  assert (Hne : xj + aj <> xj) by (intro E0; apply Ha; replace aj with (xj + aj - xj) by ring; rewrite E0; ring).
  assert (ISC : isclose0 (xj + aj - xj) = false) by (replace (xj + aj - xj) with aj by ring; unfold isclose0; qbool; exact HRv).
  assert (Lj : (j < length (as_names (bd_A b)))%nat) by (change (j < as_len (bd_A b))%nat; rewrite <- (wf_len _ _ HA); apply nth_error_Some; congruence).
  destruct (nth_error (as_names (bd_A b)) j) as [n|] eqn:En; [|apply nth_error_None in En; lia].
  pose proof (build_info_spec E (bd_A b) (bd_cost b) (bd_w b) x (ms_infos ms) HE HA HI) as (_ & _ & _ & HU & (_ & HC & _) & _).
  assert (FIN : (exists i k, In i (ms_infos ms) /\ i_idx i = j /\ (0 < k < nopt i)%nat /\ act i k = xj + aj - xj /\ cst i k = p) ->
    exists i k, In i (ms_infos ms) /\ i_idx i = j /\ (0 < k < nopt i)%nat /\ act i k = aj).
  { intros (i & k & K1 & K2 & K3 & K4 & _). exists i, k. split; [exact K1|]. split; [exact K2|]. split; [exact K3|]. rewrite K4. ring. }
  destruct (constrained_dec E (bd_A b) j HE HA) as [C|C].
  - apply FIN. apply (HC j e xj n (xj + aj) p En He Hx); auto. now apply (constrained_iff E (bd_A b) j n HE HA En).
  - destruct D as [D|D]; [contradiction|]. replace (wj * aj) with (wj * (xj + aj - xj)) in D by ring. apply FIN. apply (HU j e xj n (xj + aj) p En He Hx); auto.
    + eapply (attains_compatible E (bd_A b) (bd_w b)); eauto.
    + intro K. apply C. now apply (constrained_iff E (bd_A b) j n HE HA En).
    + eapply (attains_improving E (bd_A b) (bd_w b)); eauto.
Qed.
Lemma regular_priced A a : wf_aset E A -> density E -> log_ok E (bd_cost b) -> regular E A x -> permitted_action A x a -> priced E (bd_cost b) A x a.
Proof.
  intros HA HD HL HR [La HP] j e xj aj He Hx Haj Ha.
  assert (Hne : xj + aj <> xj) by (intro E0; apply Ha; replace aj with (xj + aj - xj) by ring; rewrite E0; ring).
  pose proof (HP j e xj aj He Hx Haj) as Hp. destruct (proj2 HR j e xj He Hx) as [HRp HRv]. specialize (HRv _ Hp Hne). replace (xj + aj - xj) with aj in HRv by ring.
  assert (RE : elem_reachable E e). { destruct HA as (_ & _ & H3 & _). rewrite Forall_forall in H3. apply H3. eapply nth_error_In, He. }
  destruct (strict_price E (bd_cost b) e xj _ RE (fun pdf u => HD _ pdf u) HL (proj1 HR j e xj He Hx) Hp Hne) as (p & Hmc & Hpp).
  split; [exact HRp|]. split; [exact HRv|]. exists p. auto.
Qed.
Lemma sought_choice ms a : flips_match (bd_A b) (bd_w b) ->
  ready E b x b0 ms -> sought b (map i_idx (ms_infos ms)) x a -> priced E (bd_cost b) (bd_A b) x a ->
  exists ch, accept (bd_A b) (bd_w b) (bd_t b) (bd_min b) (bd_max b) x (ms_infos ms) ch /\ avec (as_len (bd_A b)) (ms_infos ms) ch = a.
Proof.
  intros HFl R ([La HP] & HH & HZ & HO & HLm) HPr. pose proof (rd_infos _ _ _ _ _ R) as HW.
  set (ch := counterpart (ms_infos ms) a).
  assert (CO : ch_ok (ms_infos ms) ch).
  { intros i Hi. unfold ch, counterpart. rewrite (info_at_In _ _ (proj2 HW) Hi). destruct (first_eq (nth (i_idx i) a 0) (i_actions i)) as [k|] eqn:Ek.
    - apply first_eq_spec in Ek. unfold nopt. apply nth_error_Some. congruence.
    - pose proof (wi_len _ (wfi' _ HW i Hi)). lia. }
  assert (EQ : avec (as_len (bd_A b)) (ms_infos ms) ch = a).
  { apply nth_ext with (d := 0) (d' := 0); unfold avec; rewrite ?scatter_length; [now symmetry|]. fold (avec (as_len (bd_A b)) (ms_infos ms) ch).
    intros j Lj. destruct (nth_all (as_len (bd_A b)) (as_elems (bd_A b)) j (rd_el _ _ _ _ _ R) Lj) as (e & He).
    destruct (nth_all (as_len (bd_A b)) x j (rd_x _ _ _ _ _ R) Lj) as (xj & Hx). destruct (nth_all (as_len (bd_A b)) (bd_w b) j (rd_w _ _ _ _ _ R) Lj) as (c & Hc).
    destruct (nth_all (as_len (bd_A b)) a j La Lj) as (aj & Ha). specialize (HH j c aj Hc Ha).
    rewrite (nth_error_nth _ _ _ (avec_nth (ms_infos ms) (as_len (bd_A b)) ch j Lj)), (nth_error_nth _ _ _ Ha).
    assert (OK : forall i, In i (ms_infos ms) -> i_idx i = j -> In aj (i_actions i) -> match info_at (ms_infos ms) j with Some i => act i (ch j) | None => 0 end = aj).
    { intros i Hi <- Hin. rewrite (info_at_In _ _ (proj2 HW) Hi). unfold ch, counterpart. rewrite (info_at_In _ _ (proj2 HW) Hi), (nth_error_nth _ _ _ Ha).
      destruct (first_eq_In aj (i_actions i) Hin) as (k & Hk). rewrite Hk. unfold act. apply nth_error_nth. now apply first_eq_spec. }
    destruct (qeq_spec aj 0) as [Z0|NZ].
    - destruct (info_at (ms_infos ms) j) as [i|] eqn:Ei; [|now symmetry]. apply info_at_Some in Ei. destruct Ei as [Hi Hij].
      assert (I0 : In aj (i_actions i)).
      { rewrite Z0, <- (wi_a0 _ (wfi' _ HW i Hi)). apply nth_In. pose proof (wi_len _ (wfi' _ HW i Hi)) as Q. unfold nopt in Q. lia. }
      exact (OK i Hi Hij I0).
    - destruct (HPr j e xj aj He Hx Ha NZ) as (P1 & P2 & p & P3 & P4).
      destruct (offered_worthwhile ms j e xj c aj p HFl R He Hx Hc (HP j e xj aj He Hx Ha) NZ P1 P2 P3 P4 (HH NZ)) as (i & k & Hi & Hj & Hk & Hact).
      apply (OK i Hi Hj). rewrite <- Hact. apply nth_In. unfold nopt in Hk. lia. }
  exists ch. split; [|exact EQ]. split; [exact CO|]. split; [|split].
  - rewrite <- (avec_score E (bd_A b) (bd_cost b) (bd_w b) x (ms_infos ms) _ (rd_infos _ _ _ _ _ R) (rd_ok _ _ _ _ _ R) (rd_el _ _ _ _ _ R) (rd_w _ _ _ _ _ R) (rd_x _ _ _ _ _ R)). now rewrite EQ.
  - unfold size_between in HZ. rewrite <- (avec_changed E (bd_A b) (bd_cost b) (bd_w b) x (ms_infos ms) _ (rd_infos _ _ _ _ _ R) (rd_ok _ _ _ _ _ R) eq_refl (rd_el _ _ _ _ _ R) (rd_w _ _ _ _ _ R) (rd_x _ _ _ _ _ R) _ CO). now rewrite EQ.
  - apply (slots_iff E (bd_A b) (bd_cost b) (bd_w b) x (ms_infos ms)); eauto using rd_wf, rd_info. now rewrite EQ.
Qed.
Lemma choice_cvec ms ch a cs : ready E b x b0 ms -> ch_ok (ms_infos ms) ch -> avec (as_len (bd_A b)) (ms_infos ms) ch = a -> length a = as_len (bd_A b) -> action_costs E (bd_cost b) (bd_A b) x a cs ->
  cvec (as_len (bd_A b)) (ms_infos ms) ch = cs.
Proof.
  intros R Hch EQ La Hcs.
  assert (CV : action_costs E (bd_cost b) (bd_A b) x a (cvec (as_len (bd_A b)) (ms_infos ms) ch)).
  { rewrite <- EQ at 1. eapply (avec_costs E); eauto using rd_ok, rd_el, rd_infos, rd_w, rd_x. }
  apply nth_ext with (d := 0) (d' := 0); destruct CV as [L1 CV], Hcs as [L2 Hcs]; [congruence|]. intros j Lj.
  assert (Lj' : (j < as_len (bd_A b))%nat) by lia.
  destruct (nth_all (as_len (bd_A b)) (as_elems (bd_A b)) j (rd_el _ _ _ _ _ R) Lj') as (e & He).
  destruct (nth_all (as_len (bd_A b)) x j (rd_x _ _ _ _ _ R) Lj') as (xj & Hx). destruct (nth_all (as_len (bd_A b)) a j La Lj') as (aj & Ha).
  destruct (nth_all (as_len (bd_A b)) cs j ltac:(congruence) Lj') as (c1 & Hc1). destruct (nth_all (as_len (bd_A b)) (cvec (as_len (bd_A b)) (ms_infos ms) ch) j ltac:(congruence) Lj') as (c2 & Hc2).
  rewrite (nth_error_nth _ _ _ Hc1), (nth_error_nth _ _ _ Hc2).
  destruct (Hcs j e xj aj c1 He Hx Ha Hc1) as [[Z1 ->]|[Z1 M1]], (CV j e xj aj c2 He Hx Ha Hc2) as [[Z2 ->]|[Z2 M2]]; try congruence. eapply move_cost_fun; eauto.
Qed.
Lemma choice_sum ms ch a cs : ready E b x b0 ms -> ch_ok (ms_infos ms) ch -> avec (as_len (bd_A b)) (ms_infos ms) ch = a -> length a = as_len (bd_A b) -> action_costs E (bd_cost b) (bd_A b) x a cs ->
  qsum (chosen_costs (ms_infos ms) ch) = qsum cs.
Proof.
  intros R Hch EQ La Hcs. rewrite <- (cvec_sum E (bd_A b) (bd_cost b) (bd_w b) x (ms_infos ms) (as_len (bd_A b)) (rd_infos _ _ _ _ _ R) (rd_ok _ _ _ _ _ R) (rd_el _ _ _ _ _ R)). f_equal.
  now apply (choice_cvec ms ch a cs).
Qed.
End Sought.

Lemma item_priced E b x b0 ms ch : ready E b x b0 ms -> ch_ok (ms_infos ms) ch -> priced E (bd_cost b) (bd_A b) x (avec (as_len (bd_A b)) (ms_infos ms) ch).
Proof.
  intros R Hc j e xj aj He Hx Haj Ha. assert (Lj : (j < as_len (bd_A b))%nat) by (rewrite <- (rd_el _ _ _ _ _ R); apply nth_error_Some; congruence).
  rewrite (avec_nth (ms_infos ms) (as_len (bd_A b)) ch j Lj) in Haj. destruct (info_at (ms_infos ms) j) as [i|] eqn:Ei; [|congruence].
  apply info_at_Some in Ei. destruct Ei as [Hi <-]. injection Haj as <-. pose proof (rd_ok _ _ _ _ _ R) as HO. rewrite Forall_forall in HO. destruct (HO i Hi) as (e' & xj' & N).
  rewrite (en_elem _ _ _ _ _ _ _ _ N) in He. injection He as ->. rewrite (en_x _ _ _ _ _ _ _ _ N) in Hx. injection Hx as ->.
  assert (K : (0 < ch (i_idx i) < nopt i)%nat).
  { split; [|exact (Hc i Hi)]. destruct (ch (i_idx i)) as [|k] eqn:Ek; [|lia]. exfalso. apply Ha. exact (wi_a0 _ (wfi' _ (rd_infos _ _ _ _ _ R) i Hi)). }
  split; [exact (en_rep _ _ _ _ _ _ _ _ N)|]. split; [pose proof (en_far _ _ _ _ _ _ _ _ N _ K) as F; unfold isclose0 in F; qbool; exact F|].
  exists (cst i (ch (i_idx i))). split; [exact (en_cost _ _ _ _ _ _ _ _ N _ K)|]. exact (proj1 (wi_pos _ (en_wf _ _ _ _ _ _ _ _ N) _ K)).
Qed.
Theorem lineup_exact E sv b x b0 : ok_env E -> sound_solver sv -> assigned E sv b x b0 -> flips_match (bd_A b) (bd_w b) ->
  exists slots, lineup (bd_A b) (bd_w b) x slots /\
    (forall l b1 s, session sv b0 l b1 -> In s l -> considered E b slots x (s_actions s)) /\
    (finishing_solver sv -> exists b1 r, fit sv b0 = Ok (b1, r) /\
       match r with
       | None => forall a, ~ considered E b slots x a
       | Some s => bd_cost b <> CMax -> forall a cs, considered E b slots x a -> action_costs E (bd_cost b) (bd_A b) x a cs -> s_cost s <= qsum cs
       end).
Proof.
  intros HE HS HA HFl. destruct (assigned_ready E sv b x b0 HE HA) as (ms & R). exists (map i_idx (ms_infos ms)).
  split; [eapply (line_up E (bd_A b) (bd_cost b) (bd_w b) x (ms_infos ms)); eauto using rd_wf, rd_info|]. split.
  - intros l b1 s Hs Hin. destruct (session_item E sv b x b0 HE HS HA _ _ _ Hs Hin) as (ms' & ch & R' & (Hc & _ & _ & Hr) & (Ha & _)).
    assert (ms' = ms) by (pose proof (gd_mip _ _ _ (rd_good _ _ _ _ _ R)); pose proof (gd_mip _ _ _ (rd_good _ _ _ _ _ R')); congruence). subst ms'.
    split; [|rewrite Ha; now apply (item_priced E b x b0)].
    split; [eapply (c25 E sv b x b0); eauto|]. split; [eapply (items_helpful E sv b x b0); eauto|]. split; [eapply (c31 E sv b x b0); eauto|]. split; [eapply (c26 E sv b x b0); eauto|].
    rewrite Ha. apply (slots_iff E (bd_A b) (bd_cost b) (bd_w b) x (ms_infos ms)); eauto using rd_wf, rd_info.
  - intros HF. destruct (fit_ready E sv b x b0 HS ms R) as (b1 & r & Hf & Hr). exists b1, r. split; [exact Hf|]. destruct r as [s|].
    + intros Hct a cs [Ha HP] Hcs. destruct Hr as (ch & Hch & (_ & _ & C1 & _) & HB). destruct (sought_choice E b x b0 HE ms a HFl R Ha HP) as (ch' & Hch' & EQ).
      rewrite (C1 Hct). specialize (HB HF ch' Hch'). rewrite <- (choice_sum E b x b0 ms ch' a cs R (proj1 Hch') EQ (proj1 (proj1 Ha)) Hcs).
      unfold choice_cost in HB. destruct (bd_cost b); [exact HB|exact HB|congruence].
    + intros a [Ha HP]. destruct (sought_choice E b x b0 HE ms a HFl R Ha HP) as (ch' & Hch' & _). exact (Hr HF ch' Hch').
Qed.
Lemma all_considered E sv b x b0 slots a : ok_env E -> density E -> log_ok E (bd_cost b) -> assigned E sv b x b0 -> regular E (bd_A b) x -> sought b slots x a -> considered E b slots x a.
Proof. intros HE HD HL HA HR Hs. destruct (assigned_ready E sv b x b0 HE HA) as (ms & R). split; [exact Hs|]. apply (regular_priced E b x); auto; [exact (rd_wf _ _ _ _ _ R)|]. apply Hs. Qed.

(** ** The example of the mix-up: the limit on b and c is applied to c and d. *)
Definition slotsb (b0 : builder) (l : list nat) : bool :=
  match bd_mip b0 with Some ms => if list_eq_dec Nat.eq_dec (map i_idx (ms_infos ms)) l then true else false | None => false end.
Lemma slots_case c slots js a : ok_env (sc_env c) ->
  sc_check c (fun b b0 => slotsb b0 slots && flipsb (bd_A b) (bd_w b) && strictb (sc_env c) (bd_A b) (sc_x c) && resolvableb (bd_A b) (sc_x c) && conb (bd_A b) "one" js 0 1 &&
     fit_test b0 (fun r => match r with None => false | Some (a', _, _) => listeqb a' a end)) = true ->
  exists b b0 cn, (forall sv, assigned (sc_env c) sv b (sc_x c) b0) /\ flips_match (bd_A b) (bd_w b) /\ regular (sc_env c) (bd_A b) (sc_x c) /\
    stored (as_cons (bd_A b)) "one" cn /\ c_indices cn = js /\ c_ub cn = 1%Z /\ lineup (bd_A b) (bd_w b) (sc_x c) slots /\
    (forall sv, sound_solver sv -> finishing_solver sv -> exists b1 s, fit sv b0 = Ok (b1, Some s) /\ s_actions s = a).
Proof.
  intros HE H. destruct (sc_check_ok _ _ H) as (b & b0 & HR & HT). do 5 (apply andb_true_iff in HT; destruct HT as [HT ?]).
  destruct (conb_ok _ _ _ _ _ H1) as (cn & C1 & C2 & _ & C4). exists b, b0, cn. pose proof (sc_assigned _ _ _ HR) as HA. split; [exact HA|].
  assert (HFl : flips_match (bd_A b) (bd_w b)) by now apply flipsb_ok. split; [exact HFl|].
  split; [split; [now apply strictb_ok|now apply resolvableb_ok]|]. split; [exact C1|]. split; [exact C2|]. split; [exact C4|]. split.
  - destruct (assigned_ready _ (fun _ _ => SUnknown) _ _ _ HE (HA _)) as (ms & R). unfold slotsb in HT. rewrite (gd_mip _ _ _ (rd_good _ _ _ _ _ R)) in HT.
    destruct (list_eq_dec Nat.eq_dec (map i_idx (ms_infos ms)) slots) as [<-|]; [|discriminate HT].
    eapply (line_up (sc_env c) (bd_A b) (bd_cost b) (bd_w b) (sc_x c) (ms_infos ms)); eauto using rd_wf, rd_info.
  - intros sv HS HF. destruct (sc_fit _ _ _ _ HR HE H0 sv HS HF) as (b1 & [s|] & Hf & Ht); [|discriminate Ht]. exists b1, s. split; [exact Hf|]. now apply listeqb_ok.
Qed.
Lemma slots_mixup : exists b b0 cn, let x := [z 0; z 0; z 0; z 0] in (forall sv, assigned env0 sv b x b0) /\ flips_match (bd_A b) (bd_w b) /\ regular env0 (bd_A b) x /\
    stored (as_cons (bd_A b)) "one" cn /\ c_indices cn = [1; 2]%nat /\ c_ub cn = 1%Z /\ lineup (bd_A b) (bd_w b) x [1; 2; 3]%nat /\
    (forall sv, sound_solver sv -> finishing_solver sv -> exists b1 s, fit sv b0 = Ok (b1, Some s) /\ s_actions s = [z 0; z 1; z 1; z 0]).
Proof. refine (slots_case (sc34 PyMIP) [1; 2; 3]%nat [1; 2]%nat [z 0; z 1; z 1; z 0] env0_ok _). vm_compute. reflexivity. Qed.
