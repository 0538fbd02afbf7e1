(** The build information: what each entry offers, and which features appear. *)
From Verif Require Import Proofs_props_element Proofs_props_actionset Spec_recourse Proofs_mip.
#[local] Open Scope list_scope.
#[local] Open Scope Qc_scope.

(** ** Lists *)
Lemma combine_rev {A B} (a : list A) (b : list B) : length a = length b -> combine (rev a) (rev b) = rev (combine a b).
Proof.
  revert b. induction a as [|x a IH]; intros [|y b] H; try discriminate H; [reflexivity|]. injection H as H.
  cbn [rev combine]. rewrite <- (IH b H).
  assert (G : forall (u : list A) (v : list B), length u = length v -> combine (u ++ [x]) (v ++ [y]) = combine u v ++ [(x, y)]).
  { induction u as [|p u IHu]; intros [|q v] L; try discriminate L; [reflexivity|]. injection L as L. cbn. now rewrite IHu. }
  apply G. now rewrite !rev_length.
Qed.
Lemma combine_map_r {A B C} (f : B -> C) (a : list A) b : combine a (map f b) = map (fun p => (fst p, f (snd p))) (combine a b).
Proof. revert b. induction a as [|x a IH]; intros [|y b]; [reflexivity..|]. cbn. now rewrite IH. Qed.
Lemma combine_map_l {A B C} (f : A -> C) (a : list A) (b : list B) : combine (map f a) b = map (fun p => (f (fst p), snd p)) (combine a b).
Proof. revert b. induction a as [|x a IH]; intros [|y b]; [reflexivity..|]. cbn. now rewrite IH. Qed.
Lemma Forall2_In_combine {A B} (R : A -> B -> Prop) l m a b : Forall2 R l m -> In (a, b) (combine l m) -> R a b.
Proof. induction 1 as [|x y l m H1 H2 IH]; cbn; [tauto|]. intros [E|Hin]; [injection E as <- <-; exact H1|auto]. Qed.
Lemma Forall2_In_l {A B} (R : A -> B -> Prop) l m a : Forall2 R l m -> In a l -> exists b, In (a, b) (combine l m) /\ R a b.
Proof.
  induction 1 as [|x y l m H1 H2 IH]; cbn; [tauto|]. intros [->|Hin]; [eauto|]. destruct (IH Hin) as (b & H & R'). eauto.
Qed.
Lemma combine_fst_snd {A B} (l : list (A * B)) : combine (map fst l) (map snd l) = l.
Proof. induction l as [|[a b] l IH]; [reflexivity|]. cbn. now rewrite IH. Qed.
Lemma nth_combine {A B} (l : list A) (m : list B) k a b : length l = length m -> (k < length l)%nat ->
  In (nth k l a, nth k m b) (combine l m).
Proof.
  intros L H. rewrite <- combine_nth by exact L. apply nth_In. rewrite combine_length. lia.
Qed.

(** ** drop_bugs *)
Lemma drop_bugs_In b l p : In p (drop_bugs b l) -> In p l.
Proof.
  revert b. induction l as [|q l IH]; intro b; cbn [drop_bugs]; [tauto|].
  destruct (is_bug q), b; cbn [In]; intros H; repeat (destruct H as [H|H]; [now left|]); right; eapply IH; eassumption.
Qed.
Lemma drop_bugs_keep b l p : In p l -> is_bug p = false -> In p (drop_bugs b l).
Proof.
  revert b. induction l as [|q l IH]; intros b Hin Hp; cbn [drop_bugs]; [destruct Hin|].
  destruct Hin as [->|Hin].
  - rewrite Hp. now left.
  - destruct (is_bug q), b; try right; now apply IH.
Qed.
Lemma drop_bugs_clean l p : In p (drop_bugs true l) -> is_bug p = false.
Proof.
  induction l as [|q l IH]; cbn [drop_bugs]; [intros []|]. destruct (is_bug q) eqn:B; [exact IH|].
  intros [<-|H]; auto.
Qed.

Lemma drop_bugs_sorted (R : Qc -> Qc -> Prop) b l : StronglySorted R (map fst l) -> StronglySorted R (map fst (drop_bugs b l)).
Proof.
  revert b. induction l as [|q l IH]; intros b H; [constructor|]. cbn [map drop_bugs] in *. inversion H as [|? ? H1 H2]; subst.
  assert (K : forall b', StronglySorted R (fst q :: map fst (drop_bugs b' l))).
  { intro b'. constructor; [now apply IH|]. rewrite Forall_forall in *. intros y Hy. apply H2. apply in_map_iff in Hy. destruct Hy as (p & <- & Hp).
    apply in_map. eapply drop_bugs_In, Hp. }
  destruct (is_bug q), b; cbn [map]; auto.
Qed.
Lemma ssorted_nth (R : Qc -> Qc -> Prop) l d : StronglySorted R l -> forall k k', (k < k' < length l)%nat -> R (nth k l d) (nth k' l d).
Proof.
  induction 1 as [|a l H IH HF]; intros k k' Hk; [cbn in Hk; lia|]. destruct k' as [|k']; [lia|]. cbn [length] in Hk. destruct k as [|k].
  - cbn. rewrite Forall_forall in HF. apply HF. apply nth_In. lia.
  - cbn. apply IH. lia.
Qed.
Lemma ssorted_snoc (R : Qc -> Qc -> Prop) l a : StronglySorted R l -> Forall (fun v => R v a) l -> StronglySorted R (l ++ [a]).
Proof.
  induction 1 as [|b l H IH HF]; intro HA; [repeat constructor|]. cbn. inversion HA as [|? ? H1 H2]; subst. constructor; [now apply IH|].
  apply Forall_app. split; [exact HF|]. repeat constructor. exact H1.
Qed.
Lemma ssorted_rev (R : Qc -> Qc -> Prop) l : StronglySorted R l -> StronglySorted (fun a b => R b a) (rev l).
Proof.
  induction 1 as [|b l H IH HF]; [constructor|]. cbn. apply ssorted_snoc; [exact IH|]. rewrite Forall_forall in *. intros v Hv. apply HF. now apply in_rev.
Qed.

(** ** One entry *)
Definition flipped_order (a : list Qc) : bool := isclose0 (last a 0).
Definition ordered {A} (flip : bool) (l : list A) : list A := if flip then rev l else l.
Definition cost_fun (E : env) (ct : cost_type) (flip : bool) : Qc -> Qc -> Qc := if flip then cost_dn E ct else cost_up E ct.
Lemma make_info_spec E ct names cn w x n a c i : length a = length c ->
  make_info E ct names cn w x n a c = Ok (Some i) ->
  let flip := flipped_order a in
  (2 <= length a)%nat /\ i_name i = n /\ index_of n names = Some (i_idx i) /\ nth_error w (i_idx i) = Some (i_coef i) /\
  (2 <= nopt i)%nat /\ length (i_costs i) = nopt i /\
  combine (i_actions i) (i_costs i) =
    drop_bugs false (combine (ordered flip a) (map (cost_fun E ct flip (hd 0 (ordered flip c))) (ordered flip c))) /\
  exists xj, nth_error x (i_idx i) = Some xj /\
    (if smem n cn && (0 <? xj) then first_eq (- xj) (i_actions i) = Some (i_knull i) else i_knull i = 0%nat).
Proof.
  intros HL H flip. unfold make_info in H. destruct (Nat.ltb_spec (length a) 2) as [L|L]; [discriminate H|].
  cbv zeta in H. fold (flipped_order a) in H. fold flip in H.
  assert (EP : combine (if flip then rev a else a) (map (if flip then cost_dn E ct (hd 0 (if flip then rev c else c)) else cost_up E ct (hd 0 (if flip then rev c else c))) (if flip then rev c else c))
     = combine (ordered flip a) (map (cost_fun E ct flip (hd 0 (ordered flip c))) (ordered flip c))).
  { unfold ordered, cost_fun. destruct flip; reflexivity. }
  rewrite EP in H. clear EP. set (ps := combine (ordered flip a) _) in *.
  bnd H as u1 H1. bnd H as idx H2. bnd H as coef H3. bnd H as xj H4. bnd H as k H5. bnd H as u2 H6.
  injection H as <-. cbn [i_name i_idx i_coef i_actions i_costs i_knull nopt].
  destruct (index_of n names) eqn:EI; [|discriminate H2]. injection H2 as ->.
  destruct (nth_error w idx) eqn:EW; [|discriminate H3]. injection H3 as ->.
  destruct (nth_error x idx) eqn:EX; [|discriminate H4]. injection H4 as ->.
  split; [exact L|]. split; [reflexivity|]. split; [reflexivity|]. split; [reflexivity|].
  destruct (Nat.ltb_spec (length (map fst (drop_bugs false ps))) 2) as [L2|L2]; [discriminate H6|].
  split; [exact L2|]. split; [unfold nopt; cbn; now rewrite !map_length|]. split; [apply combine_fst_snd|].
  exists xj. split; [reflexivity|]. destruct (smem n cn && (0 <? xj)).
  - destruct (first_eq _ _); [|discriminate H5]. injection H5 as ->. reflexivity.
  - injection H5 as <-. reflexivity.
Qed.
Lemma first_eq_spec v l k : first_eq v l = Some k -> nth_error l k = Some v.
Proof.
  revert k. induction l as [|x l IH]; intro k; cbn; [discriminate|].
  destruct (qeq_spec x v) as [->|N]; [intro H; injection H as <-; reflexivity|].
  destruct (first_eq v l) as [m|]; [|discriminate]. cbn. intro H. injection H as <-. cbn. now apply IH.
Qed.

(** An entry of the build information, related to the feature it stands for. *)
Record entry_of (E : env) (A : action_set) (ct : cost_type) (w x : list Qc) (i : info) (e : element) (xj : Qc) : Prop := {
  en_name : nth_error (as_names A) (i_idx i) = Some (i_name i);
  en_elem : nth_error (as_elems A) (i_idx i) = Some e;
  en_x : nth_error x (i_idx i) = Some xj;
  en_w : nth_error w (i_idx i) = Some (i_coef i);
  en_coef : isclose0 (i_coef i) = false;
  en_wf : wf_info i;
  en_act : e_actionable e = true;
  en_rep : representable e xj;
  en_align : e_aligned e = true;
  en_perm : forall k, (k < nopt i)%nat -> permitted e xj (xj + act i k);
  en_cost : forall k, (0 < k < nopt i)%nat -> move_cost E ct e xj (xj + act i k) (cst i k);
  en_far : forall k, (0 < k < nopt i)%nat -> isclose0 (act i k) = false;
  en_sorted : forall k k', (k < k' < nopt i)%nat -> qabs (act i k) < qabs (act i k');
  en_side : (forall k, (0 < k < nopt i)%nat -> 0 < act i k) \/ (forall k, (0 < k < nopt i)%nat -> act i k < 0);
  en_dir : ~ In (i_name i) (constrained_names E (as_cons A)) -> forall k, (0 < k < nopt i)%nat ->
           if (0 <? as_y A * qsign (i_coef i))%Z then 0 < act i k else act i k < 0;
  en_null : if smem (i_name i) (constrained_names E (as_cons A)) && (0 <? xj) then act i (i_knull i) = - xj else i_knull i = 0%nat }.

Lemma isclose0_0 : isclose0 0 = true.
Proof. reflexivity. Qed.
Lemma isclose0_false a : isclose0 a = false -> a <> 0.
Proof. intros H ->. discriminate H. Qed.
Lemma hd_ordered_rev {A} (d : A) l : hd d (rev l) = last l d.
Proof.
  induction l as [|a l IH] using rev_ind; [reflexivity|]. rewrite rev_unit. cbn [hd]. now rewrite last_last.
Qed.
Lemma ssorted_last l v : StronglySorted Qclt l -> In v l -> v <= last l 0.
Proof.
  revert v. induction l as [|a l IH]; [intros v _ []|]. intros v H Hin. inversion H as [|? ? H1 H2]; subst.
  destruct l as [|b l]; [destruct Hin as [->|[]]; apply Qcle_refl|].
  change (last (a :: b :: l) 0) with (last (b :: l) 0).
  destruct Hin as [->|Hin]; [|now apply IH]. rewrite Forall_forall in H2. pose proof (H2 b (or_introl eq_refl)) as Hb.
  specialize (IH b H1 (or_introl eq_refl)). qlra.
Qed.

Lemma check_info_ok y cn i : check_info y cn i = true ->
  isclose0 (i_coef i) = false /\ cst i 0 = 0 /\ act i 0 = 0 /\ NoDup (i_actions i) /\ NoDup (i_costs i) /\
  (2 <= nopt i)%nat /\ length (i_costs i) = nopt i /\
  (~ In (i_name i) cn -> forall k, (0 < k < nopt i)%nat -> if (0 <? y * qsign (i_coef i))%Z then 0 < act i k else act i k < 0).
Proof.
  unfold check_info. rewrite !andb_true_iff, !all_distinct_iff, negb_true_iff.
  intros (((((((H1 & H2) & H3) & H4) & H5) & H6) & H7) & H8). apply Nat.leb_le in H5. apply Nat.eqb_eq in H6.
  split; [exact H1|]. unfold cst, act, nopt.
  split; [destruct (i_costs i) as [|c0 cs]; [discriminate H2|]; cbn; now qbool|].
  split; [destruct (i_actions i) as [|c0 cs]; [discriminate H3|]; cbn; now qbool|].
  split; [exact H7|]. split; [exact H8|]. split; [exact H5|]. split; [now symmetry|].
  intros Hn k Hk. destruct (smem (i_name i) cn) eqn:S; [apply smem_iff in S; tauto|].
  assert (Hin : In (nth k (i_actions i) 0) (tl (i_actions i))).
  { destruct (i_actions i) as [|a0 l]; [cbn in Hk; lia|]. destruct k as [|k]; [lia|]. cbn in *. apply nth_In. lia. }
  destruct (0 <? y * qsign (i_coef i))%Z; rewrite forallb_forall in H4; specialize (H4 _ Hin); now qbool.
Qed.

Lemma entry_ok E A ct w x n j e xj d a c i :
  elem_reachable E e -> NoDup (as_names A) ->
  nth_error (as_names A) j = Some n -> nth_error (as_elems A) j = Some e -> nth_error x j = Some xj ->
  feasible_values E e xj true true d = Ok (a, c) ->
  make_info E ct (as_names A) (constrained_names E (as_cons A)) w x n a c = Ok (Some i) ->
  check_info (as_y A) (constrained_names E (as_cons A)) i = true ->
  i_idx i = j /\ entry_of E A ct w x i e xj.
Proof.
  intros HE HN Hj He Hx HF HM HC. pose proof HF as HF0. apply feasible_values_spec in HF. destruct HF as (HA & Ea & HP & _).
  specialize (HA eq_refl). specialize (HP eq_refl). cbn [negb] in Ea. set (fx := feasible_x e xj d) in *.
  assert (La : length a = length c) by (subst a; rewrite map_length; exact (Forall2_length _ _ _ HP)).
  destruct (make_info_spec _ _ _ _ _ _ _ _ _ _ La HM) as (L2 & En & Ei & Ew & Lo & Lc & Ek & xj' & Ex & Enull).
  destruct (check_info_ok _ _ _ HC) as (C1 & C2 & C3 & C4 & C5 & C6 & C7 & C8).
  pose proof (index_of_nodup _ _ _ HN Hj) as Ej. rewrite Ej in Ei. injection Ei as Ei. rewrite <- Ei in *.
  rewrite Hx in Ex. injection Ex as <-.
  split; [now symmetry|].
  pose proof (reachable_inv _ _ HE) as INV.
  set (flip := flipped_order a) in *. set (oa := ordered flip a) in *. set (oc := ordered flip c) in *.
  assert (Lo' : length oa = length oc) by (unfold oa, oc, ordered; destruct flip; rewrite ?rev_length; exact La).
  set (f := cost_fun E ct flip (hd 0 oc)) in *.
  (* the head *)
  assert (Hact : e_actionable e = true).
  { destruct (e_actionable e) eqn:X; [reflexivity|]. exfalso. unfold feasible_values in HF0. rewrite HA in HF0. cbn [negb orb passert bind] in HF0.
    assert (K : fx = [xj]). { apply (c09_fixed E e xj false d fx []); [exact HE|exact X|]. reflexivity. }
    rewrite Ea, K in L2. cbn in L2. lia. }
  destruct oa as [|a0 oa'] eqn:Eoa.
  { exfalso. unfold oa, ordered in Eoa. apply (f_equal (@length _)) in Eoa. destruct flip; rewrite ?rev_length in Eoa; cbn in Eoa; lia. }
  destruct oc as [|c0 oc'] eqn:Eoc; [cbn in Lo'; lia|].
  cbn [hd map combine] in Ek. cbn [hd] in f. fold f in Ek.
  assert (Hh : a0 = 0).
  { cbn [drop_bugs] in Ek. unfold act in C3. destruct (i_actions i) as [|b l] eqn:Eb; [cbn in C6; unfold nopt in C6; rewrite Eb in C6; cbn in C6; lia|].
    destruct (i_costs i) as [|d0 m] eqn:Ed; [unfold nopt in C7; rewrite Eb in C7; cbn in C7; lia|].
    cbn [combine nth] in Ek, C3. destruct (is_bug (a0, f c0)); injection Ek as Ek1 _; congruence. }
  subst a0.
  assert (Hbug : is_bug (0, f c0) = true). { unfold is_bug. cbn [fst snd]. rewrite isclose0_0. apply orb_true_r. }
  cbn [drop_bugs] in Ek. rewrite Hbug in Ek.
  (* every pair of the two lists comes from an offered value *)
  assert (HO : forall p q, In (p, q) (combine oa oc) -> exists v, In v fx /\ p = v - xj /\ percentile E e v = Ok q).
  { intros p q Hin. assert (Hin' : In (p, q) (combine a c)).
    { unfold oa, oc, ordered in Hin. destruct flip; [|exact Hin]. rewrite combine_rev in Hin by exact La. now apply in_rev. }
    rewrite Ea, combine_map_l in Hin'. apply in_map_iff in Hin'. destruct Hin' as ((v & q') & E1 & Hv).
    cbn in E1. injection E1 as <- <-. exists v. split; [eapply in_combine_l, Hv|]. split; [reflexivity|].
    eapply (Forall2_In_combine _ _ _ _ _ HP), Hv. }
  rewrite Eoa, Eoc in HO.
  assert (Hx0 : In xj fx /\ percentile E e xj = Ok c0).
  { destruct (HO 0 c0) as (v & Hv & Ev & Pv); [now left|]. assert (v = xj) by qlra. subst v. auto. }
  destruct Hx0 as [Hxin Px].
  assert (HR : representable e xj).
  { intro Hg. apply (base_x_int E e xj xj INV Hg Hact). unfold fx in Hxin. rewrite feasible_x_eq in Hxin.
    destruct d; [|exact Hxin]. destruct (e_flip e); [|exact Hxin]. apply dir_filter_In in Hxin. apply Hxin. }
  pose proof (feasible_x_sorted e xj d HR (inv_grid _ _ INV)) as HS. fold fx in HS.
  (* tails *)
  assert (HT : forall k, (0 < k < nopt i)%nat -> In (act i k, cst i k) (combine oa' (map f oc')) /\ is_bug (act i k, cst i k) = false).
  { intros k Hk. unfold nopt in Lc, Hk. unfold act, cst.
    pose proof (nth_combine (i_actions i) (i_costs i) k 0 0 (eq_sym Lc) (proj2 Hk)) as Hin.
    destruct (i_actions i) as [|b l] eqn:Eb; [cbn in Hk; lia|]. destruct (i_costs i) as [|d0 m] eqn:Ed; [cbn in Lc; lia|].
    cbn [combine] in Ek, Hin. injection Ek as -> -> Ek. destruct k as [|k]; [lia|]. cbn [nth length] in *.
    assert (Hin2 : In (nth k l 0, nth k m 0) (combine l m)) by (apply nth_combine; lia).
    rewrite Ek in Hin2. split; [eapply drop_bugs_In, Hin2|eapply drop_bugs_clean, Hin2]. }
  assert (HV : forall k, (0 < k < nopt i)%nat -> exists v q, In v fx /\ act i k = v - xj /\ percentile E e v = Ok q /\ cst i k = f q /\ 0 < cst i k /\ isclose0 (act i k) = false).
  { intros k Hk. destruct (HT k Hk) as [Hin Hb]. rewrite combine_map_r in Hin. apply in_map_iff in Hin.
    destruct Hin as ((p & q) & E1 & Hin). cbn in E1. injection E1 as E1 E2.
    destruct (HO p q) as (v & Hv & Ev & Pv); [now right|]. exists v, q. rewrite <- E1, <- E2 in *.
    unfold is_bug in Hb. cbn in Hb. apply orb_false_iff in Hb. destruct Hb as [B1 B2]. qbool. auto 10. }
  (* the side *)
  assert (Hside : if flip then (forall v, In v fx -> v <= xj) else (forall v, In v fx -> xj <= v)).
  { destruct flip eqn:F.
    - intros v Hv. assert (Hl : last a 0 = 0).
      { rewrite <- hd_ordered_rev. unfold oa, ordered in Eoa. rewrite Eoa. reflexivity. }
      assert (Sa : StronglySorted Qclt a).
      { rewrite Ea. clear - HS. induction HS as [|b l H1 IH H2]; [constructor|]. cbn. constructor; [exact IH|].
        rewrite Forall_forall in *. intros y Hy. apply in_map_iff in Hy. destruct Hy as (z & <- & Hz). specialize (H2 z Hz). qlra. }
      assert (Hva : In (v - xj) a) by (rewrite Ea; apply in_map_iff; eauto).
      pose proof (ssorted_last a (v - xj) Sa Hva) as Hle. rewrite Hl in Hle. qlra.
    - intros v Hv. unfold oa, ordered in Eoa. rewrite Ea in Eoa. destruct fx as [|v0 fx']; [destruct Hv|].
      cbn [map] in Eoa. apply (f_equal (hd 0)) in Eoa. cbn [hd] in Eoa. assert (v0 = xj) by qlra. subst v0. inversion HS as [|? ? _ H2]; subst.
      destruct Hv as [<-|Hv]; [apply Qcle_refl|]. rewrite Forall_forall in H2. specialize (H2 v Hv). qlra. }
  assert (Hsgn : forall k, (0 < k < nopt i)%nat -> if flip then act i k < 0 else 0 < act i k).
  { intros k Hk. destruct (HV k Hk) as (v & q & Hv & Ev & _ & _ & _ & Hf). pose proof (isclose0_false _ Hf) as Hne.
    destruct flip; specialize (Hside v Hv); (destruct (Qc_dec v xj) as [[H|H]|H]; [|try (exfalso; qlra)|]); try qlra.
    - exfalso. apply Hne. rewrite Ev, H. ring.
    - exfalso. apply Hne. rewrite Ev, H. ring. }
  constructor; try assumption; try (now rewrite <- Ei, ?En).
  - constructor; try assumption.
    + intros k Hk. destruct (HV k Hk) as (v & q & _ & _ & _ & _ & Hp & Hf). split; [exact Hp|now apply isclose0_false].
    + destruct (smem n (constrained_names E (as_cons A)) && (0 <? xj)); [|rewrite Enull; lia].
      apply first_eq_spec in Enull. unfold nopt. apply nth_error_Some. congruence.
  - intros k Hk. destruct k as [|k]; [rewrite C3; left; ring|].
    destruct (HV (S k)) as (v & q & Hv & Ev & _); [lia|]. replace (xj + act i (S k)) with v by (rewrite Ev; ring).
    apply (feasible_x_In e xj d v HR). exact Hv.
  - intros k Hk. destruct (HV k Hk) as (v & q & Hv & Ev & Pv & Ec & _ & Hf). exists c0, q.
    replace (xj + act i k) with v by (rewrite Ev; ring). split; [exact Px|]. split; [exact Pv|]. rewrite Ec. unfold f, cost_fun.
    specialize (Hsgn k Hk). destruct flip.
    + assert (G : (xj <=? v) = false) by (apply qle_false; rewrite Ev in Hsgn; qlra). rewrite G. destruct ct; reflexivity.
    + assert (G : (xj <=? v) = true) by (apply qle_iff; rewrite Ev in Hsgn; qlra). rewrite G. destruct ct; reflexivity.
  - intros k Hk. destruct (HV k Hk) as (v & q & _ & _ & _ & _ & _ & Hf). exact Hf.
  - intros k k' Hk.
    assert (Sa : StronglySorted Qclt a).
    { rewrite Ea. clear - HS. induction HS as [|b l H1 IH H2]; [constructor|]. cbn. constructor; [exact IH|].
      rewrite Forall_forall in *. intros y Hy. apply in_map_iff in Hy. destruct Hy as (z & <- & Hz). specialize (H2 z Hz). qlra. }
    assert (Km : i_actions i = map fst (drop_bugs false (combine (0 :: oa') (map f (c0 :: oc'))))).
    { cbn [map combine drop_bugs]. rewrite Hbug. rewrite <- Ek. clear - Lc. unfold nopt in Lc. revert Lc. generalize (i_actions i) (i_costs i).
      induction l as [|u l IH]; intros [|v m] L; try discriminate L; [reflexivity|]. cbn. rewrite <- IH; [reflexivity|]. now injection L. }
    assert (Kf : map fst (combine (0 :: oa') (map f (c0 :: oc'))) = 0 :: oa').
    { assert (L : length (0 :: oa') = length (map f (c0 :: oc'))) by (rewrite map_length; exact Lo'). revert L. generalize (0 :: oa') (map f (c0 :: oc')).
      clear. induction l as [|u l IH]; intros [|v m] L; try discriminate L; [reflexivity|]. cbn. f_equal. apply IH. now injection L. }
    assert (Hk0 : (k = 0 \/ 0 < k)%nat) by lia. assert (Hk1 : (0 < k' < nopt i)%nat) by lia. assert (Z0 : qabs 0 = 0) by reflexivity.
    destruct flip eqn:F.
    + assert (SO : StronglySorted (fun u v => v < u) (i_actions i)).
      { rewrite Km. apply drop_bugs_sorted. rewrite Kf, <- Eoa. unfold oa, ordered. apply (ssorted_rev _ _ Sa). }
      pose proof (ssorted_nth _ _ 0 SO k k' Hk) as G. cbn beta in G. fold (act i k) (act i k') in G. pose proof (Hsgn k' Hk1) as G1.
      assert (G2 : act i k <= 0) by (destruct Hk0 as [->|Hk0]; [rewrite C3; apply Qcle_refl|pose proof (Hsgn k ltac:(lia)); qlra]).
      unfold qabs. destruct (qle_spec 0 (act i k)), (qle_spec 0 (act i k')); qlra.
    + assert (SO : StronglySorted Qclt (i_actions i)).
      { rewrite Km. apply drop_bugs_sorted. rewrite Kf, <- Eoa. unfold oa, ordered. exact Sa. }
      pose proof (ssorted_nth _ _ 0 SO k k' Hk) as G. fold (act i k) (act i k') in G. pose proof (Hsgn k' Hk1) as G1.
      assert (G2 : 0 <= act i k) by (destruct Hk0 as [->|Hk0]; [rewrite C3; apply Qcle_refl|pose proof (Hsgn k ltac:(lia)); qlra]).
      unfold qabs. destruct (qle_spec 0 (act i k)), (qle_spec 0 (act i k')); qlra.
  - destruct flip; [right|left]; exact Hsgn.
  - rewrite En. destruct (smem n (constrained_names E (as_cons A)) && (0 <? xj)); [|exact Enull].
    apply first_eq_spec in Enull. unfold act. now rewrite (nth_error_nth _ _ _ Enull).
Qed.

(** What an entry offers: every value that feasible_values lists, unless overridden as a numerical issue. *)
Lemma entry_complete E A ct w x n j e xj d a c i v q p :
  elem_reachable E e -> NoDup (as_names A) ->
  nth_error (as_names A) j = Some n -> nth_error (as_elems A) j = Some e -> nth_error x j = Some xj ->
  feasible_values E e xj true true d = Ok (a, c) ->
  make_info E ct (as_names A) (constrained_names E (as_cons A)) w x n a c = Ok (Some i) ->
  check_info (as_y A) (constrained_names E (as_cons A)) i = true ->
  permitted e xj v -> (d = true -> improving e xj v) ->
  move_cost E ct e xj v p -> 0 < p -> isclose0 (v - xj) = false -> q = v - xj ->
  exists k, (0 < k < nopt i)%nat /\ act i k = q /\ cst i k = p.
Proof.
  intros HE HN Hj He Hx HF HM HC HPm HI HMc Hp Hf ->.
  destruct (entry_ok _ _ _ _ _ _ _ _ _ _ _ _ _ HE HN Hj He Hx HF HM HC) as (Ej & EN).
  pose proof (en_rep _ _ _ _ _ _ _ _ EN) as HR. pose proof (en_wf _ _ _ _ _ _ _ _ EN) as WI.
  pose proof HF as HF0. apply feasible_values_spec in HF. destruct HF as (HA & Ea & HP & _).
  specialize (HP eq_refl). cbn [negb] in Ea. set (fx := feasible_x e xj d) in *.
  assert (La : length a = length c) by (subst a; rewrite map_length; exact (Forall2_length _ _ _ HP)).
  destruct (make_info_spec _ _ _ _ _ _ _ _ _ _ La HM) as (L2 & En & Ei & Ew & Lo & Lc & Ek & xj' & Ex & Enull).
  set (flip := flipped_order a) in *.
  assert (Hv : In v fx) by (apply feasible_x_In; auto).
  destruct (Forall2_In_l _ _ _ _ HP Hv) as (pv & Hin & Pv).
  assert (Hin1 : In (v - xj, pv) (combine (ordered flip a) (ordered flip c))).
  { unfold ordered. assert (G : In (v - xj, pv) (combine a c)).
    { rewrite Ea, combine_map_l. apply in_map_iff. exists (v, pv). auto. }
    destruct flip; [|exact G]. rewrite combine_rev by exact La. now apply in_rev in G. }
  set (f := cost_fun E ct flip (hd 0 (ordered flip c))) in *.
  assert (Hin2 : In (v - xj, f pv) (combine (ordered flip a) (map f (ordered flip c)))).
  { rewrite combine_map_r. apply in_map_iff. exists (v - xj, pv). auto. }
  (* the head again, to identify the cost *)
  assert (Hhd : percentile E e xj = Ok (hd 0 (ordered flip c)) /\ (if flip then forall u, In u fx -> u <= xj else forall u, In u fx -> xj <= u)).
  { assert (H0 : hd 0 (ordered flip a) = 0).
    { pose proof (wi_a0 _ WI) as A0. unfold act in A0. destruct (ordered flip a) as [|a0 oa] eqn:Eo; [reflexivity|].
      destruct (ordered flip c) as [|c0 oc] eqn:Eoc.
      { exfalso. apply (f_equal (@length _)) in Eo, Eoc. unfold ordered in Eo, Eoc. destruct flip; rewrite ?rev_length in *; cbn in *; lia. }
      cbn [hd map combine drop_bugs] in Ek. pose proof (wi_len _ WI) as L'. pose proof (wi_len2 _ WI) as L3. unfold nopt in L', L3.
      destruct (i_actions i) as [|b l]; [cbn in L'; lia|]. destruct (i_costs i) as [|d0 m]; [cbn in L3; lia|].
      cbn [combine nth] in Ek, A0. cbn [hd]. destruct (is_bug _); injection Ek as Ek1 _; congruence. }
    assert (NE : ordered flip a <> []).
    { intro N. apply (f_equal (@length _)) in N. unfold ordered in N. destruct flip; rewrite ?rev_length in N; cbn in N; lia. }
    destruct (ordered flip a) as [|a0 oa] eqn:Eo; [congruence|]. destruct (ordered flip c) as [|c0 oc] eqn:Eoc.
    { exfalso. apply (f_equal (@length _)) in Eoc. unfold ordered in Eoc. destruct flip; rewrite ?rev_length in *; cbn in *; lia. }
    cbn [hd] in *. subst a0.
    assert (G : In (0, c0) (combine a c)).
    { assert (G : In (0, c0) (combine (ordered flip a) (ordered flip c))) by (rewrite Eo, Eoc; now left).
      unfold ordered in G. destruct flip; [|exact G]. rewrite combine_rev in G by exact La. now apply in_rev. }
    rewrite Ea, combine_map_l in G. apply in_map_iff in G. destruct G as ((u & q') & E1 & Hu). cbn [fst snd] in E1. apply pair_equal_spec in E1. destruct E1 as [E1 ->].
    assert (u = xj) by qlra. subst u. split; [eapply (Forall2_In_combine _ _ _ _ _ HP), Hu|].
    pose proof (feasible_x_sorted e xj d HR (inv_grid _ _ (reachable_inv _ _ HE))) as HS. fold fx in HS.
    destruct flip eqn:F.
    - intros u Hu'. assert (Hl : last a 0 = 0) by (rewrite <- hd_ordered_rev; unfold ordered in Eo; rewrite Eo; reflexivity).
      assert (Sa : StronglySorted Qclt a).
      { rewrite Ea. clear - HS. induction HS as [|b l H1 IH H2]; [constructor|]. cbn. constructor; [exact IH|].
        rewrite Forall_forall in *. intros y Hy. apply in_map_iff in Hy. destruct Hy as (z & <- & Hz). specialize (H2 z Hz). qlra. }
      assert (Hva : In (u - xj) a) by (rewrite Ea; apply in_map_iff; eauto).
      pose proof (ssorted_last a (u - xj) Sa Hva) as Hle. rewrite Hl in Hle. qlra.
    - intros u Hu'. unfold ordered in Eo. rewrite Ea in Eo. destruct fx as [|v0 fx']; [destruct Hu'|].
      cbn [map] in Eo. apply (f_equal (hd 0)) in Eo. cbn [hd] in Eo. assert (v0 = xj) by qlra. subst v0. inversion HS as [|? ? _ H2]; subst.
      destruct Hu' as [<-|Hu']; [apply Qcle_refl|]. rewrite Forall_forall in H2. specialize (H2 u Hu'). qlra. }
  destruct Hhd as [Px Hside].
  assert (Ep : f pv = p).
  { destruct HMc as (p0 & p1 & P0 & P1 & ->). rewrite Px in P0. injection P0 as <-. rewrite Pv in P1. injection P1 as <-.
    unfold f, cost_fun. pose proof (isclose0_false _ Hf) as Hne. destruct flip; specialize (Hside v Hv).
    - assert (G : (xj <=? v) = false). { apply qle_false. destruct (Qc_dec v xj) as [[H|H]|H]; [exact H|exfalso; qlra|]. exfalso. apply Hne. rewrite H. ring. }
      rewrite G. destruct ct; reflexivity.
    - assert (G : (xj <=? v) = true) by now apply qle_iff. rewrite G. destruct ct; reflexivity. }
  rewrite Ep in Hin2.
  assert (Hk : In (v - xj, p) (combine (i_actions i) (i_costs i))).
  { rewrite Ek. apply drop_bugs_keep; [exact Hin2|]. unfold is_bug. cbn. rewrite Hf, orb_false_r. apply qle_false. exact Hp. }
  apply (In_nth _ _ (0, 0)) in Hk. destruct Hk as (k & Hk & Enth). rewrite combine_length, Lc in Hk. unfold nopt in *.
  rewrite combine_nth in Enth by (symmetry; exact Lc). injection Enth as E1 E2. exists k. unfold act, cst. split; [|auto].
  split; [|lia]. destruct k as [|k]; [|lia]. pose proof (wi_a0 _ WI) as A0. unfold act in A0. rewrite A0 in E1. rewrite <- E1 in Hf. discriminate Hf.
Qed.

(** ** The grid *)
Definition covered (E : env) (A : action_set) (x : list Qc) (grid : dict gridentry) : Prop :=
  NoDup (map fst grid) /\
  forall n v, In (n, v) grid -> exists j e xj d, nth_error (as_names A) j = Some n /\ nth_error (as_elems A) j = Some e /\
    nth_error x j = Some xj /\ feasible_values E e xj true true d = Ok v /\
    ((d = true /\ compatible e = Some true /\ ~ In n (constrained_names E (as_cons A))) \/ (d = false /\ In n (constrained_names E (as_cons A)))).

Lemma In_dset {V} k (v : V) d n u : NoDup (map fst d) -> In (n, u) (dset k v d) -> (n = k /\ u = v) \/ (n <> k /\ In (n, u) d).
Proof.
  induction d as [|[k' v'] d IH]; cbn; intros HN Hin.
  - destruct Hin as [E|[]]. injection E as -> ->. now left.
  - inversion HN as [|? ? H1 H2]; subst. destruct (String.eqb_spec k k') as [->|N]; cbn in Hin.
    + destruct Hin as [E|Hin]; [injection E as -> ->; now left|]. right. split; [|now right].
      intros ->. apply H1. apply in_map_iff. exists (k', u). auto.
    + destruct Hin as [E|Hin]; [injection E as -> ->; right; auto|]. destruct (IH H2 Hin) as [H|[H H']]; auto.
Qed.
Lemma dset_In_same {V} k (v : V) d : In (k, v) (dset k v d).
Proof.
  induction d as [|[k' v'] d IH]; cbn; [now left|]. destruct (String.eqb_spec k k') as [->|]; [now left|now right].
Qed.
Lemma dset_In_other {V} k (v : V) d n u : n <> k -> In (n, u) d -> In (n, u) (dset k v d).
Proof.
  induction d as [|[k' v'] d IH]; cbn; [tauto|]. intros N [E|Hin].
  - injection E as -> ->. destruct (String.eqb_spec k n); [congruence|now left].
  - destruct (String.eqb_spec k k') as [->|]; [now right|right; auto].
Qed.

Lemma combine3_nth {A B C} (a : list A) (b : list B) (c : list C) j p q r :
  nth_error (combine a (combine b c)) j = Some (p, (q, r)) <->
  nth_error a j = Some p /\ nth_error b j = Some q /\ nth_error c j = Some r.
Proof.
  revert b c j. induction a as [|x a IH]; intros b c j; [destruct j; cbn; intuition discriminate|].
  destruct b as [|y b]; [destruct j; cbn; intuition discriminate|]. destruct c as [|z c]; [destruct j; cbn; intuition discriminate|].
  destruct j; cbn.
  - split; [intro H; injection H as -> -> ->; auto|intros (H1 & H2 & H3); congruence].
  - apply IH.
Qed.

Lemma output_spec E A x out : wf_aset E A -> 
  mapM (fun q => let '(n, (e, xj)) := q in let! v := feasible_values E e xj true true true in Ok (n, v))
       (filter (fun q => grid_included true (fst (snd q))) (combine (as_names A) (combine (as_elems A) x))) = Ok out ->
  NoDup (map fst out) /\
  (forall n v, In (n, v) out <-> exists j e xj, nth_error (as_names A) j = Some n /\ nth_error (as_elems A) j = Some e /\
    nth_error x j = Some xj /\ feasible_values E e xj true true true = Ok v /\ compatible e = Some true).
Proof.
  intros HW H. apply mapM_ok in H.
  assert (HK : map fst out = map fst (filter (fun q => grid_included true (fst (snd q))) (combine (as_names A) (combine (as_elems A) x)))).
  { clear - H. induction H as [|[n [e xj]] [n' v'] l m H1 H2 IH]; [reflexivity|]. cbn. f_equal; [|exact IH].
    bnd H1 as r Hr. injection H1 as -> _. reflexivity. }
  assert (HA : forall e xj v, feasible_values E e xj true true true = Ok v -> grid_included true e = true -> compatible e = Some true).
  { intros e xj [va vc] HF HG. apply feasible_values_spec in HF. destruct HF as (HA & _). specialize (HA eq_refl).
    unfold grid_included in HG. unfold compatible in *. unfold e_aligned in HA. destruct (e_flip e); [|discriminate HA].
    destruct (e_actionable e); cbn [negb] in *; [|discriminate HG]. now rewrite HG. }
  split.
  - rewrite HK. destruct HW as ((_ & _ & HN) & _).
    assert (G : forall l : list (string * (element * Qc)), NoDup (map fst l) -> NoDup (map fst (filter (fun q => grid_included true (fst (snd q))) l))).
    { induction l as [|q l IH]; cbn [filter map]; intro HD; [constructor|]. inversion HD as [|? ? H1 H2]; subst.
      destruct (grid_included true (fst (snd q))); [|auto]. cbn [map]. constructor; [|auto]. intro Hin. apply H1.
      apply in_map_iff in Hin. destruct Hin as (q' & E1 & Hq). apply filter_In in Hq. apply in_map_iff. exists q'. tauto. }
    apply G. clear - HN.
    assert (K : forall (a : list string) (b : list (element * Qc)), NoDup a -> NoDup (map fst (combine a b))).
    { induction a as [|s a IH]; intros b HD; [constructor|]. destruct b as [|y b]; [constructor|]. inversion HD as [|? ? H1 H2]; subst.
      cbn. constructor; [|auto]. intro Hin. apply H1. apply in_map_iff in Hin. destruct Hin as ((s' & y') & E1 & Hin). cbn in E1. subst s'.
      eapply in_combine_l, Hin. }
    now apply K.
  - intros n v. split.
    + intro Hin. apply In_nth_error in Hin. destruct Hin as (k & Hk). apply Forall2_nth in H. destruct H as [HL HN].
      destruct (nth_error (filter (fun q => grid_included true (fst (snd q))) (combine (as_names A) (combine (as_elems A) x))) k) as [[n' [e xj]]|] eqn:Ek.
      2:{ apply nth_error_None in Ek. assert (k < length out)%nat by (apply nth_error_Some; congruence). lia. }
      specialize (HN _ _ _ Ek Hk). cbn in HN. bnd HN as v' Hv. injection HN as -> ->.
      apply nth_error_In in Ek. apply filter_In in Ek. destruct Ek as [Ek Hg]. cbn [fst snd] in Hg.
      apply In_nth_error in Ek. destruct Ek as (j & Ej). apply combine3_nth in Ej. destruct Ej as (E1 & E2 & E3).
      exists j, e, xj. repeat split; auto. eapply HA; eauto.
    + intros (j & e & xj & E1 & E2 & E3 & HF & Hc).
      assert (Hin : In (n, (e, xj)) (filter (fun q => grid_included true (fst (snd q))) (combine (as_names A) (combine (as_elems A) x)))).
      { apply filter_In. split; [apply nth_error_In with (n := j); now apply combine3_nth|]. cbn [fst snd]. unfold grid_included. now rewrite Hc. }
      apply In_nth_error in Hin. destruct Hin as (k & Ek). apply Forall2_nth in H. destruct H as [HL HN].
      destruct (nth_error out k) as [[n' v']|] eqn:Eo.
      2:{ apply nth_error_None in Eo. assert (k < length (filter (fun q => grid_included true (fst (snd q))) (combine (as_names A) (combine (as_elems A) x))))%nat by (apply nth_error_Some; congruence). lia. }
      specialize (HN _ _ _ Ek Eo). cbn in HN. rewrite HF in HN. cbn in HN. injection HN as <- <-. eapply nth_error_In, Eo.
Qed.

Lemma fold_err {A B} (f : res A -> B -> res A) l x : (forall b y, f (Err y) b = Err y) -> fold_left f l (Err x) = Err x.
Proof. intro H. induction l as [|b l IH]; [reflexivity|]. cbn. now rewrite H. Qed.

Lemma over_spec E A x names out grid :
  fold_left (fun acc n => let! out := acc in
          let! j := of_option ValueError (index_of n (as_names A)) in
          match nth_error (as_elems A) j, nth_error x j with
          | Some e, Some xj => let! v := feasible_values E e xj true true false in Ok (dset n v out)
          | _, _ => Err KeyError
          end) names (Ok out) = Ok grid ->
  NoDup (map fst out) ->
  NoDup (map fst grid) /\
  (forall n v, In (n, v) grid -> (~ In n names /\ In (n, v) out) \/
     (In n names /\ exists j e xj, nth_error (as_names A) j = Some n /\ nth_error (as_elems A) j = Some e /\ nth_error x j = Some xj /\
        feasible_values E e xj true true false = Ok v)) /\
  (forall n v, ~ In n names -> In (n, v) out -> In (n, v) grid) /\
  (forall n, In n names -> exists v, In (n, v) grid).
Proof.
  revert out. induction names as [|n names IH]; intros out H HN.
  - cbn in H. injection H as <-. repeat split; auto. intros n [].
  - cbn [fold_left] in H. cbn [bind] in H.
    destruct (index_of n (as_names A)) as [j|] eqn:Ej.
    2:{ cbn in H. rewrite fold_err in H by reflexivity. discriminate H. }
    cbn [of_option bind] in H. destruct (nth_error (as_elems A) j) as [e|] eqn:Ee.
    2:{ rewrite fold_err in H by reflexivity. discriminate H. }
    destruct (nth_error x j) as [xj|] eqn:Ex.
    2:{ rewrite fold_err in H by reflexivity. discriminate H. }
    destruct (feasible_values E e xj true true false) as [v|y] eqn:Ev.
    2:{ cbn in H. rewrite fold_err in H by reflexivity. discriminate H. }
    cbn [bind] in H. apply IH in H; [|now apply dset_keys]. destruct H as (H1 & H2 & H3 & H4).
    apply index_of_ok in Ej.
    split; [exact H1|]. split; [|split].
    + intros n' v' Hin. destruct (H2 n' v' Hin) as [[Hn Ho]|(Hn & j' & e' & xj' & K)].
      * apply In_dset in Ho; [|exact HN]. destruct Ho as [[-> ->]|[Hne Ho]].
        -- right. split; [now left|]. exists j, e, xj. auto.
        -- left. split; [|exact Ho]. intros [->|Hin']; [congruence|tauto].
      * right. split; [now right|]. eauto 10.
    + intros n' v' Hn Ho. apply H3; [intro; apply Hn; now right|]. apply dset_In_other; [|exact Ho]. intros ->. apply Hn. now left.
    + intros n' [<-|Hin]; [|now apply H4].
      destruct (in_dec string_dec n names) as [Hi|Hi]; [now apply H4|]. exists v. apply H3; [exact Hi|]. apply dset_In_same.
Qed.

Lemma grid_spec E A x grid : ok_env E -> wf_aset E A -> feasible_grid E A x true true true = Ok grid ->
  length x = as_len A /\ covered E A x grid /\
  (forall j e xj n, nth_error (as_names A) j = Some n -> nth_error (as_elems A) j = Some e -> nth_error x j = Some xj ->
     compatible e = Some true -> ~ In n (constrained_names E (as_cons A)) ->
     exists v, In (n, v) grid /\ feasible_values E e xj true true true = Ok v) /\
  (forall n, In n (constrained_names E (as_cons A)) -> exists v j e xj, In (n, v) grid /\
     nth_error (as_names A) j = Some n /\ nth_error (as_elems A) j = Some e /\ nth_error x j = Some xj /\ feasible_values E e xj true true false = Ok v).
Proof.
  intros HOE HW H. unfold feasible_grid in H. bnd H as u Hu. apply passert_ok in Hu. apply Nat.eqb_eq in Hu.
  bnd H as out Ho. destruct (output_spec _ _ _ _ HW Ho) as [HN HO]. split; [exact Hu|].
  destruct (r_cons (as_cons A)) as [|q0 qs] eqn:Ec.
  - injection H as <-. assert (En : constrained_names E (as_cons A) = []).
    { unfold constrained_names. rewrite Ec. cbn. apply Permutation_nil. symmetry. apply (HOE []). }
    unfold covered. rewrite En. split; [split; [exact HN|]|split].
    + intros n v Hin. apply HO in Hin. destruct Hin as (j & e & xj & K1 & K2 & K3 & K4 & K5). exists j, e, xj, true. auto 10.
    + intros j e xj n K1 K2 K3 K4 _. 
      destruct (feasible_values E e xj true true true) as [v|y] eqn:Ev.
      * exists v. split; [|reflexivity]. apply HO. exists j, e, xj. auto 10.
      * exfalso. apply mapM_ok in Ho. apply Forall2_nth in Ho. destruct Ho as [HL HNth].
        assert (Hin : In (n, (e, xj)) (filter (fun q => grid_included true (fst (snd q))) (combine (as_names A) (combine (as_elems A) x)))).
        { apply filter_In. split; [apply nth_error_In with (n := j); now apply combine3_nth|]. cbn [fst snd]. unfold grid_included. now rewrite K4. }
        apply In_nth_error in Hin. destruct Hin as (k & Ek).
        destruct (nth_error out k) as [p|] eqn:Eo.
        -- specialize (HNth _ _ _ Ek Eo). cbn in HNth. rewrite Ev in HNth. discriminate HNth.
        -- apply nth_error_None in Eo. assert (k < length (filter (fun q => grid_included true (fst (snd q))) (combine (as_names A) (combine (as_elems A) x))))%nat by (apply nth_error_Some; congruence). lia.
    + intros n [].
  - destruct (over_spec _ _ _ _ _ _ H HN) as (H1 & H2 & H3 & H4). split; [split; [exact H1|]|split].
    + intros n v Hin. destruct (H2 n v Hin) as [[Hn Hin']|(Hn & j & e & xj & K1 & K2 & K3 & K4)].
      * apply HO in Hin'. destruct Hin' as (j & e & xj & K1 & K2 & K3 & K4 & K5). exists j, e, xj, true. auto 10.
      * exists j, e, xj, false. auto 10.
    + intros j e xj n K1 K2 K3 K4 Hn.
      destruct (feasible_values E e xj true true true) as [v|y] eqn:Ev.
      * exists v. split; [|reflexivity]. apply H3; [exact Hn|]. apply HO. exists j, e, xj. auto 10.
      * exfalso. apply mapM_ok in Ho. apply Forall2_nth in Ho. destruct Ho as [HL HNth].
        assert (Hin : In (n, (e, xj)) (filter (fun q => grid_included true (fst (snd q))) (combine (as_names A) (combine (as_elems A) x)))).
        { apply filter_In. split; [apply nth_error_In with (n := j); now apply combine3_nth|]. cbn [fst snd]. unfold grid_included. now rewrite K4. }
        apply In_nth_error in Hin. destruct Hin as (k & Ek).
        destruct (nth_error out k) as [p|] eqn:Eo.
        -- specialize (HNth _ _ _ Ek Eo). cbn in HNth. rewrite Ev in HNth. discriminate HNth.
        -- apply nth_error_None in Eo. assert (k < length (filter (fun q => grid_included true (fst (snd q))) (combine (as_names A) (combine (as_elems A) x))))%nat by (apply nth_error_Some; congruence). lia.
    + intros n Hn. destruct (H4 n Hn) as (v & Hv). destruct (H2 n v Hv) as [[Hn' _]|(_ & j & e & xj & K)]; [contradiction|]. exists v, j, e, xj. tauto.
Qed.

(** ** The whole build information *)
Definition info_ok E A ct w x (i : info) : Prop := exists e xj, entry_of E A ct w x i e xj.

Lemma build_info_spec E A ct w x infos : ok_env E -> wf_aset E A -> get_build_info E A ct w x = Ok infos ->
  length x = as_len A /\ wf_infos infos /\ Forall (info_ok E A ct w x) infos /\
  (* features that do not appear offer at most one value *)
  (forall j e xj n v p, nth_error (as_names A) j = Some n -> nth_error (as_elems A) j = Some e -> nth_error x j = Some xj ->
     compatible e = Some true -> ~ In n (constrained_names E (as_cons A)) -> representable e xj ->
     permitted e xj v -> improving e xj v -> isclose0 (v - xj) = false -> move_cost E ct e xj v p -> 0 < p ->
     exists i k, In i infos /\ i_idx i = j /\ (0 < k < nopt i)%nat /\ act i k = v - xj /\ cst i k = p) /\
  ((forall i, In i infos -> In (i_name i) (constrained_names E (as_cons A)) \/
     exists e, nth_error (as_elems A) (i_idx i) = Some e /\ compatible e = Some true) /\
   (* constrained features offer every change *)
   (forall j e xj n v p, nth_error (as_names A) j = Some n -> nth_error (as_elems A) j = Some e -> nth_error x j = Some xj ->
     In n (constrained_names E (as_cons A)) -> representable e xj ->
     permitted e xj v -> isclose0 (v - xj) = false -> move_cost E ct e xj v p -> 0 < p ->
     exists i k, In i infos /\ i_idx i = j /\ (0 < k < nopt i)%nat /\ act i k = v - xj /\ cst i k = p) /\
   (forall j e xj n v, nth_error (as_names A) j = Some n -> nth_error (as_elems A) j = Some e -> nth_error x j = Some xj ->
     In n (constrained_names E (as_cons A)) -> representable e xj ->
     permitted e xj v -> v <> xj -> exists i, In i infos /\ i_idx i = j)) /\
  (forall j e xj n v, nth_error (as_names A) j = Some n -> nth_error (as_elems A) j = Some e -> nth_error x j = Some xj ->
     compatible e = Some true -> ~ In n (constrained_names E (as_cons A)) -> representable e xj ->
     permitted e xj v -> improving e xj v -> v <> xj -> exists i, In i infos /\ i_idx i = j).
Proof.
  intros HOE HW H. unfold get_build_info in H. cbv zeta in H. bnd H as grid Hg. bnd H as l Hl. bnd H as u Hu.
  injection H as <-. apply passert_ok in Hu. rewrite forallb_forall in Hu.
  destruct (grid_spec _ _ _ _ HOE HW Hg) as (HL & [HN HG] & HC & HK). split; [exact HL|].
  apply mapM_ok in Hl. pose proof HW as ((_ & _ & Hnd) & Hmap & HE & _).
  set (infos := flat_map (fun o => match o with Some i => [i] | None => [] end) l) in *.
  assert (HI : forall i, In i infos <-> In (Some i) l).
  { intro i. unfold infos. rewrite in_flat_map. split.
    - intros ([i'|] & H1 & H2); [destruct H2 as [->|[]]; exact H1|destruct H2].
    - intro H1. exists (Some i). split; [exact H1|now left]. }
  assert (HS : forall n a c o, In ((n, (a, c)), o) (combine grid l) -> make_info E ct (as_names A) (constrained_names E (as_cons A)) w x n a c = Ok o).
  { intros n a c o Hin. apply (Forall2_In_combine _ _ _ _ _ Hl) in Hin. exact Hin. }
  assert (HE' : forall j e, nth_error (as_elems A) j = Some e -> elem_reachable E e).
  { intros j e He. rewrite Forall_forall in HE. apply HE. eapply nth_error_In, He. }
  assert (HEn : forall i, In i infos -> exists n a c j e xj d, In ((n, (a, c)), Some i) (combine grid l) /\
     nth_error (as_names A) j = Some n /\ nth_error (as_elems A) j = Some e /\ nth_error x j = Some xj /\
     feasible_values E e xj true true d = Ok (a, c) /\ i_idx i = j /\ i_name i = n /\ entry_of E A ct w x i e xj /\
     ((d = true /\ compatible e = Some true /\ ~ In n (constrained_names E (as_cons A))) \/ (d = false /\ In n (constrained_names E (as_cons A))))).
  { intros i Hi. pose proof Hi as Hi0. apply HI in Hi. apply In_nth_error in Hi. destruct Hi as (k & Ek).
    pose proof (Forall2_length _ _ _ Hl) as LL.
    destruct (nth_error grid k) as [[n [a c]]|] eqn:Eg.
    2:{ apply nth_error_None in Eg. assert (k < length l)%nat by (apply nth_error_Some; congruence).
        exfalso. rewrite <- LL in H. exact (Nat.lt_irrefl _ (Nat.lt_le_trans _ _ _ H Eg)). }
    assert (Hin : In ((n, (a, c)), Some i) (combine grid l)).
    { apply nth_error_In with (n := k). clear - Eg Ek. revert l k Eg Ek. induction grid as [|g grid IH]; intros [|o l] [|k]; cbn; try discriminate.
      - intros H1 H2. injection H1 as ->. injection H2 as ->. reflexivity.
      - apply IH. }
    destruct (HG n (a, c)) as (j & e & xj & d & K1 & K2 & K3 & K4 & K5); [eapply nth_error_In, Eg|].
    pose proof (HS _ _ _ _ Hin) as HM.
    destruct (entry_ok _ _ _ _ _ _ _ _ _ _ _ _ _ (HE' _ _ K2) Hnd K1 K2 K3 K4 HM (Hu i Hi0)) as [Ej EN].
    exists n, a, c, j, e, xj, d. pose proof (en_name _ _ _ _ _ _ _ _ EN) as Q. rewrite Ej in Q.
    assert (i_name i = n) by congruence. auto 15. }
  assert (HNI : NoDup (map i_idx infos)).
  { (* names of entries are distinct keys *)
    assert (HNm : NoDup (map i_name infos)).
    { clear - HN Hl HS HE' HEn HI Hnd. unfold infos. clear HEn HI. revert HN HS. clearbody infos. clear infos.
      induction Hl as [|[n [a c]] o grid l H1 H2 IH]; intros HN HS; [constructor|].
      cbn [map] in HN. inversion HN as [|? ? K1 K2]; subst. specialize (IH K2).
      assert (IH' : NoDup (map i_name (flat_map (fun o => match o with Some i => [i] | None => [] end) l))).
      { apply IH. intros n' a' c' o' Hin. apply HS. cbn. now right. }
      cbn [flat_map]. destruct o as [i|]; [|exact IH']. cbn. constructor; [|exact IH'].
      assert (NM : forall n a c i, make_info E ct (as_names A) (constrained_names E (as_cons A)) w x n a c = Ok (Some i) -> i_name i = n).
      { clear. intros n a c i H. unfold make_info in H. destruct (Nat.ltb _ _); [discriminate H|]. cbv zeta in H.
        do 6 (apply bind_ok in H; destruct H as (? & _ & H)). injection H as <-. reflexivity. }
      cbn [fst snd] in H1. rewrite (NM _ _ _ _ H1). intro Hin. apply K1. apply in_map_iff in Hin. destruct Hin as (i' & E1 & Hi').
      apply in_flat_map in Hi'. destruct Hi' as ([i2|] & L1 & L2); [|destruct L2]. destruct L2 as [->|[]].
      apply In_nth_error in L1. destruct L1 as (k & Ek). apply Forall2_nth in H2. destruct H2 as [LL H2].
      destruct (nth_error grid k) as [[n' [a' c']]|] eqn:Eg.
      2:{ apply nth_error_None in Eg. assert (k < length l)%nat by (apply nth_error_Some; congruence). lia. }
      specialize (H2 _ _ _ Eg Ek). cbn in H2. apply NM in H2. apply in_map_iff. exists (n', (a', c')). split; [cbn; congruence|eapply nth_error_In, Eg]. }
    clear - HNm HEn Hnd. assert (EQ : forall i i', In i infos -> In i' infos -> i_idx i = i_idx i' -> i_name i = i_name i').
    { intros i i' Hi Hi' E1. destruct (HEn i Hi) as (n & a & c & j & e & xj & d & _ & K & _ & _ & _ & K1 & K2 & _).
      destruct (HEn i' Hi') as (n' & a' & c' & j' & e' & xj' & d' & _ & K' & _ & _ & _ & K1' & K2' & _). congruence. }
    clear HEn. induction infos as [|i l0 IH]; [constructor|]. cbn in *. inversion HNm as [|? ? H1 H2]; subst. constructor.
    - intro Hin. apply H1. apply in_map_iff in Hin. destruct Hin as (i' & E1 & Hi'). apply in_map_iff. exists i'. split; [|exact Hi'].
      apply EQ; auto.
    - apply IH; [exact H2|]. intros; apply EQ; auto. }
  assert (HCN : forall j e xj n v, nth_error (as_names A) j = Some n -> nth_error (as_elems A) j = Some e -> nth_error x j = Some xj ->
     In n (constrained_names E (as_cons A)) -> representable e xj -> permitted e xj v -> v <> xj ->
     exists i a c, In i infos /\ feasible_values E e xj true true false = Ok (a, c) /\ make_info E ct (as_names A) (constrained_names E (as_cons A)) w x n a c = Ok (Some i)).
  { intros j e xj n v K1 K2 K3 K5 HR HPm Hne. destruct (HK n K5) as ((a & c) & j' & e' & xj' & Hin & K1' & K2' & K3' & HF).
    assert (j' = j) by (apply (proj1 (NoDup_nth_error _) Hnd); [apply nth_error_Some; congruence|congruence]). subst j'.
    assert (e' = e) by congruence. assert (xj' = xj) by congruence. subst e' xj'.
    destruct (Forall2_In_l _ _ _ _ Hl Hin) as (o & Hin2 & HM). cbn [fst snd] in HM.
    destruct o as [i|].
    - exists i, a, c. split; [apply HI; eapply in_combine_r, Hin2|auto].
    - exfalso. unfold make_info in HM. destruct (Nat.ltb_spec (length a) 2) as [L|L].
      + apply feasible_values_spec in HF. destruct HF as (_ & Ea & _). cbv iota in Ea.
        assert (I1 : In v (feasible_x e xj false)) by (apply feasible_x_In; [exact HR|]; split; [exact HPm|discriminate]).
        assert (I2 : In xj (feasible_x e xj false)) by (apply feasible_x_In; [exact HR|]; split; [now left|]; discriminate).
        rewrite Ea, map_length in L. destruct (feasible_x e xj false) as [|v1 [|v2 r]]; [destruct I1| |cbn [length] in L; lia].
        destruct I1 as [<-|[]], I2 as [->|[]]. now apply Hne.
      + cbv zeta in HM. do 6 (apply bind_ok in HM; destruct HM as (? & _ & HM)). discriminate HM. }
  split; [|split; [|split; [|split]]].
  - split; [|exact HNI]. rewrite Forall_forall. intros i Hi. destruct (HEn i Hi) as (n & a & c & j & e & xj & d & _ & _ & _ & _ & _ & _ & _ & EN & _).
    apply EN.
  - rewrite Forall_forall. intros i Hi. destruct (HEn i Hi) as (n & a & c & j & e & xj & d & _ & _ & _ & _ & _ & _ & _ & EN & _).
    exists e, xj. exact EN.
  - intros j e xj n v p K1 K2 K3 K4 K5 HR HPm HIm Hfar HMc Hp.
    destruct (HC j e xj n K1 K2 K3 K4 K5) as ((a & c) & Hin & HF).
    destruct (Forall2_In_l _ _ _ _ Hl Hin) as (o & Hin2 & HM). cbn [fst snd] in HM.
    assert (Ho : exists i, o = Some i).
    { destruct o as [i|]; [eauto|]. exfalso. unfold make_info in HM. destruct (Nat.ltb_spec (length a) 2) as [L|L].
      - apply feasible_values_spec in HF. destruct HF as (_ & Ea & _). cbn [orb] in Ea.
        assert (I1 : In v (feasible_x e xj true)) by (apply feasible_x_In; auto).
        assert (I2 : In xj (feasible_x e xj true)) by (apply feasible_x_In; [exact HR|]; split; [now left|]; intros _; apply improving_self).
        rewrite Ea, map_length in L. destruct (feasible_x e xj true) as [|v1 [|v2 r]]; [destruct I1| |cbn [length] in L; lia].
        destruct I1 as [<-|[]], I2 as [->|[]]. replace (xj - xj) with 0 in Hfar by ring. discriminate Hfar.
      - cbv zeta in HM. do 6 (apply bind_ok in HM; destruct HM as (? & _ & HM)). discriminate HM. }
    destruct Ho as (i & ->). assert (Hi : In i infos) by (apply HI; eapply in_combine_r, Hin2).
    destruct (entry_ok _ _ _ _ _ _ _ _ _ _ _ _ _ (HE' _ _ K2) Hnd K1 K2 K3 HF HM (Hu i Hi)) as [Ej EN].
    destruct (entry_complete _ _ _ _ _ _ _ _ _ _ _ _ _ v (v - xj) p (HE' _ _ K2) Hnd K1 K2 K3 HF HM (Hu i Hi) HPm (fun _ => HIm) HMc Hp Hfar eq_refl)
      as (k & Hk & E1 & E2). exists i, k. auto 10.
  - split; [|split].
    + intros i Hi. destruct (HEn i Hi) as (n & a & c & j & e & xj & d & _ & K1 & K2 & _ & _ & K5 & K6 & _ & [(_ & Hc & _)|[_ Hc]]).
      * right. exists e. rewrite K5. auto.
      * left. now rewrite K6.
    + intros j e xj n v p K1 K2 K3 K5 HR HPm Hfar HMc Hp. assert (Hne : v <> xj) by (intros ->; replace (xj - xj) with 0 in Hfar by ring; discriminate Hfar).
      destruct (HCN j e xj n v K1 K2 K3 K5 HR HPm Hne) as (i & a & c & Hi & HF & HM).
      destruct (entry_ok _ _ _ _ _ _ _ _ _ _ _ _ _ (HE' _ _ K2) Hnd K1 K2 K3 HF HM (Hu i Hi)) as [Ej EN].
      destruct (entry_complete _ _ _ _ _ _ _ _ _ _ _ _ _ v (v - xj) p (HE' _ _ K2) Hnd K1 K2 K3 HF HM (Hu i Hi) HPm ltac:(discriminate) HMc Hp Hfar eq_refl)
        as (k & Hk & E1 & E2). exists i, k. auto 10.
    + intros j e xj n v K1 K2 K3 K5 HR HPm Hne. destruct (HCN j e xj n v K1 K2 K3 K5 HR HPm Hne) as (i & a & c & Hi & HF & HM).
      destruct (entry_ok _ _ _ _ _ _ _ _ _ _ _ _ _ (HE' _ _ K2) Hnd K1 K2 K3 HF HM (Hu i Hi)) as [Ej EN]. eauto.
  - intros j e xj n v K1 K2 K3 K4 K5 HR HPm HIm Hne.
    destruct (HC j e xj n K1 K2 K3 K4 K5) as ((a & c) & Hin & HF).
    destruct (Forall2_In_l _ _ _ _ Hl Hin) as (o & Hin2 & HM). cbn [fst snd] in HM.
    assert (Ho : exists i, o = Some i).
    { destruct o as [i|]; [eauto|]. exfalso. unfold make_info in HM. destruct (Nat.ltb_spec (length a) 2) as [L|L].
      - apply feasible_values_spec in HF. destruct HF as (_ & Ea & _). cbn [orb] in Ea.
        assert (I1 : In v (feasible_x e xj true)) by (apply feasible_x_In; auto).
        assert (I2 : In xj (feasible_x e xj true)) by (apply feasible_x_In; [exact HR|]; split; [now left|]; intros _; apply improving_self).
        rewrite Ea, map_length in L. destruct (feasible_x e xj true) as [|v1 [|v2 r]]; [destruct I1| |cbn [length] in L; lia].
        destruct I1 as [<-|[]], I2 as [->|[]]. now apply Hne.
      - cbv zeta in HM. do 6 (apply bind_ok in HM; destruct HM as (? & _ & HM)). discriminate HM. }
    destruct Ho as (i & ->). assert (Hi : In i infos) by (apply HI; eapply in_combine_r, Hin2).
    destruct (entry_ok _ _ _ _ _ _ _ _ _ _ _ _ _ (HE' _ _ K2) Hnd K1 K2 K3 HF HM (Hu i Hi)) as [Ej EN]. eauto.
Qed.
