(** Proofs about the constraint registry and classifier arguments. *)
From Coq Require Import DecimalString DecimalNat DecimalFacts.
From Verif Require Export Spec_actionset Proofs_values.

Lemma Forall2_length {A B} (R : A -> B -> Prop) l m : Forall2 R l m -> length l = length m.
Proof. induction 1; cbn; congruence. Qed.

(** ** Dictionaries *)
Lemma dget_dset {V} k k' (v : V) d : dget k (dset k' v d) = if String.eqb k k' then Some v else dget k d.
Proof.
  induction d as [|[k2 v2] d IH]; cbn.
  - destruct (String.eqb k k'); reflexivity.
  - destruct (String.eqb_spec k' k2) as [->|N]; cbn.
    + destruct (String.eqb_spec k k2) as [->|]; reflexivity.
    + rewrite IH. destruct (String.eqb_spec k k2) as [->|]; [|reflexivity].
      destruct (String.eqb_spec k2 k') as [->|]; [congruence|reflexivity].
Qed.
Lemma dget_dpop {V} k k' (d : dict V) : dget k (dpop k' d) = if String.eqb k k' then None else dget k d.
Proof.
  induction d as [|[k2 v2] d IH]; cbn; [destruct (String.eqb k k'); reflexivity|].
  destruct (String.eqb_spec k' k2) as [->|N]; cbn.
  - unfold dpop in IH. rewrite IH. destruct (String.eqb_spec k k2); reflexivity.
  - unfold dpop in IH. rewrite IH. destruct (String.eqb_spec k k2) as [->|]; [|reflexivity].
    destruct (String.eqb_spec k2 k') as [->|]; [congruence|reflexivity].
Qed.
Lemma dget_In {V} k (v : V) d : dget k d = Some v -> In (k, v) d.
Proof.
  induction d as [|[k2 v2] d IH]; cbn; [discriminate|].
  destruct (String.eqb_spec k k2) as [->|]; intro H; [injection H as ->; now left|right; auto].
Qed.

Lemma smem_iff s l : smem s l = true <-> In s l.
Proof.
  unfold smem. rewrite existsb_exists. split.
  - intros (x & H & E). apply String.eqb_eq in E. now subst.
  - intro H. exists s. split; [exact H|apply String.eqb_refl].
Qed.
Lemma snodup_iff l : snodup l = true <-> NoDup l.
Proof.
  induction l as [|s r IH]; cbn; [split; [constructor|reflexivity]|].
  rewrite andb_true_iff, negb_true_iff, IH. split.
  - intros [H1 H2]. constructor; [|exact H2]. intro H. apply smem_iff in H. congruence.
  - intro H. inversion H; subst. split; [|assumption]. destruct (smem s r) eqn:E; [|reflexivity]. apply smem_iff in E. tauto.
Qed.
Lemma check_names_iff l : check_variable_names l = true <-> valid_names l.
Proof.
  unfold check_variable_names, valid_names. rewrite !andb_true_iff, snodup_iff, forallb_forall, negb_true_iff, Nat.eqb_neq.
  split.
  - intros [[H1 H2] H3]. split; [intros ->; now apply H1|]. split; [|exact H3]. intro H. apply H2 in H. discriminate.
  - intros (H1 & H2 & H3). split; [|exact H3]. split; [destruct l; [congruence|discriminate]|].
    intros x Hx. apply negb_true_iff, String.eqb_neq. intros ->. tauto.
Qed.

Lemma index_of_ok s l j : index_of s l = Some j -> nth_error l j = Some s.
Proof.
  revert j. induction l as [|t r IH]; intro j; cbn; [discriminate|].
  destruct (String.eqb_spec s t) as [->|]; [intro H; injection H as <-; reflexivity|].
  destruct (index_of s r) as [k|]; [|discriminate]. cbn. intro H. injection H as <-. cbn. now apply IH.
Qed.
Lemma index_of_none s l : index_of s l = None <-> ~ In s l.
Proof.
  induction l as [|t r IH]; cbn; [tauto|]. destruct (String.eqb_spec s t) as [->|N].
  - split; [discriminate|]. intro H. exfalso. auto.
  - destruct (index_of s r); cbn.
    + split; [discriminate|]. intro H. exfalso. assert (~ In s r) as K by tauto. apply IH in K. discriminate.
    + split; [|reflexivity]. intros _ [H|H]; [congruence|]. now apply IH.
Qed.
Lemma index_of_nodup l j s : NoDup l -> nth_error l j = Some s -> index_of s l = Some j.
Proof.
  intros Hn Hj. destruct (index_of s l) as [k|] eqn:E.
  - apply index_of_ok in E. f_equal. apply (NoDup_nth_error l); auto; [apply nth_error_Some; congruence|congruence].
  - apply index_of_none in E. exfalso. apply E. eapply nth_error_In; eauto.
Qed.

(** ** Sorting (index, name) pairs *)
Lemma pinsert_perm p l : Permutation (pinsert p l) (p :: l).
Proof.
  induction l as [|q r IH]; cbn; [reflexivity|]. destruct (Nat.leb (fst p) (fst q)); [reflexivity|].
  rewrite IH. apply perm_swap.
Qed.
Lemma psort_perm l : Permutation (psort l) l.
Proof. induction l as [|p r IH]; cbn; [reflexivity|]. rewrite pinsert_perm. now constructor. Qed.
Lemma pinsert_sorted p l : StronglySorted (fun a b => (fst a <= fst b)%nat) l ->
  StronglySorted (fun a b => (fst a <= fst b)%nat) (pinsert p l).
Proof.
  induction l as [|q r IH]; intro H; cbn; [repeat constructor|].
  inversion H as [|? ? H1 H2]; subst. destruct (Nat.leb_spec (fst p) (fst q)).
  - constructor; [exact H|]. constructor; [assumption|]. eapply Forall_impl; [|exact H2]. intros; cbn in *; lia.
  - constructor; [now apply IH|]. eapply Permutation_Forall; [symmetry; apply pinsert_perm|]. constructor; [lia|assumption].
Qed.
Lemma psort_sorted l : StronglySorted (fun a b => (fst a <= fst b)%nat) (psort l).
Proof. induction l as [|p r IH]; cbn; [constructor|]. now apply pinsert_sorted. Qed.
Lemma strict_of_nodup (l : list nat) : StronglySorted le l -> NoDup l -> StronglySorted lt l.
Proof.
  induction 1 as [|a l H IH HF]; intro HN; [constructor|]. inversion HN as [|? ? HI HN']; subst. constructor; [auto|].
  rewrite Forall_forall in *. intros y Hy. specialize (HF y Hy). assert (a <> y) by (intros ->; tauto). lia.
Qed.
Lemma ssorted_map {A} (f : A -> nat) l : StronglySorted (fun a b => (f a <= f b)%nat) l -> StronglySorted le (map f l).
Proof. induction 1 as [|a l H IH HF]; cbn; constructor; [exact IH|]. now rewrite Forall_map. Qed.

Lemma combine_split_maps {A B} (l : list A) (m : list B) : length l = length m ->
  map fst (combine l m) = l /\ map snd (combine l m) = m.
Proof.
  revert m. induction l as [|a l IH]; intros [|b m] H; try discriminate; [auto|]. cbn. injection H as H.
  destruct (IH m H) as [-> ->]. auto.
Qed.

Lemma add_spec r ns lb ub id r' i :
  add_subset_limit r ns lb ub id = Ok (r', i) -> valid_names (r_names r) ->
  i = match id with None => string_of_nat (r_counter r) | Some s => s end /\
  exists c, wf_constraint (r_names r) i c /\ Permutation (c_names c) ns /\ c_lb c = qtrunc lb /\ c_ub c = qtrunc ub /\
    r' = {| r_names := r_names r; r_counter := S (r_counter r); r_cons := dset i c (r_cons r) |}.
Proof.
  intros H HV. unfold add_subset_limit in H. cbv zeta in H.
  bnd H as u1 H1. bnd H as u2 H2. bnd H as u3 H3. bnd H as idx H4. bnd H as u5 H5. bnd H as u6 H6. bnd H as u7 H7.
  injection H as <- <-. apply passert_ok in H1, H2, H3, H5, H6, H7.
  split; [reflexivity|]. eexists. split; [|split; [|split; [|split]]]; [| | | |reflexivity]; cbn [c_names c_lb c_ub].
  2:{ apply mapM_ok in H4. apply Forall2_length in H4.
      rewrite (psort_perm (combine idx ns)). destruct (combine_split_maps idx ns) as [_ ->]; [congruence|reflexivity]. }
  2,3: reflexivity.
  apply check_names_iff in H2. destruct H2 as (_ & _ & HN). apply andb_true_iff in H3. destruct H3 as [H3 H3'].
  apply Nat.leb_le in H3, H3'. apply mapM_ok in H4. pose proof (Forall2_length _ _ _ H4) as HL.
  destruct (combine_split_maps idx ns (eq_sym HL)) as [Ef Es].
  assert (HP : Permutation (psort (combine idx ns)) (combine idx ns)) by apply psort_perm.
  assert (Hpair : Forall (fun p => nth_error (r_names r) (fst p) = Some (snd p)) (combine idx ns)).
  { clear - H4. induction H4 as [|n j ns idx Hx H IH]; [constructor|]. cbn. constructor; [|exact IH]. cbn.
    destruct (index_of n (r_names r)) as [k|] eqn:E; [|discriminate]. injection Hx as ->. now apply index_of_ok. }
  assert (HPp : Forall (fun p => nth_error (r_names r) (fst p) = Some (snd p)) (psort (combine idx ns))).
  { eapply Permutation_Forall; [symmetry; exact HP|exact Hpair]. }
  assert (Hperm : Permutation (map snd (psort (combine idx ns))) ns) by (rewrite HP, Es; reflexivity).
  assert (HNm : NoDup (map snd (psort (combine idx ns)))) by (eapply Permutation_NoDup; [symmetry; exact Hperm|exact HN]).
  red. cbn [c_id c_names c_indices c_lb c_ub].
  split; [reflexivity|]. split; [intro E; rewrite E in H1; discriminate|].
  split; [apply Permutation_length in Hperm; lia|]. split; [exact HNm|].
  split. { clear - HPp. induction HPp; cbn; constructor; auto. }
  split. { apply strict_of_nodup; [apply ssorted_map, psort_sorted|].
    clear - HPp HNm. induction HPp as [|p l Hp HF IH]; cbn in *; [constructor|]. inversion HNm as [|? ? HI HN']; subst.
    constructor; [|auto]. intro Hin. apply HI. apply in_map_iff in Hin. destruct Hin as (q & Eq & Hq).
    rewrite Forall_forall in HF. specialize (HF q Hq). rewrite Eq in HF. apply in_map_iff. exists q. split; [congruence|exact Hq]. }
  apply andb_true_iff in H5, H6. destruct H5, H6. lia.
Qed.

Definition wf_registry (r : registry) : Prop :=
  (valid_names (r_names r) /\ NoDup (map fst (r_cons r))) /\ forall id c, stored r id c -> wf_constraint (r_names r) id c.
Lemma dset_keys {V} k (v : V) d : NoDup (map fst d) -> NoDup (map fst (dset k v d)).
Proof.
  induction d as [|[k' v'] d IH]; cbn; intro H; [repeat constructor; tauto|]. inversion H as [|? ? H1 H2]; subst.
  destruct (String.eqb_spec k k') as [->|N]; cbn; constructor; auto.
  intro Hin. apply H1. clear - Hin N. induction d as [|[k2 v2] d IH]; cbn in *; [destruct Hin as [->|[]]; congruence|].
  destruct (String.eqb_spec k k2) as [->|]; cbn in *; [tauto|]. destruct Hin as [->|Hin]; [now left|right; auto].
Qed.
Lemma dpop_keys {V} k (d : dict V) : NoDup (map fst d) -> NoDup (map fst (dpop k d)).
Proof.
  unfold dpop. induction d as [|p d IH]; cbn; intro H; [exact H|]. inversion H as [|? ? H1 H2]; subst. destruct (negb _); cbn; [|auto].
  constructor; [|auto]. intro K. apply H1. apply in_map_iff in K. destruct K as (q & E & Hq). apply filter_In in Hq. apply in_map_iff. exists q. tauto.
Qed.
Lemma reg_step_keys r o : valid_names (r_names r) -> NoDup (map fst (r_cons r)) -> NoDup (map fst (r_cons (reg_step r o))).
Proof.
  intros HV HN. destruct o as [ns lb ub oid|rid]; cbn [reg_step].
  - destruct (add_subset_limit r ns lb ub oid) as [[r' i]|] eqn:H; [|exact HN].
    destruct (add_spec _ _ _ _ _ _ _ H HV) as (_ & c0 & Hc & _ & _ & _ & ->). cbn [r_cons]. now apply dset_keys.
  - destruct (registry_remove r rid) as [r'|] eqn:H; [|exact HN]. unfold registry_remove in H. bnd H as u Hu.
    destruct (dget rid (r_cons r)); [|discriminate]. injection H as <-. cbn [r_cons]. now apply dpop_keys.
Qed.
Lemma reg_step_names r o : r_names (reg_step r o) = r_names r.
Proof.
  destruct o as [ns lb ub id|id]; cbn.
  - destruct (add_subset_limit r ns lb ub id) as [[r' i]|] eqn:H; [|reflexivity]. unfold add_subset_limit in H. cbv zeta in H.
    bnd H as u1 H1. bnd H as u2 H2. bnd H as u3 H3. bnd H as idx H4. bnd H as u5 H5. bnd H as u6 H6. bnd H as u7 H7.
    injection H as <- _. reflexivity.
  - destruct (registry_remove r id) as [r'|] eqn:H; [|reflexivity]. unfold registry_remove in H. bnd H as u Hu.
    destruct (dget id (r_cons r)); [|discriminate]. injection H as <-. reflexivity.
Qed.
Lemma wf_step r o : wf_registry r -> wf_registry (reg_step r o).
Proof.
  intros [[HV HN] HW]. unfold wf_registry. rewrite reg_step_names. split; [split; [exact HV|now apply reg_step_keys]|]. intros id c.
  destruct o as [ns lb ub oid|rid]; cbn [reg_step].
  - destruct (add_subset_limit r ns lb ub oid) as [[r' i]|] eqn:H; [|apply HW].
    destruct (add_spec _ _ _ _ _ _ _ H HV) as (_ & c0 & Hc & _ & _ & _ & ->). unfold stored. cbn [r_cons r_names].
    rewrite dget_dset. destruct (String.eqb_spec id i) as [->|]; [intro E; injection E as <-; exact Hc|apply HW].
  - destruct (registry_remove r rid) as [r'|] eqn:H; [|apply HW]. unfold registry_remove in H. bnd H as u Hu.
    destruct (dget rid (r_cons r)); [|discriminate]. injection H as <-. unfold stored. cbn [r_cons r_names].
    rewrite dget_dpop. destruct (String.eqb id rid); [discriminate|apply HW].
Qed.
Lemma wf_run r ops : wf_registry r -> wf_registry (reg_run r ops).
Proof. revert r. induction ops as [|o ops IH]; intros r H; [exact H|]. cbn. apply IH, wf_step, H. Qed.
Lemma wf_empty names : valid_names names -> wf_registry (empty_registry names).
Proof. intro H. split; [split; [exact H|constructor]|]. intros id c Hs. discriminate. Qed.
Lemma c21 names ops id c : valid_names names -> stored (reg_run (empty_registry names) ops) id c -> wf_constraint names id c.
Proof.
  intros HV Hs. pose proof (wf_run _ ops (wf_empty _ HV)) as [_ HW]. specialize (HW id c Hs).
  assert (EN : forall ops r, r_names (reg_run r ops) = r_names r).
  { clear. induction ops as [|o ops IH]; intro r; [reflexivity|]. cbn. etransitivity; [apply IH|apply reg_step_names]. }
  now rewrite EN in HW.
Qed.

(** ** Automatic ids *)
Lemma string_of_nat_inj n m : string_of_nat n = string_of_nat m -> n = m.
Proof.
  unfold string_of_nat. intro H. apply (f_equal NilZero.uint_of_string) in H.
  assert (K : forall k, NilZero.uint_of_string (NilZero.string_of_uint (Nat.to_uint k)) = Some (Nat.to_uint k)).
  { intro k. apply NilZero.usu.
    rewrite <- (Unsigned.of_to k) at 1. rewrite Unsigned.to_of.
    unfold Decimal.unorm. destruct (Decimal.nzhead _) eqn:E; discriminate. }
  rewrite !K in H. injection H as H. now apply Unsigned.to_uint_inj.
Qed.
Lemma string_of_nat_ne n : string_of_nat n <> "".
Proof.
  intro H. assert (E : NilZero.uint_of_string (string_of_nat n) = NilZero.uint_of_string "") by now rewrite H.
  unfold string_of_nat in E. cbn in E.
  rewrite NilZero.usu in E; [discriminate|].
  rewrite <- (Unsigned.of_to n), Unsigned.to_of. unfold Decimal.unorm. destruct (Decimal.nzhead _); discriminate.
Qed.

(** Ids in use: automatic ones are below the counter. *)
Definition ids_below (r : registry) : Prop :=
  forall n c, stored r (string_of_nat n) c -> (n < r_counter r)%nat.
Lemma ids_step r o : valid_names (r_names r) -> no_numeral_id o -> ids_below r -> ids_below (reg_step r o).
Proof.
  intros HV HO HI. destruct o as [ns lb ub oid|rid]; cbn [reg_step].
  - destruct (add_subset_limit r ns lb ub oid) as [[r' i]|] eqn:H; [|exact HI].
    destruct (add_spec _ _ _ _ _ _ _ H HV) as (Ei & c0 & _ & _ & _ & _ & ->).
    intros n c. unfold stored. cbn [r_cons r_counter]. rewrite dget_dset.
    destruct (String.eqb_spec (string_of_nat n) i) as [E|].
    + intros _. destruct oid as [s|]; subst i; [exfalso; eapply HO; symmetry; exact E|].
      apply string_of_nat_inj in E. lia.
    + intro Hs. apply HI in Hs. lia.
  - destruct (registry_remove r rid) as [r'|] eqn:H; [|exact HI]. unfold registry_remove in H. bnd H as u Hu.
    destruct (dget rid (r_cons r)); [|discriminate]. injection H as <-. intros n c. unfold stored. cbn [r_cons r_counter].
    rewrite dget_dpop. destruct (String.eqb _ rid); [discriminate|apply HI].
Qed.
Lemma ids_run r ops : valid_names (r_names r) -> Forall no_numeral_id ops -> ids_below r -> ids_below (reg_run r ops).
Proof.
  revert r. induction ops as [|o ops IH]; intros r HV HF HI; [exact HI|]. inversion HF; subst. cbn.
  apply IH; [now rewrite reg_step_names|assumption|]. now apply ids_step.
Qed.
Lemma run_names r ops : r_names (reg_run r ops) = r_names r.
Proof. revert r. induction ops as [|o ops IH]; intro r; [reflexivity|]. cbn. etransitivity; [apply IH|apply reg_step_names]. Qed.
Lemma c22_partial names ops ns lb ub r' i : valid_names names -> Forall no_numeral_id ops ->
  let r := reg_run (empty_registry names) ops in
  add_subset_limit r ns lb ub None = Ok (r', i) ->
  (forall c, ~ stored r i c) /\ (exists c, stored r' i c /\ Permutation (c_names c) ns /\ c_lb c = qtrunc lb /\ c_ub c = qtrunc ub) /\
  (forall id c, id <> i -> (stored r' id c <-> stored r id c)).
Proof.
  intros HV HF r H. assert (HVr : valid_names (r_names r)) by (unfold r; now rewrite run_names).
  assert (HI : ids_below r). { apply ids_run; auto. intros n c Hs. discriminate. }
  destruct (add_spec _ _ _ _ _ _ _ H HVr) as (Ei & c0 & _ & HP & Hl & Hu & ->). split.
  - intros c Hs. rewrite Ei in Hs. apply HI in Hs. lia.
  - split.
    + exists c0. unfold stored. cbn [r_cons]. rewrite dget_dset, String.eqb_refl. auto.
    + intros id c Hne. unfold stored. cbn [r_cons]. rewrite dget_dset. apply String.eqb_neq in Hne. now rewrite Hne.
Qed.

Lemma add_remove r ns lb ub id r' i : valid_names (r_names r) -> add_subset_limit r ns lb ub id = Ok (r', i) ->
  (forall c, ~ stored r i c) -> exists r2, registry_remove r' i = Ok r2 /\ same_constraints r2 r.
Proof.
  intros HV H Hfresh. destruct (add_spec _ _ _ _ _ _ _ H HV) as (Ei & c0 & Hc & _ & _ & _ & ->).
  unfold registry_remove. cbn [r_cons]. rewrite dget_dset, String.eqb_refl.
  destruct Hc as (_ & Hne & _). apply String.eqb_neq in Hne. rewrite Hne. cbn [negb passert bind]. eexists. split; [reflexivity|].
  intros id' c. unfold stored. cbn [r_cons]. rewrite dget_dpop, dget_dset.
  destruct (String.eqb_spec id' i) as [->|]; [|reflexivity]. split; [discriminate|]. intro Hs. exfalso. eapply Hfresh, Hs.
Qed.
Lemma remove_only r id r' : registry_remove r id = Ok r' ->
  (exists c, stored r id c) /\ (forall c, ~ stored r' id c) /\
  forall id' c, id' <> id -> (stored r' id' c <-> stored r id' c).
Proof.
  unfold registry_remove. intro H. bnd H as u Hu. destruct (dget id (r_cons r)) as [c0|] eqn:E; [|discriminate].
  injection H as <-. split; [exists c0; exact E|]. unfold stored. cbn [r_cons]. split.
  - intros c. rewrite dget_dpop, String.eqb_refl. discriminate.
  - intros id' c Hne. rewrite dget_dpop. apply String.eqb_neq in Hne. now rewrite Hne.
Qed.
Lemma remove_unknown r id : (forall c, ~ stored r id c) -> exists x, registry_remove r id = Err x.
Proof.
  intro H. unfold registry_remove. destruct (negb (String.eqb id "")); cbn; [|eauto].
  destruct (dget id (r_cons r)) as [c|] eqn:E; [exfalso; eapply H, E|eauto].
Qed.
Lemma add_accepted r ns lb ub id : valid_names (r_names r) ->
  id <> Some "" -> valid_names ns -> (2 <= length ns)%nat -> incl ns (r_names r) ->
  (0 <= qtrunc lb <= qtrunc ub)%Z -> (qtrunc ub <= Z.of_nat (length (r_names r)))%Z ->
  exists r' i, add_subset_limit r ns lb ub id = Ok (r', i).
Proof.
  intros HV Hid Hn H2 Hincl Hl Hu. unfold add_subset_limit. cbv zeta.
  assert (E1 : String.eqb (match id with None => string_of_nat (r_counter r) | Some s => s end) "" = false).
  { apply String.eqb_neq. destruct id; [congruence|apply string_of_nat_ne]. }
  rewrite E1. cbn [negb passert bind]. apply check_names_iff in Hn as Hn'. rewrite Hn'. cbn [passert bind].
  assert (HL : (length ns <= length (r_names r))%nat) by (apply NoDup_incl_length; [apply Hn|exact Hincl]).
  apply Nat.leb_le in H2 as H2', HL as HL'. rewrite H2', HL'. cbn [andb passert bind].
  assert (HM : exists idx, mapM (fun n => of_option ValueError (index_of n (r_names r))) ns = Ok idx).
  { clear - Hincl. induction ns as [|n ns IH]; [exists []; reflexivity|]. cbn.
    destruct (index_of n (r_names r)) eqn:E; [|apply index_of_none in E; exfalso; apply E, Hincl; now left].
    cbn. destruct IH as (idx & ->); [intros y Hy; apply Hincl; now right|]. cbn. eauto. }
  destruct HM as (idx & ->). cbn [bind].
  replace ((0 <=? qtrunc lb) && (qtrunc lb <=? Z.of_nat (length (r_names r))))%Z with true by (symmetry; apply andb_true_iff; lia).
  replace ((0 <=? qtrunc ub) && (qtrunc ub <=? Z.of_nat (length (r_names r))))%Z with true by (symmetry; apply andb_true_iff; lia).
  replace (qtrunc lb <=? qtrunc ub)%Z with true by (symmetry; apply Z.leb_le; lia). cbn. eauto.
Qed.

(** ** Classifier arguments *)
Lemma finite_all_ok l w : finite_all l = Ok w <-> Forall2 is_finite l w.
Proof.
  revert w. induction l as [|f l IH]; intro w; cbn.
  - split; intro H; [injection H as <-; constructor|inversion H; reflexivity].
  - split; intro H.
    + destruct f; try discriminate. bnd H as qs Hq. injection H as <-. constructor; [reflexivity|]. now apply IH.
    + inversion H as [|? q ? w' H1 H2]; subst. red in H1. subst f. apply IH in H2. rewrite H2. reflexivity.
Qed.
Lemma finite_one_ok f q : finite_one f = Ok q <-> is_finite f q.
Proof. unfold is_finite. destruct f; cbn; split; intro H; try discriminate; injection H as ->; reflexivity. Qed.
Lemma to_float_ok a f : to_float a = Ok f <-> number_of a f.
Proof.
  unfold number_of. split.
  - destruct a as [c|[|g [|? ?]]|g|]; cbn; intro H; try discriminate; injection H as ->; auto.
  - intros [->| ->]; reflexivity.
Qed.
Lemma to_vec_ok a l : to_vec a = Ok l <-> vector_of a l.
Proof.
  unfold vector_of. split.
  - destruct a; cbn; intro H; try discriminate; injection H as <-; eauto.
  - intros [->|(f & -> & ->)]; reflexivity.
Qed.
Lemma from_clf_ok a p : from_clf a = Ok p <-> exists w t, p = (AVec w, AVec t) /\ linear_clf a w t.
Proof.
  unfold from_clf, is_sklearn_linear_classifier, linear_clf. split.
  - destruct a as [c| | |]; try discriminate.
    destruct (clf_classes c) as [n|] eqn:E1; [|discriminate]. destruct (Nat.eqb_spec n 2) as [->|]; [|discriminate].
    destruct (clf_coef c) as [w|] eqn:E2; [|discriminate]. destruct (clf_intercept c) as [t|] eqn:E3; [|discriminate].
    intro H. injection H as <-. exists w, t. split; [reflexivity|]. exists c. auto.
  - intros (w & t & -> & c & -> & E1 & E2 & E3). rewrite E1, E2, E3. reflexivity.
Qed.
Lemma tail_ok w t wq tq : (let! t' := to_float t in let! w' := to_vec w in let! wq := finite_all w' in
  let! tq := finite_one t' in Ok (wq, tq)) = Ok (wq, tq) <->
  exists w' t', vector_of w w' /\ number_of t t' /\ Forall2 is_finite w' wq /\ is_finite t' tq.
Proof.
  split.
  - intro H. bnd H as t' H1. bnd H as w' H2. bnd H as a H3. bnd H as b H4. injection H as <- <-.
    exists w', t'. rewrite <- to_vec_ok, <- to_float_ok, <- finite_all_ok, <- finite_one_ok. auto.
  - intros (w' & t' & H1 & H2 & H3 & H4). apply to_vec_ok in H1. apply to_float_ok in H2.
    apply finite_all_ok in H3. apply finite_one_ok in H4. rewrite H2, H1. cbn. rewrite H3, H4. reflexivity.
Qed.
Lemma c24 a wq tq : parse_classifier_args a = Ok (wq, tq) <->
  exists w t, describes a w t /\ Forall2 is_finite w wq /\ is_finite t tq.
Proof.
  unfold parse_classifier_args. split.
  - intro H. bnd H as [wa ta] H1. apply tail_ok in H. destruct H as (w & t & V & N & F1 & F2). exists w, t.
    split; [|auto]. destruct (k_clf a) as [c|] eqn:K1.
    { apply from_clf_ok in H1. destruct H1 as (w1 & t1 & E & L). injection E as -> ->.
      destruct V as [V|(f & V & _)]; [|discriminate]. injection V as ->.
      destruct N as [N|N]; [discriminate|]. injection N as ->. eapply by_clf; eauto. }
    destruct (k_classifier a) as [c|] eqn:K2.
    { apply from_clf_ok in H1. destruct H1 as (w1 & t1 & E & L). injection E as -> ->.
      destruct V as [V|(f & V & _)]; [|discriminate]. injection V as ->.
      destruct N as [N|N]; [discriminate|]. injection N as ->. eapply by_classifier; eauto. }
    destruct (k_coefs a) as [c|] eqn:K3.
    { injection H1 as -> <-. destruct (k_intercept a) as [s|] eqn:K4.
      - eapply by_coefs; eauto.
      - destruct N as [N|N]; [|discriminate]. injection N as <-. eapply by_coefs0; eauto. }
    destruct (a_pos a) as [|p1 [|p2 [|p3 ps]]] eqn:K4; try discriminate.
    + destruct p1 as [c|l|f|]; try discriminate.
      * destruct (is_sklearn_linear_classifier c) eqn:ES; [|discriminate].
        apply from_clf_ok in H1. destruct H1 as (w1 & t1 & E & L). injection E as -> ->.
        destruct V as [V|(f & V & _)]; [|discriminate]. injection V as ->.
        destruct N as [N|N]; [discriminate|]. injection N as ->. eapply by_pos_clf; eauto.
      * injection H1 as <- <-. destruct V as [V|(f & V & _)]; [|discriminate]. injection V as ->.
        destruct N as [N|N]; [|discriminate]. injection N as <-. now apply by_pos_vec.
    + assert (H1' : (let! f := to_float p2 in Ok (p1, ANum f)) = Ok (wa, ta)) by (destruct p1; exact H1). clear H1.
      bnd H1' as f Hf. injection H1' as <- <-. apply to_float_ok in Hf. destruct N as [N|N]; [|discriminate].
      injection N as ->. eapply by_pos2; eauto.
    + destruct p1; discriminate.
  - intros (w & t & D & F1 & F2).
    assert (K : forall wa ta, vector_of wa w -> number_of ta t ->
      (let! t' := to_float ta in let! w' := to_vec wa in let! wq := finite_all w' in
       let! tq := finite_one t' in Ok (wq, tq)) = Ok (wq, tq)) by (intros; apply tail_ok; eauto 10).
    assert (KL : forall c, linear_clf c w [t] -> from_clf c = Ok (AVec w, AVec [t])) by (intros c L; apply from_clf_ok; eauto).
    destruct D as [a c w t K1 L|a c w t K1 K2 L|a v w K1 K2 K3 K4 V|a v s w t K1 K2 K3 K4 V N|a c w t K1 K2 K3 K4 L|a w K1 K2 K3 K4|a v s w t K1 K2 K3 K4 V N];
      rewrite K1, ?K2, ?K3, ?K4.
    + rewrite (KL c L). apply K; [now left|now right].
    + rewrite (KL c L). apply K; [now left|now right].
    + apply K; [exact V|now left].
    + apply K; [exact V|exact N].
    + pose proof (KL c L) as E. destruct L as (c0 & -> & E1 & E2 & E3). 
      assert (ES : is_sklearn_linear_classifier c0 = true) by (unfold is_sklearn_linear_classifier; rewrite E1, E2, E3; reflexivity).
      rewrite ES, E. apply K; [now left|now right].
    + apply K; [now left|now left].
    + assert (E : (let! (w0, t0) := match v with _ => let! f := to_float s in Ok (v, ANum f) end in
         let! t' := to_float t0 in let! w' := to_vec w0 in let! wq := finite_all w' in
         let! tq := finite_one t' in Ok (wq, tq)) = Ok (wq, tq)).
      { apply to_float_ok in N. rewrite N. apply K; [exact V|now left]. }
      destruct v; exact E.
Qed.
Lemma c24_forms c w t : linear_clf (AClf c) w [t] ->
  let via a := parse_classifier_args a in
  let kw := via {| k_clf := Some (AClf c); k_classifier := None; k_coefs := None; k_intercept := None; a_pos := [] |} in
  via {| k_clf := None; k_classifier := Some (AClf c); k_coefs := None; k_intercept := None; a_pos := [] |} = kw /\
  via {| k_clf := None; k_classifier := None; k_coefs := None; k_intercept := None; a_pos := [AClf c] |} = kw /\
  via {| k_clf := None; k_classifier := None; k_coefs := Some (AVec w); k_intercept := Some (ANum t); a_pos := [] |} = kw /\
  via {| k_clf := None; k_classifier := None; k_coefs := None; k_intercept := None; a_pos := [AVec w; ANum t] |} = kw.
Proof.
  intros L via kw. assert (F : from_clf (AClf c) = Ok (AVec w, AVec [t])) by (apply from_clf_ok; eauto).
  assert (ES : is_sklearn_linear_classifier c = true).
  { destruct L as (c0 & E & E1 & E2 & E3). injection E as <-. unfold is_sklearn_linear_classifier. rewrite E1, E2, E3. reflexivity. }
  unfold kw, via, parse_classifier_args. cbn [k_clf k_classifier k_coefs k_intercept a_pos].
  rewrite ES, F. repeat split; reflexivity.
Qed.
Lemma c24_errors a : (forall w t, ~ describes a w t) -> exists x, parse_classifier_args a = Err x.
Proof.
  intro H. destruct (parse_classifier_args a) as [[w t]|x] eqn:E; [|eauto].
  apply c24 in E. destruct E as (w' & t' & D & _). exfalso. eapply H, D.
Qed.
