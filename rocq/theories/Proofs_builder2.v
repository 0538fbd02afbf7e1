(** Proofs of the properties of populate: C36-C40. *)
From Verif Require Import Proofs_props_element Proofs_props_actionset Spec_recourse Proofs_mip Proofs_info Proofs_vec Proofs_build Proofs_enum Proofs_session Proofs_recourse Proofs_subset Proofs_exchange Proofs_far Proofs_concrete Proofs_builder.
#[local] Open Scope list_scope.
#[local] Open Scope Qc_scope.

Lemma enum_nth fin k ct infos : forall l P i ec, enum fin k ct infos P l -> nth_error l i = Some ec ->
  after k infos P (firstn i l) (snd ec) /\ (fin -> best ct infos (after k infos P (firstn i l)) (snd ec)).
Proof.
  induction l as [|e l IH]; intros P i ec H Hi; [destruct i; discriminate Hi|]. destruct H as (H1 & H2 & H3). destruct i as [|i]; cbn in Hi.
  - injection Hi as <-. cbn. auto.
  - cbn [firstn]. change (after k infos P (e :: firstn i l)) with (after k infos (step_of k infos P e) (firstn i l)). now apply IH.
Qed.
Lemma firstn_In {A} (l : list A) i j a : (i < j)%nat -> nth_error l i = Some a -> In a (firstn j l).
Proof. revert i j. induction l as [|b l IH]; intros [|i] [|j] L H; cbn in *; try discriminate; try lia; [injection H as <-; now left|]. right. apply (IH i j); [lia|exact H]. Qed.
Lemma In_firstn_nth {A} (l : list A) j a : In a (firstn j l) -> exists i, (i < j)%nat /\ nth_error l i = Some a.
Proof.
  revert j. induction l as [|b l IH]; intros [|j] H; cbn in H; try destruct H as []. 
  - exists 0%nat. subst. split; [lia|reflexivity].
  - destruct (IH j H) as (i & L & Hi). exists (S i). split; [lia|exact Hi].
Qed.
(** The sequence of everything returned by populate, as choices. *)
Definition items_of (ct : cost_type) (n : nat) (infos : list info) (opt : Prop) (ecs : list (enum_type * choice)) (l : list (enum_type * sol)) : Prop :=
  Forall2 (fun ec es => fst ec = fst es /\ item_of ct n infos (snd ec) opt (snd es)) ecs l.
Lemma enumeration_good sv b l b' : enumeration sv b l b' -> forall ms P, sound_solver sv -> good b ms P ->
  exists ecs ms', items_of (bd_cost b) (length (bd_w b)) (ms_infos ms) (finishing_solver sv) ecs l /\
    enum (finishing_solver sv) (bd_kind b) (bd_cost b) (ms_infos ms) P ecs /\ ms_infos ms' = ms_infos ms /\ same_settings b b' /\
    good b' ms' (after (bd_kind b) (ms_infos ms) P ecs).
Proof.
  induction 1 as [b|b b1 r l b2 HF HE IH|b fuel total et b1 l1 l b2 HP HE IH]; intros ms P HS G.
  - exists [], ms. split; [constructor|]. split; [exact I|]. split; [reflexivity|]. split; [apply same_settings_refl|exact G].
  - destruct (fit_good sv b ms P HS G) as (b1' & r' & o & EF & _ & G1 & SS1 & _). rewrite HF in EF. injection EF as <- <-.
    destruct (IH ms P HS G1) as (ecs & ms' & H1 & H2 & H3 & H4 & H5). pose proof SS1 as (K1 & K2 & _ & _ & K5 & _). rewrite K1, K2, K5 in *.
    exists ecs, ms'. split; [exact H1|]. split; [exact H2|]. split; [exact H3|]. split; [eapply same_settings_trans; eauto|exact H5].
  - destruct (populate_good' _ _ _ _ _ _ _ _ _ HS G HP) as (chs & ms1 & F2 & EN & EI & SS & G1 & _).
    destruct (IH ms1 _ HS G1) as (ecs & ms' & H1 & H2 & H3 & H4 & H5). pose proof SS as (K1 & K2 & _ & _ & K5 & _). rewrite K1, K2, K5, EI in *.
    exists (map (pair et) chs ++ ecs), ms'. split; [|split; [|split; [congruence|split; [eapply same_settings_trans; eauto|]]]].
    + apply Forall2_app; [|exact H1]. clear - F2. induction F2; cbn; constructor; cbn; auto.
    + apply enum_app. split; [exact EN|exact H2].
    + rewrite after_app. exact H5.
Qed.
Lemma items_nth ct n infos opt ecs l i es : items_of ct n infos opt ecs l -> nth_error l i = Some es ->
  exists ec, nth_error ecs i = Some ec /\ fst ec = fst es /\ item_of ct n infos (snd ec) opt (snd es).
Proof.
  intros H Hi. apply Forall2_nth in H. destruct H as [HL H]. destruct (nth_error ecs i) as [ec|] eqn:Ei.
  - exists ec. split; [reflexivity|]. exact (H _ _ _ Ei Hi).
  - apply nth_error_None in Ei. assert (i < length l)%nat by (apply nth_error_Some; congruence). lia.
Qed.
Lemma items_nth' ct n infos opt ecs l i ec : items_of ct n infos opt ecs l -> nth_error ecs i = Some ec ->
  exists es, nth_error l i = Some es /\ fst ec = fst es /\ item_of ct n infos (snd ec) opt (snd es).
Proof.
  intros H Hi. apply Forall2_nth in H. destruct H as [HL H]. destruct (nth_error l i) as [es|] eqn:Ei.
  - exists es. split; [reflexivity|]. exact (H _ _ _ Hi Ei).
  - apply nth_error_None in Ei. assert (i < length ecs)%nat by (apply nth_error_Some; congruence). lia.
Qed.

Lemma nth_all {B} n (l : list B) j : length l = n -> (j < n)%nat -> exists b, nth_error l j = Some b.
Proof. intros H L. destruct (nth_error l j) eqn:E; [eauto|]. apply nth_error_None in E. lia. Qed.
Lemma changes_iff a j : changes a j <-> negb (nth j a 0 =? 0) = true.
Proof.
  rewrite negb_true_iff. unfold changes. split.
  - intros (v & H & N). rewrite (nth_error_nth _ _ _ H). now qbool.
  - intro H. qbool. destruct (nth_error a j) as [v|] eqn:Ej.
    + exists v. split; [reflexivity|]. now rewrite (nth_error_nth _ _ _ Ej) in H.
    + apply nth_error_None in Ej. rewrite nth_overflow in H by exact Ej. congruence.
Qed.
Lemma changes_lt a j : changes a j -> (j < length a)%nat.
Proof. intros (v & H & _). apply nth_error_Some. congruence. Qed.
Lemma changes_dec a j : {changes a j} + {~ changes a j}.
Proof. destruct (negb (nth j a 0 =? 0)) eqn:Q; [left|right; intro H; apply changes_iff in H; congruence]. now apply changes_iff. Qed.
Lemma rules_out_nn et a a' : ~ ~ rules_out et a a' -> rules_out et a a'.
Proof.
  intro H. destruct et; cbn [rules_out] in *.
  - destruct (existsb (fun j => (if changes_dec a j then true else false) && (if changes_dec a' j then true else false)) (seq 0 (length a))) eqn:Q.
    + apply existsb_exists in Q. destruct Q as (j & _ & Q). exists j. destruct (changes_dec a j), (changes_dec a' j); try discriminate Q. auto.
    + exfalso. apply H. intros (j & H1 & H2).
      assert (existsb (fun j => (if changes_dec a j then true else false) && (if changes_dec a' j then true else false)) (seq 0 (length a)) = true); [|congruence].
      apply existsb_exists. exists j. split; [apply in_seq; apply changes_lt in H1; lia|]. destruct (changes_dec a j), (changes_dec a' j); tauto.
  - intro j. destruct (changes_dec a j) as [D|D], (changes_dec a' j) as [D'|D']; try tauto; exfalso; apply H; intro K; specialize (K j); tauto.
Qed.

Section Enum.
Context (E : env) (sv : solver) (b : builder) (x : list Qc) (b0 : builder).
Context (HE : ok_env E) (HS : sound_solver sv) (HA : assigned E sv b x b0).

Lemma enumeration_ready l b1 : enumeration sv b0 l b1 -> exists ms ecs ms', ready E b x b0 ms /\
  items_of (bd_cost b) (as_len (bd_A b)) (ms_infos ms) (finishing_solver sv) ecs l /\
  enum (finishing_solver sv) (bd_kind b) (bd_cost b) (ms_infos ms) (accept (bd_A b) (bd_w b) (bd_t b) (bd_min b) (bd_max b) x (ms_infos ms)) ecs /\
  ms_infos ms' = ms_infos ms /\ same_settings b0 b1 /\
  good b1 ms' (after (bd_kind b) (ms_infos ms) (accept (bd_A b) (bd_w b) (bd_t b) (bd_min b) (bd_max b) x (ms_infos ms)) ecs).
Proof.
  intro H. destruct (assigned_ready E sv b x b0 HE HA) as (ms & R). destruct (enumeration_good _ _ _ _ H ms _ HS (rd_good _ _ _ _ _ R)) as (ecs & ms' & H1 & H2 & H3 & H4 & H5).
  destruct (rd_n _ _ _ _ _ R) as (N1 & N2 & N3). rewrite N1, N2, N3 in *. exists ms, ecs, ms'. auto 10.
Qed.
Lemma changes_moved ms ch : ready E b x b0 ms -> ch_ok (ms_infos ms) ch -> forall j,
  changes (avec (as_len (bd_A b)) (ms_infos ms) ch) j <-> exists i, In i (ms_infos ms) /\ i_idx i = j /\ moved ch i = true.
Proof.
  intros R Hc j. apply (avec_changes E (bd_A b) (bd_cost b) (bd_w b) x); eauto using rd_infos, rd_ok, rd_el, rd_w, rd_x.
Qed.
(** Exclusion in terms of features. *)
Lemma excl_me ms k ch ch' : ready E b x b0 ms -> ch_ok (ms_infos ms) ch -> ch_ok (ms_infos ms) ch' ->
  (excl MutuallyExclusive k (ms_infos ms) ch ch' <-> ~ shares (avec (as_len (bd_A b)) (ms_infos ms) ch) (avec (as_len (bd_A b)) (ms_infos ms) ch')).
Proof.
  intros R Hc Hc'. cbn [excl]. split.
  - intros H (j & H1 & H2). apply (changes_moved ms ch R Hc) in H1. apply (changes_moved ms ch' R Hc') in H2.
    destruct H1 as (i & Hi & Hj & Hm), H2 as (i' & Hi' & Hj' & Hm'). assert (i' = i) by (apply (idx_inj (ms_infos ms)); auto using (rd_infos _ _ _ _ _ R); congruence).
    subst i'. rewrite (H i Hi Hm) in Hm'. discriminate Hm'.
  - intros H i Hi Hm. destruct (moved ch' i) eqn:Hm'; [|reflexivity]. exfalso. apply H. exists (i_idx i). split; [apply (changes_moved ms ch R Hc)|apply (changes_moved ms ch' R Hc')]; eauto.
Qed.
Lemma excl_ds ms ch ch' : ready E b x b0 ms -> ch_ok (ms_infos ms) ch -> ch_ok (ms_infos ms) ch' ->
  (excl DistinctSubsets PyMIP (ms_infos ms) ch ch' <-> ~ same_features (avec (as_len (bd_A b)) (ms_infos ms) ch) (avec (as_len (bd_A b)) (ms_infos ms) ch')).
Proof.
  intros R Hc Hc'. cbn [excl]. split.
  - intros (i & Hi & Hd) H. specialize (H (i_idx i)). rewrite (changes_moved ms ch R Hc), (changes_moved ms ch' R Hc') in H.
    assert (K : moved ch i = true <-> moved ch' i = true).
    { split; intro M; [destruct (proj1 H) as (i' & Hi' & Hj' & Hm'); [eauto|]|destruct (proj2 H) as (i' & Hi' & Hj' & Hm'); [eauto|]];
        (assert (i' = i) by (apply (idx_inj (ms_infos ms)); auto using (rd_infos _ _ _ _ _ R))); subst i'; exact Hm'. }
    apply Hd. destruct (moved ch i), (moved ch' i); try reflexivity; destruct K as [K1 K2]; [now rewrite (K1 eq_refl)|now rewrite K2].
  - intro H. destruct (existsb (fun i => xorb (moved ch i) (moved ch' i)) (ms_infos ms)) eqn:Ex.
    + apply existsb_exists in Ex. destruct Ex as (i & Hi & Hx). exists i. split; [exact Hi|]. now apply xorb_iff.
    + exfalso. apply H. intro j. rewrite (changes_moved ms ch R Hc), (changes_moved ms ch' R Hc').
      assert (K : forall i, In i (ms_infos ms) -> moved ch i = moved ch' i).
      { intros i Hi. destruct (xorb (moved ch i) (moved ch' i)) eqn:Q.
        - exfalso. assert (existsb (fun i => xorb (moved ch i) (moved ch' i)) (ms_infos ms) = true) by (apply existsb_exists; eauto). congruence.
        - destruct (moved ch i), (moved ch' i); cbn in Q; congruence. }
      split; intros (i & Hi & Hj & Hm); exists i; (split; [exact Hi|]; split; [exact Hj|]); [rewrite <- K by exact Hi|rewrite K by exact Hi]; exact Hm.
Qed.
(** The features under constraints are on/off: the only change offered to one that is on turns it off. *)
Lemma lit_moved ms i ch ch' : switches_off E (bd_A b) x -> ready E b x b0 ms -> In i (ms_infos ms) -> ch_ok (ms_infos ms) ch -> ch_ok (ms_infos ms) ch' ->
  (lit ch i <> lit ch' i <-> moved ch i <> moved ch' i).
Proof.
  intros HO R Hi Hc Hc'. destruct (info_ok_at _ _ _ _ _ _ _ (rd_ok _ _ _ _ _ R) Hi) as (e & xj & EN). pose proof (wfi' _ (rd_infos _ _ _ _ _ R) i Hi) as Wi.
  pose proof (en_null _ _ _ _ _ _ _ _ EN) as K. destruct (smem (i_name i) (constrained_names E (as_cons (bd_A b))) && (0 <? xj)) eqn:Q.
  - apply andb_true_iff in Q. destruct Q as [Q1 Q2]. apply smem_iff in Q1. qbool.
    assert (Hk : forall k, (k < nopt i)%nat -> k = 0%nat \/ k = i_knull i).
    { intros k Lk. destruct k as [|k]; [now left|right].
      pose proof (en_perm _ _ _ _ _ _ _ _ EN (S k) Lk) as Pk.
      destruct (HO _ _ _ _ _ (en_name _ _ _ _ _ _ _ _ EN) Q1 (en_elem _ _ _ _ _ _ _ _ EN) (en_x _ _ _ _ _ _ _ _ EN) Q2 Pk) as [Z|Z].
      - exfalso. apply (proj2 (wi_pos _ Wi (S k) ltac:(lia))). replace (act i (S k)) with (xj + act i (S k) - xj) by ring. rewrite Z. ring.
      - assert (Q3 : act i (S k) = act i (i_knull i)) by (rewrite K; replace (act i (S k)) with (xj + act i (S k) - xj) by ring; rewrite Z; ring).
        apply (NoDup_nth (i_actions i) 0); [apply (wi_nodup _ Wi)|exact Lk|apply (wi_null _ Wi)|exact Q3]. }
    assert (Hn : i_knull i <> 0%nat).
    { intro Z. rewrite Z, (wi_a0 _ Wi) in K. assert (xj = 0) by (rewrite <- (Qcopp_involutive xj), <- K; ring). subst. discriminate Q2. }
    unfold lit, moved. destruct (Hk _ (Hc i Hi)) as [-> | ->], (Hk _ (Hc' i Hi)) as [-> | ->]; rewrite ?Nat.eqb_refl;
      try (rewrite (proj2 (Nat.eqb_neq 0 (i_knull i))) by auto); try (rewrite (proj2 (Nat.eqb_neq (i_knull i) 0)) by auto); cbn; split; intros Z1 Z2; apply Z1; auto; discriminate Z2.
  - unfold lit, moved. rewrite K. reflexivity.
Qed.
Lemma excl_ds' ms k ch ch' : (k = CPX -> switches_off E (bd_A b) x) -> ready E b x b0 ms -> ch_ok (ms_infos ms) ch -> ch_ok (ms_infos ms) ch' ->
  (excl DistinctSubsets k (ms_infos ms) ch ch' <-> ~ same_features (avec (as_len (bd_A b)) (ms_infos ms) ch) (avec (as_len (bd_A b)) (ms_infos ms) ch')).
Proof.
  intros HO R Hc Hc'. rewrite <- (excl_ds ms ch ch' R Hc Hc'). destruct k; [|reflexivity]. cbn [excl].
  split; intros (i & Hi & H); exists i; (split; [exact Hi|]); apply (lit_moved ms i ch ch' (HO eq_refl) R Hi Hc Hc'); exact H.
Qed.
Lemma excl_iff ms et k ch ch' : (k = CPX -> et = DistinctSubsets -> switches_off E (bd_A b) x) -> ready E b x b0 ms -> ch_ok (ms_infos ms) ch -> ch_ok (ms_infos ms) ch' ->
  (excl et k (ms_infos ms) ch ch' <-> ~ rules_out et (avec (as_len (bd_A b)) (ms_infos ms) ch) (avec (as_len (bd_A b)) (ms_infos ms) ch')).
Proof. intros HO R Hc Hc'. destruct et; cbn [rules_out]; [now apply excl_me|apply excl_ds'; auto]. Qed.

(** C36, C37 *)
Lemma c36_37 l b1 i j et s et' s' : enumeration sv b0 l b1 -> (i < j)%nat -> nth_error l i = Some (et, s) -> nth_error l j = Some (et', s') ->
  (bd_kind b = CPX -> et = DistinctSubsets -> switches_off E (bd_A b) x) -> ~ rules_out et (s_actions s) (s_actions s').
Proof.
  intros H L Hi Hj HO. destruct (enumeration_ready l b1 H) as (ms & ecs & ms' & R & HI & HN & _).
  destruct (items_nth _ _ _ _ _ _ _ _ HI Hi) as ([et1 ch1] & E1 & Q1 & I1). destruct (items_nth _ _ _ _ _ _ _ _ HI Hj) as ([et2 ch2] & E2 & Q2 & I2). cbn in Q1, Q2, I1, I2. subst et1 et2.
  destruct (enum_nth _ _ _ _ _ _ _ _ HN E2) as [H2 _]. destruct (enum_nth _ _ _ _ _ _ _ _ HN E1) as [H1 _]. cbn in H1, H2. apply after_iff in H1, H2.
  destruct H1 as [(Hc1 & _) _], H2 as [(Hc2 & _) H2]. rewrite Forall_forall in H2. specialize (H2 _ (firstn_In _ _ _ _ L E1)). cbn in H2.
  destruct I1 as [-> _], I2 as [-> _]. apply (excl_iff ms et (bd_kind b) ch1 ch2 HO R Hc1 Hc2). exact H2.
Qed.
(** C40 *)
Lemma c40 l b1 i j et s et' s' : enumeration sv b0 l b1 -> (i < j)%nat -> nth_error l i = Some (et, s) -> nth_error l j = Some (et', s') ->
  (bd_kind b = CPX -> et = DistinctSubsets -> switches_off E (bd_A b) x) -> ~ same_features (s_actions s) (s_actions s').
Proof.
  intros H L Hi Hj HO HSF. pose proof (c36_37 l b1 i j et s et' s' H L Hi Hj HO) as K. destruct et; [|exact (K HSF)].
  apply K. destruct (enumeration_ready l b1 H) as (ms & ecs & ms' & R & HI & HN & _).
  destruct (items_nth _ _ _ _ _ _ _ _ HI Hi) as ([et1 ch1] & E1 & Q1 & I1). cbn in Q1, I1. destruct (enum_nth _ _ _ _ _ _ _ _ HN E1) as [H1 _]. cbn in H1. apply after_iff in H1.
  destruct H1 as [(Hc1 & _ & Hz & _) _]. destruct I1 as [I1 _]. destruct (size_pos (ms_infos ms) ch1 ltac:(lia)) as (i0 & Hi0 & Hm).
  exists (i_idx i0). assert (C : changes (s_actions s) (i_idx i0)) by (rewrite I1; apply (changes_moved ms ch1 R Hc1); eauto). split; [exact C|]. now apply HSF.
Qed.
Lemma populate_count n b1 b2 fuel et l : populate sv fuel (Some n) et b1 = Some (Ok (b2, l)) -> forall l0, enumeration sv b0 l0 b1 -> (length l <= n)%nat.
Proof.
  intros H l0 H0. destruct (enumeration_ready l0 b1 H0) as (ms & ecs & ms' & R & HI & HN & EI & SS & G).
  destruct (populate_good' _ _ _ _ _ _ _ _ _ HS G H) as (chs & ms2 & F2 & EN & _ & _ & _ & HB & _). now apply HB.
Qed.

(** ** Optimality and exhaustiveness *)
Lemma helpful_choice ms a : density E -> log_ok E (bd_cost b) -> orderly E (bd_A b) (bd_w b) x -> flips_match (bd_A b) (bd_w b) -> regular E (bd_A b) x ->
  ready E b x b0 ms -> acceptable b x a ->
  exists ch, accept (bd_A b) (bd_w b) (bd_t b) (bd_min b) (bd_max b) x (ms_infos ms) ch /\ avec (as_len (bd_A b)) (ms_infos ms) ch = a.
Proof.
  intros HD HL HU HFl HR R (HP & HH & HZ & HO & HCp).
  pose proof (counterpart_at E (bd_A b) (bd_cost b) (bd_w b) x (ms_infos ms) (as_len (bd_A b)) HE (rd_wf _ _ _ _ _ R) (rd_info _ _ _ _ _ R) eq_refl) as CA.
  assert (CO : ch_ok (ms_infos ms) (counterpart (ms_infos ms) a)) by (eapply (counterpart_ok E); eauto using rd_wf, rd_info, rd_w).
  assert (EQ : avec (as_len (bd_A b)) (ms_infos ms) (counterpart (ms_infos ms) a) = a).
  { destruct HP as [La HP]. apply nth_ext with (d := 0) (d' := 0); unfold avec; rewrite ?scatter_length; [now symmetry|]. fold (avec (as_len (bd_A b)) (ms_infos ms) (counterpart (ms_infos ms) a)).
    intros j Lj. destruct (nth_all (as_len (bd_A b)) (as_elems (bd_A b)) j (rd_el _ _ _ _ _ R) Lj) as (e & He).
    destruct (nth_all (as_len (bd_A b)) x j (rd_x _ _ _ _ _ R) Lj) as (xj & Hx). destruct (nth_all (as_len (bd_A b)) (bd_w b) j (rd_w _ _ _ _ _ R) Lj) as (c & Hc).
    destruct (nth_all (as_len (bd_A b)) a j La Lj) as (aj & Ha). specialize (HH j c aj Hc Ha).
    destruct (CA (rd_w _ _ _ _ _ R) HU HFl HR HD HL a j e xj c aj (conj La HP) He Hx Hc Ha) as (u & Hu & D).
    rewrite (nth_error_nth _ _ _ Hu), (nth_error_nth _ _ _ Ha). destruct D as [D|(D0 & _ & D1 & D2)]; [exact D|]. exfalso. destruct (HH D1) as [HH'|HH']; [contradiction|]. clear HH. rename HH' into HH.
    unfold attains in HH. unfold harmful in D2. destruct (0 <? as_y (bd_A b))%Z; qlra. }
  exists (counterpart (ms_infos ms) a). split; [|exact EQ]. split; [exact CO|]. split; [|split].
  - rewrite <- (avec_score E (bd_A b) (bd_cost b) (bd_w b) x (ms_infos ms) _ (rd_infos _ _ _ _ _ R) (rd_ok _ _ _ _ _ R) (rd_el _ _ _ _ _ R) (rd_w _ _ _ _ _ R) (rd_x _ _ _ _ _ R)). now rewrite EQ.
  - unfold size_between in HZ. rewrite <- (avec_changed E (bd_A b) (bd_cost b) (bd_w b) x (ms_infos ms) _ (rd_infos _ _ _ _ _ R) (rd_ok _ _ _ _ _ R) eq_refl (rd_el _ _ _ _ _ R) (rd_w _ _ _ _ _ R) (rd_x _ _ _ _ _ R) _ CO). now rewrite EQ.
  - eapply (counterpart_rows E); eauto using rd_wf, rd_info, rd_w.
Qed.
Lemma unconstrained_switches : unconstrained (bd_A b) -> switches_off E (bd_A b) x.
Proof. intros HU j e xj v n _ Hn. rewrite (unconstrained_names E _ HE HU) in Hn. destruct Hn. Qed.

Lemma c38_mono l b1 i j et s et' s' : finishing_solver sv -> bd_cost b <> CMax -> enumeration sv b0 l b1 -> (i < j)%nat ->
  nth_error l i = Some (et, s) -> nth_error l j = Some (et', s') -> s_cost s <= s_cost s'.
Proof.
  intros HF Hct H L Hi Hj. destruct (enumeration_ready l b1 H) as (ms & ecs & ms' & R & HI & HN & _).
  destruct (items_nth _ _ _ _ _ _ _ _ HI Hi) as ([et1 ch1] & E1 & Q1 & I1). destruct (items_nth _ _ _ _ _ _ _ _ HI Hj) as ([et2 ch2] & E2 & Q2 & I2). cbn in Q1, Q2, I1, I2.
  destruct (enum_nth _ _ _ _ _ _ _ _ HN E2) as [H2 _]. destruct (enum_nth _ _ _ _ _ _ _ _ HN E1) as [_ B1]. cbn in H2, B1. specialize (B1 HF ch2).
  destruct I1 as (_ & _ & C1 & _), I2 as (_ & _ & C2 & _). rewrite (C1 Hct), (C2 Hct). unfold choice_cost in B1. 
  assert (K : after (bd_kind b) (ms_infos ms) (accept (bd_A b) (bd_w b) (bd_t b) (bd_min b) (bd_max b) x (ms_infos ms)) (firstn i ecs) ch2).
  { apply after_iff in H2. apply after_iff. split; [apply H2|]. destruct H2 as [_ H2]. rewrite Forall_forall in *. intros ec Hin. apply H2.
    apply In_firstn_nth in Hin. destruct Hin as (k & Lk & Hk). apply (firstn_In ecs k j); [lia|exact Hk]. }
  specialize (B1 K). destruct (bd_cost b); [exact B1|exact B1|congruence].
Qed.
Lemma c38_best l b1 i et s a cs : finishing_solver sv -> density E -> log_ok E (bd_cost b) -> orderly E (bd_A b) (bd_w b) x -> flips_match (bd_A b) (bd_w b) -> regular E (bd_A b) x -> (bd_kind b = CPX -> switches_off E (bd_A b) x) ->
  bd_cost b <> CMax -> enumeration sv b0 l b1 -> nth_error l i = Some (et, s) -> acceptable b x a ->
  (forall i' et' s', (i' < i)%nat -> nth_error l i' = Some (et', s') -> ~ rules_out et' (s_actions s') a) ->
  action_costs E (bd_cost b) (bd_A b) x a cs -> s_cost s <= qsum cs.
Proof.
  intros HF HD HL HU HFl HR HSw Hct H Hi HAc Hex Hcs. destruct (enumeration_ready l b1 H) as (ms & ecs & ms' & R & HI & HN & _).
  destruct (items_nth _ _ _ _ _ _ _ _ HI Hi) as ([et1 ch1] & E1 & Q1 & I1). cbn in Q1, I1.
  destruct (helpful_choice ms a HD HL HU HFl HR R HAc) as (ch & Hch & EQ).
  destruct (enum_nth _ _ _ _ _ _ _ _ HN E1) as [_ B1]. cbn in B1. specialize (B1 HF ch).
  assert (K : after (bd_kind b) (ms_infos ms) (accept (bd_A b) (bd_w b) (bd_t b) (bd_min b) (bd_max b) x (ms_infos ms)) (firstn i ecs) ch).
  { apply after_iff. split; [exact Hch|]. rewrite Forall_forall. intros [et2 ch2] Hin. apply In_firstn_nth in Hin. destruct Hin as (k & Lk & Hk).
    destruct (items_nth' _ _ _ _ _ _ _ _ HI Hk) as ([et3 s3] & E3 & Q3 & I3). cbn in Q3, I3. subst et3. cbn.
    destruct (enum_nth _ _ _ _ _ _ _ _ HN Hk) as [P2 _]. cbn in P2. apply after_iff in P2. destruct P2 as [(Hc2 & _) _].
    apply (excl_iff ms et2 (bd_kind b) ch2 ch (fun K _ => HSw K) R Hc2 (proj1 Hch)). rewrite EQ. destruct I3 as [<- _]. exact (Hex k et2 s3 Lk E3). }
  specialize (B1 K). destruct I1 as (_ & _ & C1 & _). rewrite (C1 Hct).
  assert (Q : qsum (chosen_costs (ms_infos ms) ch) = qsum cs).
  { rewrite <- (cvec_sum E (bd_A b) (bd_cost b) (bd_w b) x (ms_infos ms) (as_len (bd_A b)) (rd_infos _ _ _ _ _ R) (rd_ok _ _ _ _ _ R) (rd_el _ _ _ _ _ R)). f_equal.
    assert (CV : action_costs E (bd_cost b) (bd_A b) x a (cvec (as_len (bd_A b)) (ms_infos ms) ch)).
    { rewrite <- EQ at 1. eapply (avec_costs E); eauto using rd_ok, rd_el, rd_infos, rd_w, rd_x. apply Hch. }
    destruct HAc as [[La HP] _].
    apply nth_ext with (d := 0) (d' := 0); destruct CV as [L1 CV], Hcs as [L2 Hcs]; [congruence|]. intros j Lj.
    assert (Lj' : (j < as_len (bd_A b))%nat) by lia.
    destruct (nth_all (as_len (bd_A b)) (as_elems (bd_A b)) j (rd_el _ _ _ _ _ R) Lj') as (e & He).
    destruct (nth_all (as_len (bd_A b)) x j (rd_x _ _ _ _ _ R) Lj') as (xj & Hx). destruct (nth_all (as_len (bd_A b)) a j La Lj') as (aj & Ha).
    destruct (nth_all (as_len (bd_A b)) cs j ltac:(congruence) Lj') as (c1 & Hc1). destruct (nth_all (as_len (bd_A b)) (cvec (as_len (bd_A b)) (ms_infos ms) ch) j ltac:(congruence) Lj') as (c2 & Hc2).
    rewrite (nth_error_nth _ _ _ Hc1), (nth_error_nth _ _ _ Hc2).
    destruct (Hcs j e xj aj c1 He Hx Ha Hc1) as [[Z1 ->]|[Z1 M1]], (CV j e xj aj c2 He Hx Ha Hc2) as [[Z2 ->]|[Z2 M2]]; try congruence. eapply move_cost_fun; eauto. }
  unfold choice_cost in B1. destruct (bd_cost b); [rewrite <- Q; exact B1|rewrite <- Q; exact B1|congruence].
Qed.
Lemma c39_exhaustive l b1 fuel total et l2 b2 a : finishing_solver sv -> density E -> log_ok E (bd_cost b) -> orderly E (bd_A b) (bd_w b) x -> flips_match (bd_A b) (bd_w b) -> regular E (bd_A b) x -> (bd_kind b = CPX -> switches_off E (bd_A b) x) ->
  enumeration sv b0 l b1 -> populate sv fuel total et b1 = Some (Ok (b2, l2)) -> total <> Some (length l2) -> acceptable b x a ->
  exists et' s', In (et', s') (l ++ map (pair et) l2) /\ rules_out et' (s_actions s') a.
Proof.
  intros HF HD HL HU HFl HR HSw H Hp Ht HAc. destruct (enumeration_ready l b1 H) as (ms & ecs & ms' & R & HI & HN & EI & SS & G).
  destruct (helpful_choice ms a HD HL HU HFl HR R HAc) as (ch & Hch & EQ).
  destruct (populate_good' _ _ _ _ _ _ _ _ _ HS G Hp) as (chs & ms2 & F2 & EN & _ & _ & _ & _ & EX). specialize (EX HF Ht ch).
  destruct SS as (K1 & K2 & _ & _ & K5 & _). destruct (rd_n _ _ _ _ _ R) as (N1 & N2 & N3). rewrite K1, K2, K5, N1, N2, N3, EI in *.
  rewrite <- after_app in EX.
  assert (HI2 : items_of (bd_cost b) (as_len (bd_A b)) (ms_infos ms) (finishing_solver sv) (ecs ++ map (pair et) chs) (l ++ map (pair et) l2)).
  { apply Forall2_app; [exact HI|]. clear - F2. induction F2; cbn; constructor; cbn; auto. }
  assert (HN2 : enum (finishing_solver sv) (bd_kind b) (bd_cost b) (ms_infos ms) (accept (bd_A b) (bd_w b) (bd_t b) (bd_min b) (bd_max b) x (ms_infos ms)) (ecs ++ map (pair et) chs)).
  { apply enum_app. split; [exact HN|exact EN]. }
  destruct (existsb (fun ec => negb (exclb (fst ec) (bd_kind b) (ms_infos ms) (snd ec) ch)) (ecs ++ map (pair et) chs)) eqn:Ex.
  - apply existsb_exists in Ex. destruct Ex as ([et' ch'] & Hin & Hx). cbn in Hx. apply negb_true_iff in Hx. destruct (In_nth_error _ _ Hin) as (k & Hk).
    destruct (items_nth' _ _ _ _ _ _ _ _ HI2 Hk) as ([et3 s3] & E3 & Q3 & I3). cbn in Q3, I3. subst et3. exists et', s3. split; [eapply nth_error_In, E3|].
    destruct (enum_nth _ _ _ _ _ _ _ _ HN2 Hk) as [P2 _]. cbn in P2. apply after_iff in P2. destruct P2 as [(Hc2 & _) _].
    pose proof (excl_iff ms et' (bd_kind b) ch' ch (fun K _ => HSw K) R Hc2 (proj1 Hch)) as XI. rewrite EQ in XI. destruct I3 as [<- _] || destruct I3 as [I3 _].
    rewrite <- I3 in XI. clear - Hx XI. assert (NX : ~ excl et' (bd_kind b) (ms_infos ms) ch' ch) by (intro Z; apply exclb_iff in Z; congruence).
    apply rules_out_nn. intro Z. apply NX. apply XI. exact Z.
  - exfalso. apply EX. apply after_iff. split; [exact Hch|]. apply Forall_forall. intros ec Hin. apply exclb_iff.
    destruct (exclb (fst ec) (bd_kind b) (ms_infos ms) (snd ec) ch) eqn:Q; [reflexivity|]. exfalso.
    assert (existsb (fun ec => negb (exclb (fst ec) (bd_kind b) (ms_infos ms) (snd ec) ch)) (ecs ++ map (pair et) chs) = true); [|congruence].
    apply existsb_exists. exists ec. rewrite Q. auto.
Qed.
(** ** Termination *)
Fixpoint bools (n : nat) : list (list bool) :=
  match n with O => [[]] | S n' => map (cons true) (bools n') ++ map (cons false) (bools n') end.
Lemma bools_length n : length (bools n) = (2 ^ n)%nat.
Proof. induction n as [|n IH]; [reflexivity|]. cbn [bools]. rewrite app_length, !map_length, IH. cbn. lia. Qed.
Lemma bools_all l : In l (bools (length l)).
Proof. induction l as [|b' l IH]; [now left|]. cbn [bools length]. apply in_or_app. destruct b'; [left|right]; now apply in_map. Qed.
Lemma patterns_bound {A} (pat : A -> list bool) n (l : list A) : (forall a, In a l -> length (pat a) = n) ->
  (forall i j a a', (i < j)%nat -> nth_error l i = Some a -> nth_error l j = Some a' -> pat a <> pat a') -> (length l <= 2 ^ n)%nat.
Proof.
  intros HL HD. rewrite <- bools_length, <- (map_length pat l). apply NoDup_incl_length.
  - apply NoDup_nth_error. intros i j Hi Hij. rewrite map_length in Hi. rewrite !nth_error_map in Hij.
    destruct (nth_error l i) as [a|] eqn:Ei; [|apply nth_error_None in Ei; lia]. destruct (nth_error l j) as [a'|] eqn:Ej; [|discriminate Hij]. cbn in Hij. injection Hij as Hp.
    destruct (Nat.lt_trichotomy i j) as [L|[L|L]]; [exfalso; exact (HD _ _ _ _ L Ei Ej Hp)|exact L|exfalso; exact (HD _ _ _ _ L Ej Ei (eq_sym Hp))].
  - intros p Hp. apply in_map_iff in Hp. destruct Hp as (a & <- & Ha). rewrite <- (HL a Ha). apply bools_all.
Qed.
Lemma map_ext_eq {A B} (f g : A -> B) l : map f l = map g l -> forall a, In a l -> f a = g a.
Proof. induction l as [|b' l IH]; cbn; [intros _ ? []|]. intros H a [<-|Hin]; [congruence|]. apply IH; [congruence|exact Hin]. Qed.
Lemma enum_bound fin k ct infos et (P : choice -> Prop) chs : (forall ch, P ch -> (1 <= Z.of_nat (size_ch infos ch))%Z) -> enum fin k ct infos P (map (pair et) chs) ->
  (length chs <= 2 ^ length infos)%nat.
Proof.
  intros Hz HN. set (pat := fun ch => map (match et, k with DistinctSubsets, CPX => lit ch | _, _ => moved ch end) infos).
  apply (patterns_bound pat); [intros; apply map_length|]. intros i j a a' L Hi Hj HP.
  assert (Hi' : nth_error (map (pair et) chs) i = Some (et, a)) by (rewrite nth_error_map, Hi; reflexivity).
  assert (Hj' : nth_error (map (pair et) chs) j = Some (et, a')) by (rewrite nth_error_map, Hj; reflexivity).
  destruct (enum_nth _ _ _ _ _ _ _ _ HN Hi') as [H1 _]. destruct (enum_nth _ _ _ _ _ _ _ _ HN Hj') as [H2 _]. cbn in H1, H2. apply after_iff in H1, H2. destruct H1 as [H1 _], H2 as [_ H2].
  rewrite Forall_forall in H2. specialize (H2 _ (firstn_In _ _ _ _ L Hi')). cbn in H2. pose proof (map_ext_eq _ _ _ HP) as Q. clear HP pat.
  destruct et; [|destruct k]; cbn [excl] in H2.
  - destruct (size_pos infos a (Hz _ H1)) as (i0 & Hi0 & Hm). specialize (H2 i0 Hi0 Hm). assert (moved a i0 = moved a' i0) by (destruct k; apply Q, Hi0). congruence.
  - destruct H2 as (i0 & Hi0 & D). exact (D (Q i0 Hi0)).
  - destruct H2 as (i0 & Hi0 & D). exact (D (Q i0 Hi0)).
Qed.
Lemma infos_le ms : ready E b x b0 ms -> (length (ms_infos ms) <= as_len (bd_A b))%nat.
Proof.
  intro R. rewrite <- (map_length i_idx), <- (seq_length (as_len (bd_A b)) 0). apply NoDup_incl_length; [apply (proj2 (rd_infos _ _ _ _ _ R))|].
  intros j Hj. apply in_map_iff in Hj. destruct Hj as (i & <- & Hi). apply in_seq. destruct (info_ok_at _ _ _ _ _ _ _ (rd_ok _ _ _ _ _ R) Hi) as (e & xj & EN).
  pose proof (en_w _ _ _ _ _ _ _ _ EN) as Q. assert (i_idx i < length (bd_w b))%nat by (apply nth_error_Some; congruence). rewrite (rd_w _ _ _ _ _ R) in H. lia.
Qed.
Lemma c39_terminates l b1 fuel total et : enumeration sv b0 l b1 -> total <> Some 0%nat -> (2 ^ as_len (bd_A b) < fuel)%nat ->
  exists b2 l2, populate sv fuel total et b1 = Some (Ok (b2, l2)) /\ (length l2 <= 2 ^ as_len (bd_A b))%nat.
Proof.
  intros H Ht Hf. destruct (enumeration_ready l b1 H) as (ms & ecs & ms' & R & HI & HN & EI & SS & G).
  pose proof (populate_good sv et HS fuel total b1 ms' _ G) as K. unfold populate. rewrite (gd_mip _ _ _ G).
  assert (Q : match total with Some 0%nat => Some (Err AssertionError) | _ => populate_loop sv fuel total et b1 end = populate_loop sv fuel total et b1) by (destruct total as [[|n]|]; congruence).
  rewrite Q. clear Q.
  assert (B : forall chs, enum (finishing_solver sv) (bd_kind b1) (bd_cost b1) (ms_infos ms') (after (bd_kind b) (ms_infos ms) (accept (bd_A b) (bd_w b) (bd_t b) (bd_min b) (bd_max b) x (ms_infos ms)) ecs) (map (pair et) chs) ->
    (length chs <= 2 ^ as_len (bd_A b))%nat).
  { intros chs HN2. rewrite EI in HN2. etransitivity; [eapply enum_bound; [|exact HN2]|].
    - intros ch Hch. apply after_iff in Hch. destruct Hch as [(_ & _ & Hz & _) _]. lia.
    - apply Nat.pow_le_mono_r; [lia|]. now apply infos_le. }
  destruct (populate_loop sv fuel total et b1) as [[[b2 l2]|e]|]; [|destruct K|].
  - exists b2, l2. split; [reflexivity|]. destruct K as (chs & ms2 & F2 & EN & _). rewrite <- (Forall2_length _ _ _ F2). now apply B.
  - exfalso. destruct K as (chs & HL & EN). specialize (B chs EN). lia.
Qed.
End Enum.
