(** Subset limits: when the constraint rows of the program speak about the features they name. *)
From Verif Require Import Proofs_props_element Proofs_props_actionset Spec_recourse Proofs_mip Proofs_info Proofs_vec Proofs_build Proofs_enum Proofs_session Proofs_recourse.
#[local] Open Scope list_scope.
#[local] Open Scope Qc_scope.

Lemma dget_of_In {V} k (v : V) d : NoDup (map fst d) -> In (k, v) d -> dget k d = Some v.
Proof.
  induction d as [|[k' v'] d IH]; cbn; intros HN H; [destruct H|]. inversion HN as [|? ? H1 H2]; subst. destruct (String.eqb_spec k k') as [->|Hne].
  - destruct H as [H|H]; [congruence|]. exfalso. apply H1. apply in_map_iff. exists (k', v). auto.
  - destruct H as [H|H]; [congruence|]. auto.
Qed.
Lemma dset_keys_same {V} k (v : V) d : In k (map fst d) -> map fst (dset k v d) = map fst d.
Proof.
  induction d as [|[k' v'] d IH]; cbn; [intros []|]. destruct (String.eqb_spec k k') as [->|N]; [reflexivity|]. intros [E|H]; [congruence|]. cbn. now rewrite IH.
Qed.
Lemma over_keys E A x names : forall out grid, (forall n, In n names -> In n (map fst out)) ->
  fold_left (fun acc n => let! out := acc in
          let! j := of_option ValueError (index_of n (as_names A)) in
          match nth_error (as_elems A) j, nth_error x j with
          | Some e, Some xj => let! v := feasible_values E e xj true true false in Ok (dset n v out)
          | _, _ => Err KeyError
          end) names (Ok out) = Ok grid -> map fst grid = map fst out.
Proof.
  induction names as [|n names IH]; intros out grid HI H; [cbn in H; congruence|]. cbn [fold_left] in H.
  match type of H with fold_left ?f _ ?a = _ => destruct a as [out'|y] eqn:Q; [|rewrite (fold_err f) in H by reflexivity; discriminate H] end.
  cbn [bind] in Q. bnd Q as j Hj. destruct (nth_error (as_elems A) j) as [e|]; [|discriminate Q]. destruct (nth_error x j) as [xj|]; [|discriminate Q]. bnd Q as v Hv. injection Q as <-.
  assert (K : map fst (dset n v out) = map fst out) by (apply dset_keys_same, HI; now left).
  rewrite (IH (dset n v out) grid); [exact K| |exact H]. intros m Hm. rewrite K. apply HI. now right.
Qed.
Lemma filter_all {B} (f : B -> bool) l : (forall a, In a l -> f a = true) -> filter f l = l.
Proof. induction l as [|a l IH]; intro H; [reflexivity|]. cbn. rewrite (H a (or_introl eq_refl)), IH; [reflexivity|]. intros. apply H. now right. Qed.
Lemma filter_prefix {B} (f : B -> bool) : forall l m, (forall k a, (k <= m)%nat -> nth_error l k = Some a -> f a = true) ->
  forall k, (k <= m)%nat -> nth_error (filter f l) k = nth_error l k.
Proof.
  induction l as [|a l IH]; intros m H k Hk; [reflexivity|]. cbn [filter]. rewrite (H 0%nat a); [|lia|reflexivity]. destruct k as [|k]; [reflexivity|]. cbn [nth_error].
  destruct m as [|m]; [lia|]. apply (IH m); [|lia]. intros k' a' Hk' Ha'. apply (H (S k') a'); [lia|exact Ha'].
Qed.
Lemma flat_prefix : forall (l : list (option info)) m, (forall k, (k <= m)%nat -> exists i, nth_error l k = Some (Some i)) ->
  forall k, (k <= m)%nat -> exists i, nth_error l k = Some (Some i) /\ nth_error (flat_map (fun o => match o with Some i => [i] | None => [] end) l) k = Some i.
Proof.
  induction l as [|o l IH]; intros m H k Hk; [destruct (H 0%nat ltac:(lia)) as (i & Q); discriminate Q|].
  destruct (H 0%nat ltac:(lia)) as (i & Q). cbn in Q. injection Q as ->. cbn [flat_map app]. destruct k as [|k]; [exists i; split; reflexivity|]. cbn [nth_error].
  destruct m as [|m]; [lia|]. apply (IH m); [|lia]. intros k' Hk'. exact (H (S k') ltac:(lia)).
Qed.
Lemma In_sdedup s l : In s l -> In s (sdedup l).
Proof.
  induction l as [|a l IH]; [intros []|]. cbn. intros [->|H]; [now left|]. destruct (String.eqb_spec a s) as [->|N]; [now left|]. right. apply filter_In. split; [auto|].
  apply negb_true_iff. now apply String.eqb_neq.
Qed.
Lemma sdedup_In s l : In s (sdedup l) -> In s l.
Proof. induction l as [|a l IH]; [intros []|]. cbn. intros [->|H]; [now left|]. right. apply filter_In in H. apply IH, H. Qed.
Lemma constrained_name E A id c j n : ok_env E -> wf_aset E A -> stored (as_cons A) id c -> In j (c_indices c) -> nth_error (as_names A) j = Some n -> In n (constrained_names E (as_cons A)).
Proof.
  intros HOE HW Hst Hj Hn. destruct HW as (_ & _ & _ & HN & [_ HR] & _). pose proof (HR _ _ Hst) as (_ & _ & _ & _ & HF & _). rewrite HN in HF.
  unfold constrained_names. eapply Permutation_in; [apply Permutation_sym, HOE|]. apply In_sdedup. apply in_concat. exists (c_names c). split.
  - apply in_map_iff. exists (id, c). split; [reflexivity|]. now apply dget_In.
  - destruct (In_nth_error _ _ Hj) as (k & Hk). apply Forall2_nth in HF. destruct HF as [HLn HF]. destruct (nth_error (c_names c) k) as [n'|] eqn:En.
    + specialize (HF _ _ _ En Hk). assert (n' = n) by congruence. subst. eapply nth_error_In, En.
    + apply nth_error_None in En. assert (k < length (c_indices c))%nat by (apply nth_error_Some; congruence). lia.
Qed.
(** Being named in a constraint, by position and by name. *)
Lemma constrained_iff E A j n : ok_env E -> wf_aset E A -> nth_error (as_names A) j = Some n -> (In n (constrained_names E (as_cons A)) <-> constrained_at A j).
Proof.
  intros HOE HW Hn. split.
  - intro H. unfold constrained_names in H. eapply Permutation_in in H; [|apply HOE]. apply sdedup_In in H. apply in_concat in H. destruct H as (l & Hl & H). apply in_map_iff in Hl. destruct Hl as ((id & c) & <- & Hc). cbn [snd] in H.
    pose proof HW as ((_ & _ & Hnd) & _ & _ & HN & [[_ HK] HR] & _). assert (Hst : stored (as_cons A) id c) by (apply dget_of_In; assumption).
    exists id, c. split; [exact Hst|]. pose proof (HR _ _ Hst) as (_ & _ & _ & _ & HF & _). rewrite HN in HF.
    destruct (In_nth_error _ _ H) as (k & Hk). apply Forall2_nth in HF. destruct HF as [HLn HF]. destruct (nth_error (c_indices c) k) as [j'|] eqn:En.
    + specialize (HF _ _ _ Hk En). assert (j' = j) by (apply (proj1 (NoDup_nth_error _) Hnd); [apply nth_error_Some; congruence|congruence]). subst. eapply nth_error_In, En.
    + apply nth_error_None in En. assert (k < length (c_names c))%nat by (apply nth_error_Some; congruence). lia.
  - intros (id & c & Hst & Hj). eapply constrained_name; eauto.
Qed.
Lemma constrained_lt E A j : wf_aset E A -> constrained_at A j -> exists n, nth_error (as_names A) j = Some n.
Proof.
  intros HW (id & c & Hst & Hj). destruct HW as (_ & _ & _ & HN & [_ HR] & _). pose proof (HR _ _ Hst) as (_ & _ & _ & _ & HF & _). rewrite HN in HF.
  destruct (In_nth_error _ _ Hj) as (k & Hk). apply Forall2_nth in HF. destruct HF as [HLn HF]. destruct (nth_error (c_names c) k) as [n'|] eqn:En.
  - exists n'. exact (HF _ _ _ En Hk).
  - apply nth_error_None in En. assert (k < length (c_indices c))%nat by (apply nth_error_Some; congruence). lia.
Qed.
Lemma unconstrained_at A j : unconstrained A -> ~ constrained_at A j.
Proof. intros HU (id & c & Hst & _). unfold stored in Hst. unfold unconstrained in HU. rewrite HU in Hst. discriminate Hst. Qed.
Lemma unconstrained_in_line A w x : unconstrained A -> in_line A w x.
Proof. intros HU j i e wi xi HC. destruct (unconstrained_at A j HU HC). Qed.
Lemma unconstrained_orderly E A w x : unconstrained A -> orderly E A w x.
Proof. intro HU. split; [now apply unconstrained_in_line|]. intros j e xj HC. destruct (unconstrained_at A j HU HC). Qed.
Lemma unconstrained_compliant A x a : unconstrained A -> compliant A x a.
Proof. intros HU id c Hst. unfold stored in Hst. unfold unconstrained in HU. rewrite HU in Hst. discriminate Hst. Qed.
(** The same in terms of the recorded directions. *)
Definition lined (A : action_set) (x : list Qc) : Prop :=
  forall j i e xi, constrained_at A j -> (i <= j)%nat -> nth_error (as_elems A) i = Some e -> nth_error x i = Some xi ->
    compatible e = Some true /\ representable e xi /\
    exists v, permitted e xi v /\ v <> xi /\ (constrained_at A i \/ improving e xi v).
Lemma all_offered_lined A x : all_offered A x -> lined A x.
Proof. intros H j i e xi _ _ He Hx. destruct (H i e xi He Hx) as (K1 & K2 & v & K3 & K4 & K5). split; [exact K1|]. split; [exact K2|]. exists v. auto. Qed.

(** The program's entries up to the last constrained feature are those of the features, in order. *)
Lemma aligned_at E A ct w x infos j : ok_env E -> wf_aset E A -> lined A x -> get_build_info E A ct w x = Ok infos -> constrained_at A j ->
  exists i, nth_error infos j = Some i /\ i_idx i = j.
Proof.
  intros HOE HW HL H HC. unfold get_build_info in H. cbv zeta in H. bnd H as grid Hg. bnd H as l Hl. bnd H as u Hu. injection H as <-.
  destruct (grid_spec _ _ _ _ HOE HW Hg) as (HLx & [HN HG] & _ & _). pose proof (wf_len _ _ HW) as HLe. pose proof HW as ((_ & _ & Hnd) & _ & _).
  destruct (constrained_lt E A j HW HC) as (nj & Hnj). assert (Lj : (j < as_len A)%nat) by (apply nth_error_Some; congruence).
  assert (At : forall k, (k <= j)%nat -> exists n e xk, nth_error (as_names A) k = Some n /\ nth_error (as_elems A) k = Some e /\ nth_error x k = Some xk).
  { intros k Hk. destruct (nth_error (as_names A) k) as [n|] eqn:E1; [|apply nth_error_None in E1; unfold as_len in Lj; lia]. destruct (nth_error (as_elems A) k) as [e|] eqn:E2; [|apply nth_error_None in E2; lia].
    destruct (nth_error x k) as [xk|] eqn:E3; [|apply nth_error_None in E3; lia]. eauto 10. }
  assert (HK : forall k n, (k <= j)%nat -> nth_error (as_names A) k = Some n -> nth_error (map fst grid) k = Some n).
  { intros k n Hk Hn. unfold feasible_grid in Hg. bnd Hg as u2 Hu2. bnd Hg as out Ho. pose proof (output_spec _ _ _ _ HW Ho) as [HNo HOut]. apply mapM_ok in Ho.
    assert (HO : nth_error (map fst out) k = Some n).
    { destruct (At k Hk) as (n' & e & xk & E1 & E2 & E3). assert (n' = n) by congruence. subst n'.
      assert (Q : nth_error (filter (fun q => grid_included true (fst (snd q))) (combine (as_names A) (combine (as_elems A) x))) k = Some (n, (e, xk))).
      { rewrite (filter_prefix _ _ j); [now apply combine3_nth| |exact Hk]. intros k' [n' [e' xk']] Hk' Hc. apply combine3_nth in Hc. destruct Hc as (_ & C2 & C3).
        destruct (HL j k' e' xk' HC Hk' C2 C3) as (C4 & _). cbn. unfold grid_included. now rewrite C4. }
      apply Forall2_nth in Ho. destruct Ho as [LL Ho]. destruct (nth_error out k) as [[m v]|] eqn:Eo.
      - specialize (Ho _ _ _ Q Eo). cbn in Ho. bnd Ho as v' Hv. injection Ho as -> _. now rewrite nth_error_map, Eo.
      - apply nth_error_None in Eo. rewrite <- LL in Eo. assert (k < length (filter (fun q => grid_included true (fst (snd q))) (combine (as_names A) (combine (as_elems A) x))))%nat by (apply nth_error_Some; congruence). lia. }
    destruct (r_cons (as_cons A)) as [|q0 qs] eqn:Ec; [injection Hg as <-; exact HO|].
    rewrite <- HO. f_equal. eapply over_keys; [|exact Hg]. intros m Hm.
    destruct (over_spec _ _ _ _ _ _ Hg HNo) as (_ & H2 & _ & H4). destruct (H4 m Hm) as (v & Hv). destruct (H2 m v Hv) as [[K _]|(_ & j' & e & xj & K1 & K2 & K3 & K4)]; [contradiction|].
    pose proof (proj1 (constrained_iff E A j' m HOE HW K1) Hm) as HC'. destruct (HL j' j' e xj HC' (le_n _) K2 K3) as (HCm & _).
    assert (Q : In (m, (e, xj)) (filter (fun q => grid_included true (fst (snd q))) (combine (as_names A) (combine (as_elems A) x)))).
    { apply filter_In. split; [apply nth_error_In with (n := j'); now apply combine3_nth|]. cbn. unfold grid_included. now rewrite HCm. }
    destruct (Forall2_In_l _ _ _ _ Ho Q) as ([m' v'] & Hin2 & HM). cbn in HM. bnd HM as v2 Hv2. injection HM as -> _. apply in_map_iff. exists (m', v'). split; [reflexivity|]. eapply in_combine_r, Hin2. }
  apply mapM_ok in Hl. apply Forall2_nth in Hl. destruct Hl as [HLl Hl].
  assert (HS : forall k, (k <= j)%nat -> exists i, nth_error l k = Some (Some i) /\ i_idx i = k).
  { intros k Hk. destruct (At k Hk) as (n & e & xk & E1 & E2 & E3). pose proof (HK k n Hk E1) as Eg. rewrite nth_error_map in Eg. destruct (nth_error grid k) as [[n' [a c]]|] eqn:Eg'; [|discriminate Eg]. cbn in Eg. injection Eg as ->.
    destruct (nth_error l k) as [o|] eqn:Eo.
    2:{ apply nth_error_None in Eo. rewrite <- HLl in Eo. exfalso. pose proof (proj1 (nth_error_Some grid k) ltac:(rewrite Eg'; discriminate)) as Lg. unfold gridentry in *. lia. }
    specialize (Hl _ _ _ Eg' Eo). cbn [fst snd] in Hl. destruct (HG n (a, c) (nth_error_In _ _ Eg')) as (j' & e' & xj & d & K1 & K2 & K3 & K4 & K5).
    assert (j' = k) by (apply (proj1 (NoDup_nth_error _) Hnd); [apply nth_error_Some; congruence|congruence]). subst j'. assert (e' = e) by congruence. assert (xj = xk) by congruence. subst e' xj.
    destruct (HL j k e xk HC Hk E2 E3) as (_ & HR & v & P1 & P2 & P3).
    unfold make_info in Hl. destruct (Nat.ltb_spec (length a) 2) as [L|L].
    - exfalso. pose proof K4 as K4'. apply feasible_values_spec in K4. destruct K4 as (_ & Ea & _). cbv iota in Ea.
      assert (I1 : exists v', In v' (feasible_x e xk d) /\ v' <> xk).
      { destruct P3 as [P3|P3].
        - assert (d = false).
          { destruct K5 as [[K5 _]|[K5 _]]; [|exact K5]. exfalso. subst d. pose proof (proj2 (constrained_iff E A k n HOE HW E1) P3) as Hcn.
            unfold feasible_grid in Hg. bnd Hg as u2 Hu2. bnd Hg as out Ho. pose proof (output_spec _ _ _ _ HW Ho) as [HNo HOut].
            destruct (r_cons (as_cons A)) as [|q0 qs] eqn:Ec; [|clear P3].
            - destruct P3 as (id & c0 & Hst & _). unfold stored in Hst. rewrite Ec in Hst. discriminate Hst.
            - destruct (over_spec _ _ _ _ _ _ Hg HNo) as (_ & H2 & _ & _). destruct (H2 n (a, c) (nth_error_In _ _ Eg')) as [[K _]|(_ & j' & e' & xj & Q1 & Q2 & Q3 & Q4)]; [contradiction|].
              assert (j' = k) by (apply (proj1 (NoDup_nth_error _) Hnd); [apply nth_error_Some; congruence|congruence]). subst j'. assert (e' = e) by congruence. assert (xj = xk) by congruence. subst e' xj.
              apply feasible_values_spec in Q4. destruct Q4 as (_ & Ea' & _). cbv iota in Ea'.
              assert (I1 : In v (feasible_x e xk false)) by (apply feasible_x_In; [exact HR|]; split; [exact P1|discriminate]).
              assert (I2 : In xk (feasible_x e xk false)) by (apply feasible_x_In; [exact HR|]; split; [now left|]; discriminate).
              rewrite Ea', map_length in L. destruct (feasible_x e xk false) as [|v1 [|v2 r]]; [destruct I1| |cbn [length] in L; lia]. destruct I1 as [<-|[]], I2 as [->|[]]. now apply P2. }
          subst d. exists v. split; [|exact P2]. apply feasible_x_In; [exact HR|]. split; [exact P1|discriminate].
        - exists v. split; [|exact P2]. apply feasible_x_In; auto. }
      destruct I1 as (v' & I1 & N1).
      assert (I2 : In xk (feasible_x e xk d)) by (apply feasible_x_In; [exact HR|]; split; [now left|]; intros _; apply improving_self).
      rewrite Ea, map_length in L. destruct (feasible_x e xk d) as [|v1 [|v2 r]]; [destruct I1| |cbn [length] in L; lia]. destruct I1 as [<-|[]], I2 as [->|[]]. now apply N1.
    - cbv zeta in Hl. bnd Hl as u1 U1. bnd Hl as idx Hidx. bnd Hl as cf Hcf. bnd Hl as xx Hxx. bnd Hl as kk Hkk. bnd Hl as u3 U3. injection Hl as <-. eexists. split; [reflexivity|]. cbn [i_idx].
      rewrite (index_of_nodup _ _ _ Hnd E1) in Hidx. cbn in Hidx. now injection Hidx. }
  destruct (flat_prefix l j ltac:(intros k Hk; destruct (HS k Hk) as (i & Q & _); eauto) j (le_n _)) as (i & Q1 & Q2). exists i. split; [exact Q2|].
  destruct (HS j (le_n _)) as (i' & Q3 & Q4). assert (i' = i) by congruence. now subst i'.
Qed.

Lemma nth_vadd u v j : length u = length v -> nth j (vadd u v) 0 = nth j u 0 + nth j v 0.
Proof.
  revert v j. induction u as [|a u IH]; intros [|c v] j; cbn; intro L; try discriminate L.
  - destruct j; reflexivity.
  - destruct j as [|j]; [reflexivity|]. apply IH. congruence.
Qed.

Section Subset.
Context (E : env) (A : action_set) (ct : cost_type) (w x : list Qc) (infos : list info) (n : nat).
Context (HOE : ok_env E) (HA : wf_aset E A) (HI : get_build_info E A ct w x = Ok infos) (Hn : n = as_len A).
Lemma s_len : length x = n.
Proof. rewrite Hn. apply (build_info_spec E A ct w x infos HOE HA HI). Qed.
Lemma s_HW : wf_infos infos.
Proof. apply (build_info_spec E A ct w x infos HOE HA HI). Qed.
Lemma s_HF : Forall (info_ok E A ct w x) infos.
Proof. apply (build_info_spec E A ct w x infos HOE HA HI). Qed.

(** The nullifying indicator of a constrained feature says whether it ends up off. *)
Lemma lit_on ch i j : ch_ok infos ch -> In i infos -> i_idx i = j -> constrained_at A j -> (forall xj, nth_error x j = Some xj -> 0 <= xj) ->
  lit ch i = negb (nth j (vadd x (avec n infos ch)) 0 =? 0).
Proof.
  intros Hc Hin' Hidx HC Hx0. destruct (info_ok_at _ _ _ _ _ _ _ s_HF Hin') as (e & xj & EN). pose proof (wfi' _ s_HW i Hin') as Wi.
  pose proof (en_x _ _ _ _ _ _ _ _ EN) as Hx. pose proof (en_name _ _ _ _ _ _ _ _ EN) as Hnm. rewrite Hidx in Hx, Hnm.
  assert (Lj : (j < n)%nat) by (rewrite <- s_len; apply nth_error_Some; congruence).
  rewrite nth_vadd.
  2:{ unfold avec. rewrite scatter_length. apply s_len. }
  rewrite (nth_error_nth _ _ _ Hx). rewrite (nth_error_nth _ _ _ (avec_nth infos n ch j Lj)).
  rewrite <- Hidx, (info_at_In _ _ (proj2 s_HW) Hin').
  pose proof (en_null _ _ _ _ _ _ _ _ EN) as K. rewrite (proj2 (smem_iff _ _) (proj2 (constrained_iff E A j _ HOE HA Hnm) HC)) in K. cbn [andb] in K.
  pose proof (Hx0 xj Hx) as X0. pose proof (Hc i Hin') as Lc. unfold lit. f_equal.
  destruct (qlt_spec 0 xj) as [Q|Q].
  - destruct (qeq_spec (xj + act i (ch (i_idx i))) 0) as [Z|Z].
    + apply Nat.eqb_eq. apply (NoDup_nth (i_actions i) 0); [apply (wi_nodup _ Wi)|exact Lc|apply (wi_null _ Wi)|]. change (act i (ch (i_idx i)) = act i (i_knull i)). rewrite K.
      replace (act i (ch (i_idx i))) with (xj + act i (ch (i_idx i)) - xj) by ring. rewrite Z. ring.
    + apply Nat.eqb_neq. intro Z2. apply Z. rewrite Z2, K. ring.
  - assert (xj = 0) by (now apply Qcle_antisym). subst xj. rewrite K. destruct (qeq_spec (0 + act i (ch (i_idx i))) 0) as [Z|Z].
    + apply Nat.eqb_eq. destruct (ch (i_idx i)) as [|k]; [reflexivity|]. exfalso. apply (proj2 (wi_pos _ Wi (S k) ltac:(lia))). rewrite <- Z. ring.
    + apply Nat.eqb_neq. intro Z2. apply Z. rewrite Z2, (wi_a0 _ Wi). ring.
Qed.
Lemma lit_count ch js il : ch_ok infos ch -> Forall2 (fun j i => nth_error infos j = Some i) js il ->
  (forall j i, In j js -> nth_error infos j = Some i -> i_idx i = j) -> (forall j, In j js -> constrained_at A j) ->
  (forall j xj, In j js -> nth_error x j = Some xj -> 0 <= xj) ->
  length (filter (lit ch) il) = n_on (vadd x (avec n infos ch)) js.
Proof.
  intros Hc HF. unfold n_on. induction HF as [|j i js il Hi HF IH]; intros Hpos HC Hx0; [reflexivity|].
  assert (IH' : length (filter (lit ch) il) = length (filter (fun j => negb (nth j (vadd x (avec n infos ch)) 0 =? 0)) js)).
  { apply IH; intros j' i'; [intro Hj'; apply Hpos; now right|apply HC; now right|intros Hj'; eapply Hx0; eauto; now right]. }
  cbn [filter]. rewrite (lit_on ch i j Hc (nth_error_In _ _ Hi) (Hpos j i (or_introl eq_refl) Hi) (HC j (or_introl eq_refl))).
  - destruct (negb _); cbn [length]; congruence.
  - intros xj Hx. exact (Hx0 j xj (or_introl eq_refl) Hx).
Qed.
Lemma subset_iff ch id c : lined A x -> ch_ok infos ch -> stored (as_cons A) id c -> (forall j xj, In j (c_indices c) -> nth_error x j = Some xj -> 0 <= xj) ->
  (subset_ok infos ch c <-> (c_lb c <= Z.of_nat (n_on (vadd x (avec n infos ch)) (c_indices c)) <= c_ub c)%Z).
Proof.
  intros HL Hc Hst Hx0.
  assert (HC : forall j, In j (c_indices c) -> constrained_at A j) by (intros j Hj; exists id, c; auto).
  assert (HP : forall j i, In j (c_indices c) -> nth_error infos j = Some i -> i_idx i = j).
  { intros j i Hj Hi. destruct (aligned_at E A ct w x infos j HOE HA HL HI (HC j Hj)) as (i' & Q1 & Q2). congruence. }
  unfold subset_ok. split.
  - intros (il & HF & HB). now rewrite <- (lit_count ch _ il Hc HF HP HC Hx0).
  - intro HB. assert (Hil : exists il, Forall2 (fun j i => nth_error infos j = Some i) (c_indices c) il).
    { clear HB HP Hx0 Hst. induction (c_indices c) as [|j js IH]; [exists []; constructor|]. destruct IH as (il & H); [intros; apply HC; now right|].
      destruct (aligned_at E A ct w x infos j HOE HA HL HI (HC j (or_introl eq_refl))) as (i & Q1 & _). exists (i :: il). now constructor. }
    destruct Hil as (il & HF). exists il. split; [exact HF|]. now rewrite (lit_count ch _ il Hc HF HP HC Hx0).
Qed.
(** All constraint rows together. *)
Lemma rows_compliant ch : lined A x -> (forall j xj, constrained_at A j -> nth_error x j = Some xj -> 0 <= xj) -> ch_ok infos ch ->
  (Forall (fun p => subset_ok infos ch (snd p)) (r_cons (as_cons A)) <-> compliant A x (avec n infos ch)).
Proof.
  intros HL Hx0 Hc. assert (K : forall id c, stored (as_cons A) id c -> (subset_ok infos ch c <-> (c_lb c <= Z.of_nat (n_on (vadd x (avec n infos ch)) (c_indices c)) <= c_ub c)%Z)).
  { intros id c Hst. apply (subset_iff ch id c HL Hc Hst). intros j xj Hj. apply Hx0. exists id, c. auto. }
  rewrite Forall_forall. split.
  - intros H id c Hst. apply (K id c Hst). exact (H _ (dget_In _ _ _ Hst)).
  - intros H [id c] Hin. cbn [snd]. pose proof HA as (_ & _ & _ & _ & [[_ HK] _] & _). assert (Hst : stored (as_cons A) id c) by (apply dget_of_In; assumption). apply (K id c Hst). exact (H id c Hst).
Qed.
End Subset.
Lemma n_on_ext u v js : (forall j, In j js -> nth j u 0 = nth j v 0) -> n_on u js = n_on v js.
Proof.
  unfold n_on. induction js as [|j js IH]; intro H; [reflexivity|]. cbn [filter]. rewrite (H j (or_introl eq_refl)). specialize (IH ltac:(intros; apply H; now right)).
  destruct (negb _); cbn [length]; congruence.
Qed.
(** Compliance depends only on the constrained features. *)
Lemma compliant_ext A x a a' : length a = length x -> length a' = length x -> (forall j, constrained_at A j -> nth j a 0 = nth j a' 0) -> compliant A x a -> compliant A x a'.
Proof.
  intros L L' H HC id c Hst. rewrite (n_on_ext (vadd x a') (vadd x a)); [exact (HC id c Hst)|]. intros j Hj. rewrite !nth_vadd by congruence. f_equal. symmetry. apply H. exists id, c. auto.
Qed.
