(** Rearranging the features of a question. *)
From Verif Require Import Proofs_props_element Proofs_props_actionset Spec_columns Proofs_mip Proofs_info Proofs_vec Proofs_build Proofs_enum Proofs_session Proofs_recourse Proofs_subset Proofs_exchange Proofs_far Proofs_concrete Proofs_builder Proofs_builder2 Proofs_builder4 Proofs_builder5 Proofs_scen Proofs_scen2 Proofs_builder6 Proofs_builder7 Proofs_builder8 Proofs_dict Proofs_compare.
#[local] Open Scope string_scope.
#[local] Open Scope list_scope.
#[local] Open Scope Qc_scope.

(** ** Rearrangements *)
(** Without constraints. *)
Definition reordered0 (p : list nat) (b : builder) (x : list Qc) (b' : builder) (x' : list Qc) : Prop :=
  Permutation p (seq 0 (length (bd_w b))) /\
  rearranged p (as_names (bd_A b)) (as_names (bd_A b')) /\ rearranged p (as_elems (bd_A b)) (as_elems (bd_A b')) /\
  rearranged p (bd_w b) (bd_w b') /\ rearranged p x x' /\
  as_y (bd_A b') = as_y (bd_A b) /\ bd_t b' = bd_t b /\ bd_cost b' = bd_cost b /\ bd_min b' = bd_min b /\ bd_max b' = bd_max b /\
  unconstrained (bd_A b) /\ unconstrained (bd_A b').
Lemma stored_none A : (forall id c, ~ stored (as_cons A) id c) -> unconstrained A.
Proof.
  unfold unconstrained, stored. destruct (r_cons (as_cons A)) as [|(id, c) l] eqn:Q; [reflexivity|]. intro H. exfalso. apply (H id c). cbn. now rewrite String.eqb_refl.
Qed.
Lemma reordered_strict p b x b' x' : reordered p b x b' x' -> unconstrained (bd_A b) -> reordered0 p b x b' x'.
Proof.
  intros (H1 & H2 & H3 & H4 & H5 & H6 & H7 & H8 & H9 & H10 & _ & H11) U. assert (U' : unconstrained (bd_A b')).
  { apply stored_none. intros id c' Hc. destruct (H11 id c' Hc) as (c & K). unfold stored in K. rewrite U in K. discriminate K. }
  unfold reordered0. auto 20.
Qed.
Lemma strict_reordered p b x b' x' : reordered0 p b x b' x' -> reordered p b x b' x'.
Proof.
  intros (H1 & H2 & H3 & H4 & H5 & H6 & H7 & H8 & H9 & H10 & U & U'). unfold reordered. do 10 (split; [assumption|]). split; intros id c Hc; exfalso; unfold stored in Hc; [rewrite U in Hc|rewrite U' in Hc]; discriminate Hc.
Qed.
Lemma rearranged_nth {T} p (l l' : list T) k j : rearranged p l l' -> nth_error p k = Some j -> nth_error l' k = nth_error l j.
Proof.
  intros H. revert k. induction H as [|j0 v p l' Hv H IH]; intros [|k] Hk; cbn in Hk |- *; try discriminate Hk; [injection Hk as <-; now rewrite Hv|now apply IH].
Qed.
Lemma rearranged_len {T} p (l l' : list T) : rearranged p l l' -> length l' = length p.
Proof. intro H. induction H as [|j v p l' _ H IH]; [reflexivity|]. cbn. now rewrite IH. Qed.
Lemma inverse n p : Permutation p (seq 0 n) -> exists q, Permutation q (seq 0 n) /\
  forall (T : Type) (l l' : list T), length l = n -> rearranged p l l' -> rearranged q l' l.
Proof.
  intro HP. apply Permutation_nth_error in HP. destruct HP as (HL & f & HI & Hf). rewrite seq_length in HL.
  assert (F : forall j, (j < n)%nat -> nth_error p (f j) = Some j).
  { intros j Hj. rewrite <- Hf. rewrite (nth_error_nth' _ 0%nat) by now rewrite seq_length. f_equal. now rewrite seq_nth. }
  exists (map f (seq 0 n)). split.
  - apply NoDup_Permutation_bis.
    + apply FinFun.Injective_map_NoDup; [exact HI|apply seq_NoDup].
    + rewrite map_length. reflexivity.
    + intros k Hk. apply in_map_iff in Hk. destruct Hk as (j & <- & Hj). apply in_seq in Hj. apply in_seq. split; [lia|].
      assert (nth_error p (f j) <> None) as N by (rewrite F; [discriminate|lia]). apply nth_error_Some in N. lia.
  - intros T l l' Hl HR. unfold rearranged. apply Forall2_nth. rewrite map_length, seq_length. split; [now symmetry|].
    intros j k v Hk Hv. assert (Hj : (j < n)%nat) by (rewrite <- Hl; apply nth_error_Some; congruence).
    rewrite nth_error_map, (nth_error_nth' _ 0%nat) in Hk by now rewrite seq_length. rewrite seq_nth in Hk by exact Hj. cbn in Hk. injection Hk as <-.
    rewrite (rearranged_nth p l l' (f j) j HR (F j Hj)). exact Hv.
Qed.
Lemma rearranged_perm {T} n p (l l' : list T) : Permutation p (seq 0 n) -> length l = n -> rearranged p l l' -> Permutation l' l.
Proof.
  intros HP Hl HR. subst n. destruct l as [|d r]; [apply Permutation_sym, Permutation_nil in HP; subst p; inversion HR; constructor|].
  set (l := d :: r) in *. clearbody l.
  assert (G : forall q (m : list T), rearranged q l m -> m = map (fun j => nth j l d) q).
  { intros q m H. induction H as [|j v q m Hv H IH]; [reflexivity|]. cbn. rewrite <- IH. f_equal. symmetry. now apply nth_error_nth. }
  assert (K : map (fun j => nth j l d) (seq 0 (length l)) = l).
  { clear. induction l as [|a l IH]; [reflexivity|]. cbn [length seq map nth]. f_equal. rewrite <- seq_shift, map_map. exact IH. }
  rewrite (G p l' HR). pose proof (Permutation_map (fun j => nth j l d) HP) as Q. rewrite K in Q. exact Q.
Qed.
Lemma reordered_sym E p b x b' x' : reordered0 p b x b' x' -> wf_aset E (bd_A b) -> length (bd_w b) = as_len (bd_A b) -> length x = as_len (bd_A b) ->
  exists q, reordered0 q b' x' b x.
Proof.
  intros (HP & HN & HEl & HW & HX & Hy & Ht & Hc & H1 & H2 & U1 & U2) HF Lw Lx. destruct (inverse _ _ HP) as (q & HQ & K). exists q.
  pose proof (Permutation_length HP) as LP. rewrite seq_length in LP.
  split; [rewrite (rearranged_len _ _ _ HW), LP; exact HQ|].
  repeat (split; [first [apply K; [|assumption]|congruence|assumption]|]); try assumption.
  - unfold as_len in Lw. now symmetry.
  - rewrite (wf_len _ _ HF). now symmetry.
  - reflexivity.
  - congruence.
Qed.

(** ** Build information, position by position *)
Definition reidx (k : nat) (i : info) : info := {| i_name := i_name i; i_idx := k; i_coef := i_coef i; i_actions := i_actions i; i_costs := i_costs i; i_knull := i_knull i |}.
Definition okl (r : res (option info)) : list info := match r with Ok (Some i) => [i] | _ => [] end.
Definition pos (E : env) (ct : cost_type) (names : list string) (w x : list Qc) (q : string * (element * Qc)) : res (option info) :=
  if grid_included true (fst (snd q)) then
    let! v := feasible_values E (fst (snd q)) (snd (snd q)) true true true in make_info E ct names [] w x (fst q) (fst v) (snd v)
  else Ok None.
Definition triples (A : action_set) (x : list Qc) := combine (as_names A) (combine (as_elems A) x).

Lemma two_steps {T V} (inc : T -> bool) (F : T -> res V) (M : V -> res (option info)) (L : list T) l :
  (exists out, mapM F (filter inc L) = Ok out /\ mapM M out = Ok l) ->
  Forall (fun q => exists o, (if inc q then let! v := F q in M v else Ok None) = Ok o) L /\
  picks l = flat_map (fun q => okl (if inc q then let! v := F q in M v else Ok None)) L.
Proof.
  revert l. induction L as [|q L IH]; intros l (out & H1 & H2); cbn [filter] in H1.
  - cbn in H1. injection H1 as <-. cbn in H2. injection H2 as <-. split; [constructor|reflexivity].
  - destruct (inc q) eqn:Ei.
    + cbn [mapM] in H1. bnd H1 as v Hv. bnd H1 as out' Ho. injection H1 as <-. cbn [mapM] in H2. bnd H2 as o Hm. bnd H2 as l' Hl. injection H2 as <-.
      destruct (IH l') as (I1 & I2); [eauto|]. split.
      * constructor; [|exact I1]. rewrite Ei, Hv. cbn [bind]. eauto.
      * cbn [flat_map picks]. rewrite Ei, Hv. cbn [bind]. rewrite Hm. fold (picks l'). rewrite I2. destruct o; reflexivity.
    + destruct (IH l) as (I1 & I2); [eauto|]. split; [constructor; [rewrite Ei; eauto|exact I1]|]. cbn [flat_map]. rewrite Ei. exact I2.
Qed.
Lemma two_steps_back {T V} (inc : T -> bool) (F : T -> res V) (M : V -> res (option info)) (L : list T) :
  Forall (fun q => exists o, (if inc q then let! v := F q in M v else Ok None) = Ok o) L ->
  exists out l, mapM F (filter inc L) = Ok out /\ mapM M out = Ok l.
Proof.
  induction L as [|q L IH]; intro H; [exists [], []; split; reflexivity|]. inversion H as [|? ? (o & Ho) HL]. subst. destruct (IH HL) as (out & l & H1 & H2). cbn [filter].
  destruct (inc q); [|eauto]. bnd Ho as v Hv. exists (v :: out), (o :: l). cbn [mapM]. rewrite Hv. cbn [bind]. rewrite H1. cbn [bind mapM]. rewrite Ho. cbn [bind]. rewrite H2. split; reflexivity.
Qed.
Lemma no_names E A : ok_env E -> unconstrained A -> constrained_names E (as_cons A) = [].
Proof.
  intros HE HU. unfold constrained_names. unfold unconstrained in HU. rewrite HU. cbn [map concat sdedup].
  apply Permutation_nil, Permutation_sym, HE.
Qed.
Lemma gbi_iff E A ct w x infos : ok_env E -> unconstrained A -> length x = as_len A ->
  get_build_info E A ct w x = Ok infos <->
  Forall (fun q => exists o, pos E ct (as_names A) w x q = Ok o) (triples A x) /\
  infos = flat_map (fun q => okl (pos E ct (as_names A) w x q)) (triples A x) /\
  forallb (check_info (as_y A) []) infos = true.
Proof.
  intros HE HU HL. unfold get_build_info. rewrite (no_names E A HE HU). unfold feasible_grid. rewrite HL, Nat.eqb_refl. cbn [passert bind].
  unfold unconstrained in HU. rewrite HU. fold (triples A x).
  set (F := fun q : string * (element * Qc) => let '(n, (e, xj)) := q in let! v := feasible_values E e xj true true true in Ok (n, v)).
  set (M := fun p : string * gridentry => make_info E ct (as_names A) [] w x (fst p) (fst (snd p)) (snd (snd p))).
  set (inc := fun q : string * (element * Qc) => grid_included true (fst (snd q))).
  assert (P : forall q, pos E ct (as_names A) w x q = if inc q then let! v := F q in M v else Ok None).
  { intros (n & e & xj). unfold pos, inc, F, M. cbn [fst snd]. destruct (grid_included true e); [|reflexivity]. destruct (feasible_values E e xj true true true); reflexivity. }
  assert (FA : Forall (fun q => exists o, pos E ct (as_names A) w x q = Ok o) (triples A x) <-> Forall (fun q => exists o, (if inc q then let! v := F q in M v else Ok None) = Ok o) (triples A x)).
  { split; intro H; eapply Forall_impl; try exact H; intros q (o & Ho); exists o; [rewrite <- P|rewrite P]; exact Ho. }
  assert (FM : flat_map (fun q => okl (pos E ct (as_names A) w x q)) (triples A x) = flat_map (fun q => okl (if inc q then let! v := F q in M v else Ok None)) (triples A x)).
  { apply flat_map_ext. intro q. now rewrite P. }
  rewrite FA, FM. clear FA FM P. split.
  - intro H. bnd H as grid Hg. bnd Hg as grid' Hg'. injection Hg as ->. rename Hg' into Hg. bnd H as l Hl. fold (picks l) in H. bnd H as u Hu. injection H as <-. apply passert_ok in Hu.
    destruct (two_steps inc F M (triples A x) l) as (I1 & I2); [exists grid; split; [exact Hg|exact Hl]|]. split; [exact I1|]. split; [exact I2|exact Hu].
  - intros (H1 & H2 & H3). destruct (two_steps_back inc F M _ H1) as (out & l & K1 & K2). destruct (two_steps inc F M (triples A x) l) as (_ & I2); [eauto|].
    rewrite K1. cbn [bind]. match goal with |- context [bind (mapM ?f ?o) _] => assert (K2' : mapM f o = Ok l) by exact K2; rewrite K2' end. cbn [bind]. fold (picks l). rewrite I2, <- H2, H3. reflexivity.
Qed.

Definition rmap {A B} (f : A -> B) (r : res A) : res B := match r with Ok a => Ok (f a) | Err e => Err e end.
Lemma make_info_reidx E ct names names' w w' x x' n a c j k : index_of n names = Some j -> index_of n names' = Some k ->
  nth_error w' k = nth_error w j -> nth_error x' k = nth_error x j ->
  make_info E ct names' [] w' x' n a c = rmap (option_map (reidx k)) (make_info E ct names [] w x n a c).
Proof.
  intros H1 H2 HW HX. unfold make_info. destruct (Nat.ltb (length a) 2); [reflexivity|]. cbv zeta. destruct (if existsb is_bug _ then _ else _); [|reflexivity]. cbn [bind].
  rewrite H1, H2. cbn [of_option bind]. rewrite HW, HX. destruct (nth_error w j) as [wj|]; [|reflexivity]. cbn [of_option bind]. destruct (nth_error x j) as [xj|]; [|reflexivity]. cbn [of_option bind smem existsb andb].
  destruct (if Nat.ltb _ 2 then _ else _); reflexivity.
Qed.
Lemma make_info_idx E ct names w x n a c j i : index_of n names = Some j -> make_info E ct names [] w x n a c = Ok (Some i) -> i_idx i = j.
Proof.
  intros H1. unfold make_info. destruct (Nat.ltb (length a) 2); [discriminate|]. cbv zeta. destruct (if existsb is_bug _ then _ else _); [|discriminate]. cbn [bind].
  rewrite H1. cbn [of_option bind]. destruct (nth_error w j) as [wj|]; [|discriminate]. cbn [of_option bind]. destruct (nth_error x j) as [xj|]; [|discriminate]. cbn [of_option bind smem existsb andb].
  destruct (if Nat.ltb _ 2 then _ else _); [|discriminate]. cbn [bind]. intro H. injection H as <-. reflexivity.
Qed.
Lemma pos_reidx E ct names names' w w' x x' q j k : index_of (fst q) names = Some j -> index_of (fst q) names' = Some k ->
  nth_error w' k = nth_error w j -> nth_error x' k = nth_error x j -> pos E ct names' w' x' q = rmap (option_map (reidx k)) (pos E ct names w x q).
Proof.
  intros. unfold pos. destruct (grid_included true (fst (snd q))); [|reflexivity]. destruct (feasible_values _ _ _ _ _ _) as [v|]; [|reflexivity]. cbn [bind].
  now apply make_info_reidx with (j := j).
Qed.
Lemma pos_idx E ct names w x q j i : index_of (fst q) names = Some j -> pos E ct names w x q = Ok (Some i) -> i_idx i = j.
Proof.
  intros H. unfold pos. destruct (grid_included true (fst (snd q))); [|discriminate]. destruct (feasible_values _ _ _ _ _ _) as [v|]; [|discriminate]. cbn [bind]. now apply make_info_idx.
Qed.
Lemma reidx_same i : reidx (i_idx i) i = i.
Proof. now destruct i. Qed.
Lemma triples_at A x k n e xj : nth_error (as_names A) k = Some n -> nth_error (as_elems A) k = Some e -> nth_error x k = Some xj ->
  nth_error (triples A x) k = Some (n, (e, xj)).
Proof.
  unfold triples. generalize (as_names A) (as_elems A). intros a b. revert a b x. induction k as [|k IH]; intros [|n0 a] [|e0 b] [|x0 x]; cbn; intros H1 H2 H3; try discriminate; [congruence|now apply IH].
Qed.
Lemma triples_len A x : length (as_elems A) = as_len A -> length x = as_len A -> length (triples A x) = as_len A.
Proof. intros H1 H2. unfold triples. rewrite !combine_length. unfold as_len in *. lia. Qed.
Lemma triples_names A x k q : nth_error (triples A x) k = Some q -> nth_error (as_names A) k = Some (fst q).
Proof.
  unfold triples. generalize (combine (as_elems A) x) (as_names A). intros b a. revert a b. induction k as [|k IH]; intros [|n0 a] [|e0 b]; cbn; intro H; try discriminate; [now injection H as <-|now apply IH with (b := b)].
Qed.

Definition back (p : list nat) (i : info) : info := reidx (nth (i_idx i) p 0%nat) i.
Section Reordered.
Context (E : env) (p : list nat) (A A' : action_set) (ct : cost_type) (w w' x x' : list Qc).
Context (HE : ok_env E) (U : unconstrained A) (U' : unconstrained A') (HY : as_y A' = as_y A).
Context (HP : Permutation p (seq 0 (as_len A))) (ND : NoDup (as_names A)) (LE : length (as_elems A) = as_len A) (LX : length x = as_len A) (LW : length w = as_len A).
Context (RN : rearranged p (as_names A) (as_names A')) (RE : rearranged p (as_elems A) (as_elems A')) (RW : rearranged p w w') (RX : rearranged p x x').

Lemma lp : length p = as_len A.
Proof. rewrite (Permutation_length HP). apply seq_length. Qed.
Lemma nd' : NoDup (as_names A').
Proof. apply (Permutation_NoDup (l := as_names A)); [|exact ND]. apply Permutation_sym, (rearranged_perm (as_len A) p); auto. Qed.
Lemma p_lt k j : nth_error p k = Some j -> (j < as_len A)%nat.
Proof. intro H. apply nth_error_In in H. apply (Permutation_in _ HP), in_seq in H. lia. Qed.
Lemma tri_re : rearranged p (triples A x) (triples A' x').
Proof.
  pose proof lp as LP. assert (LE' : length (as_elems A') = as_len A') by (rewrite (rearranged_len _ _ _ RE); unfold as_len; now rewrite (rearranged_len _ _ _ RN)).
  assert (LX' : length x' = as_len A') by (rewrite (rearranged_len _ _ _ RX); unfold as_len; now rewrite (rearranged_len _ _ _ RN)).
  unfold rearranged. apply Forall2_nth. split; [rewrite (triples_len A' x' LE' LX'); unfold as_len; now rewrite (rearranged_len _ _ _ RN)|].
  intros k j (n & e & xj) Hk Hq. unfold triples in Hq. apply combine3_nth in Hq. destruct Hq as (Q1 & Q2 & Q3).
  rewrite (rearranged_nth _ _ _ _ _ RN Hk) in Q1. rewrite (rearranged_nth _ _ _ _ _ RE Hk) in Q2. rewrite (rearranged_nth _ _ _ _ _ RX Hk) in Q3. now apply triples_at.
Qed.
Lemma at_k k q : nth_error (triples A' x') k = Some q -> exists j, nth_error p k = Some j /\ index_of (fst q) (as_names A) = Some j /\ index_of (fst q) (as_names A') = Some k /\
  pos E ct (as_names A') w' x' q = rmap (option_map (reidx k)) (pos E ct (as_names A) w x q).
Proof.
  intro Hq. assert (Hk : (k < length p)%nat).
  { pose proof (triples_names _ _ _ _ Hq) as N. rewrite <- (rearranged_len _ _ _ RN). apply nth_error_Some. congruence. }
  destruct (nth_error p k) as [j|] eqn:Ej; [|apply nth_error_None in Ej; lia]. exists j. split; [reflexivity|].
  pose proof (triples_names _ _ _ _ Hq) as N'. pose proof N' as N. rewrite (rearranged_nth _ _ _ _ _ RN Ej) in N.
  pose proof (index_of_nodup _ _ _ ND N) as I1. pose proof (index_of_nodup _ _ _ nd' N') as I2. split; [exact I1|]. split; [exact I2|].
  apply pos_reidx with (j := j); auto; apply (rearranged_nth p); auto.
Qed.
Lemma flat_back : Permutation (map (back p) (flat_map (fun q => okl (pos E ct (as_names A') w' x' q)) (triples A' x'))) (flat_map (fun q => okl (pos E ct (as_names A) w x q)) (triples A x)).
Proof.
  assert (PT : Permutation (triples A' x') (triples A x)).
  { apply (rearranged_perm (as_len A) p); [exact HP|now apply triples_len|exact tri_re]. }
  apply Permutation_trans with (flat_map (fun q => okl (pos E ct (as_names A) w x q)) (triples A' x')); [|now apply Permutation_flat_map].
  assert (G : forall l, (forall q, In q l -> exists k, nth_error (triples A' x') k = Some q) ->
    map (back p) (flat_map (fun q => okl (pos E ct (as_names A') w' x' q)) l) = flat_map (fun q => okl (pos E ct (as_names A) w x q)) l).
  { induction l as [|q l IH]; intro H; [reflexivity|]. cbn [flat_map]. rewrite map_app, IH by (intros q' Hq'; apply H; now right). f_equal.
    destruct (H q (or_introl eq_refl)) as (k & Hk). destruct (at_k k q Hk) as (j & Ej & I1 & I2 & ->). destruct (pos E ct (as_names A) w x q) as [[i|]|] eqn:Ep; try reflexivity.
    cbn [rmap option_map okl map]. unfold back. cbn [reidx i_idx]. rewrite (nth_error_nth _ _ 0%nat Ej). rewrite <- (pos_idx _ _ _ _ _ _ _ _ I1 Ep). f_equal. destruct i; reflexivity. }
  rewrite G; [reflexivity|]. intros q Hq. now apply In_nth_error.
Qed.
Lemma len' : length x' = as_len A'.
Proof. rewrite (rearranged_len _ _ _ RX). unfold as_len. now rewrite (rearranged_len _ _ _ RN). Qed.
Lemma gbi_back infos infos' : get_build_info E A ct w x = Ok infos -> get_build_info E A' ct w' x' = Ok infos' -> Permutation (map (back p) infos') infos.
Proof.
  intros H1 H2. apply gbi_iff in H1; auto. apply gbi_iff in H2; auto using len'. destruct H1 as (_ & -> & _), H2 as (_ & -> & _). apply flat_back.
Qed.
Lemma gbi_total infos : get_build_info E A ct w x = Ok infos -> exists infos', get_build_info E A' ct w' x' = Ok infos'.
Proof.
  intro H1. apply gbi_iff in H1; auto. destruct H1 as (F1 & E1 & C1). eexists. apply gbi_iff; auto using len'. split; [|split; [reflexivity|]].
  - apply Forall_forall. intros q Hq. destruct (In_nth_error _ _ Hq) as (k & Hk). destruct (at_k k q Hk) as (j & Ej & I1 & I2 & ->).
    rewrite (rearranged_nth _ _ _ _ _ tri_re Ej) in Hk. apply nth_error_In in Hk. rewrite Forall_forall in F1. destruct (F1 q Hk) as (o & ->). cbn. eauto.
  - rewrite HY. apply forallb_forall. intros i Hi. pose proof flat_back as FB. rewrite <- E1 in FB.
    assert (Q : In (back p i) infos) by (apply (Permutation_in _ FB); now apply in_map). rewrite forallb_forall in C1. exact (C1 _ Q).
Qed.
End Reordered.

(** ** Choices *)
Lemma qsum_perm l l' : Permutation l l' -> qsum l = qsum l'.
Proof. induction 1; cbn; [reflexivity|congruence|ring|congruence]. Qed.
Lemma lmin_perm l l' : Permutation l l' -> lmin l = lmin l'.
Proof.
  intro H. destruct l as [|a l]; [apply Permutation_nil in H; now subst|]. assert (N : a :: l <> []) by discriminate. assert (N' : l' <> []) by (intros ->; apply Permutation_sym, Permutation_nil in H; discriminate H).
  apply Qcle_antisym; apply lmin_le; [apply (Permutation_in _ (Permutation_sym H))|apply (Permutation_in _ H)]; now apply lmin_In.
Qed.
Lemma qmaxl_perm l l' d : Permutation l l' -> qmaxl l d = qmaxl l' d.
Proof.
  assert (G : forall l l', Permutation l l' -> qmaxl l d <= qmaxl l' d).
  { clear. intros l l' H. destruct (qmaxl_ge l' d) as [H1 H2]. exact (qmaxl_le l d _ H1 (fun v Hv => H2 v (Permutation_in _ H Hv))). }
  intro H. apply Qcle_antisym; apply G; [exact H|exact (Permutation_sym H)].
Qed.
Lemma filter_perm_len {T} (f : T -> bool) l l' : Permutation l l' -> length (filter f l) = length (filter f l').
Proof. induction 1; cbn [filter]; repeat destruct (f _); cbn [length]; lia. Qed.
Section Choices.
Context (p : list nat) (infos infos' : list info) (PI : Permutation (map (back p) infos') infos) (ch : choice).
Definition carried : choice := fun k => ch (nth k p 0%nat).
Lemma carried_costs : Permutation (chosen_costs infos' carried) (chosen_costs infos ch).
Proof. unfold chosen_costs. apply Permutation_trans with (map (fun i => cst i (ch (i_idx i))) (map (back p) infos')); [rewrite map_map; reflexivity|]. now apply Permutation_map. Qed.
Lemma carried_gain : gain infos' carried = gain infos ch.
Proof. unfold gain. apply qsum_perm. apply Permutation_trans with (map (fun i => i_coef i * act i (ch (i_idx i))) (map (back p) infos')); [rewrite map_map; reflexivity|]. now apply Permutation_map. Qed.
Lemma carried_size : size_ch infos' carried = size_ch infos ch.
Proof.
  unfold size_ch. rewrite <- (filter_perm_len _ _ _ PI). clear. induction infos' as [|i l IH]; [reflexivity|]. cbn [map filter].
  change (moved ch (back p i)) with (moved carried i). destruct (moved carried i); cbn [length]; now rewrite IH.
Qed.
Lemma carried_ok : ch_ok infos ch -> ch_ok infos' carried.
Proof. intros H i Hi. apply (H (back p i)). apply (Permutation_in _ PI). now apply in_map. Qed.
Lemma same_eps : epsilon infos' = epsilon infos.
Proof.
  assert (N : forall l, epsilon l = lmin (map min_diff l) / qsum (map cost_ub l)). { intros [|i l]; [|reflexivity]. cbn. unfold Qcdiv. ring. }
  rewrite !N. assert (Q : forall a b c d : Qc, a = c -> b = d -> a / b = c / d) by (intros; congruence). apply Q.
  - apply lmin_perm. apply Permutation_trans with (map min_diff (map (back p) infos')); [rewrite map_map; reflexivity|]. now apply Permutation_map.
  - apply qsum_perm. apply Permutation_trans with (map cost_ub (map (back p) infos')); [rewrite map_map; reflexivity|]. now apply Permutation_map.
Qed.
Lemma carried_cost ct : choice_cost ct infos' carried = choice_cost ct infos ch.
Proof.
  unfold choice_cost. rewrite same_eps, (qsum_perm _ _ carried_costs), (qmaxl_perm _ _ 0 carried_costs). reflexivity.
Qed.
End Choices.
Lemma dot_perm n p w w' x x' : Permutation p (seq 0 n) -> length w = n -> length x = n -> rearranged p w w' -> rearranged p x x' -> dot w' x' = dot w x.
Proof.
  intros HP Lw Lx RW RX.
  assert (D : forall a b, dot a b = qsum (map (fun q => fst q * snd q) (combine a b))).
  { induction a as [|u a IH]; intros [|v b]; try reflexivity. cbn. now rewrite IH. }
  rewrite !D. apply qsum_perm, Permutation_map. apply (rearranged_perm n p); [exact HP|rewrite combine_length; lia|].
  clear - RW RX. unfold rearranged in *. revert x' RX. induction RW as [|j v p w' Hv RW IH]; intros x' RX; inversion RX as [|j' u p' x'' Hu RX' E1 E2]; subst; constructor; [|now apply IH].
  clear - Hv Hu. revert w x Hv Hu. induction j as [|j IH]; intros [|a w] [|b x]; cbn; intros H1 H2; try discriminate; [congruence|now apply IH].
Qed.

Lemma columns_no_worse E sv sv' p b x b' x' b0 b0' : ok_env E -> sound_solver sv -> sound_solver sv' -> finishing_solver sv' ->
  assigned E sv b x b0 -> assigned E sv' b' x' b0' -> reordered0 p b x b' x' -> answers_related (no_worse (bd_cost b)) sv sv' b0 b0'.
Proof.
  intros HE S1 S2 F2 A1 A2 (HP & RN & RE & RW & RX & Hy & Ht & Hc & Hmin & Hmax & U & U').
  destruct (assigned_ready E sv b x b0 HE A1) as (ms & R). destruct (assigned_ready E sv' b' x' b0' HE A2) as (ms' & R').
  pose proof (rd_good _ _ _ _ _ R) as G. pose proof (rd_good _ _ _ _ _ R') as G'.
  destruct (rd_n _ _ _ _ _ R) as (_ & C1 & _). destruct (rd_n _ _ _ _ _ R') as (_ & C2 & _). rewrite Hc in C2.
  pose proof (rd_w _ _ _ _ _ R) as Lw. pose proof (rd_x _ _ _ _ _ R) as Lx. pose proof (rd_el _ _ _ _ _ R) as Le. rewrite Lw in HP.
  assert (ND : NoDup (as_names (bd_A b))) by (apply (rd_wf _ _ _ _ _ R)).
  pose proof (rd_info _ _ _ _ _ R) as I1. pose proof (rd_info _ _ _ _ _ R') as I2. rewrite Hc in I2.
  assert (PI : Permutation (map (back p) (ms_infos ms')) (ms_infos ms)).
  { apply (gbi_back E p (bd_A b) (bd_A b') (bd_cost b) (bd_w b) (bd_w b') x x'); auto. }
  apply (related_gen sv sv' b0 b0' ms ms' _ (bd_cost b) S1 S2 F2 (gd_mip _ _ _ G) G' C1 C2).
  intros s Hs. pose proof (gd_shape _ _ _ G) as SH. pose proof (gd_shape _ _ _ G') as SH'. pose proof (gd_wf _ _ _ G) as WF. pose proof (gd_wf _ _ _ G') as WF'.
  destruct (decode _ _ _ WF (ms_mip ms) s SH Hs) as (_ & HPs & HL & _). set (ch := ch_of (ms_infos ms) s) in *.
  apply (gd_pass _ _ _ G) in HPs. destruct HPs as (K1 & K2 & K3 & _).
  assert (AC : accept (bd_A b') (bd_w b') (bd_t b') (bd_min b') (bd_max b') x' (ms_infos ms') (carried p ch)).
  { split; [exact (carried_ok p _ _ PI ch K1)|]. rewrite (carried_gain p _ _ PI ch), (carried_size p _ _ PI ch), Hy, Ht, Hmin, Hmax, (dot_perm _ _ _ _ _ _ HP Lw Lx RW RX).
    split; [exact K2|]. split; [exact K3|]. unfold unconstrained in U'. rewrite U'. constructor. }
  apply (gd_pass _ _ _ G') in AC. pose proof AC as AC2. apply (encode _ _ _ WF' (ms_mip ms') _ SH') in AC. destruct AC as (HS' & HC').
  exists (assign (ms_infos ms') (carried p ch)). split; [exact HS'|]. rewrite (objective_assign _ _ _ WF' _ _ SH' HC').
  rewrite C2. rewrite (carried_cost p _ _ PI ch). rewrite C1 in HL. exact HL.
Qed.
Theorem columns_same E sv sv' p b x b' x' b0 b0' : ok_env E -> sound_solver sv -> finishing_solver sv -> sound_solver sv' -> finishing_solver sv' ->
  assigned E sv b x b0 -> assigned E sv' b' x' b0' -> reordered0 p b x b' x' -> answers_related (same_answer (bd_cost b)) sv sv' b0 b0'.
Proof.
  intros HE S1 F1 S2 F2 A1 A2 R. apply related_same; [eapply columns_no_worse; eauto|].
  destruct (assigned_ready E sv b x b0 HE A1) as (ms & RD).
  destruct (reordered_sym E p b x b' x' R (rd_wf _ _ _ _ _ RD) (rd_w _ _ _ _ _ RD) (rd_x _ _ _ _ _ RD)) as (q & R'). destruct R as (_ & _ & _ & _ & _ & _ & _ & Hc & _). rewrite <- Hc.
  eapply columns_no_worse; eauto.
Qed.
