(** Rearranging the features: assignment and creation. *)
From Verif Require Import Proofs_props_element Proofs_props_actionset Spec_columns Proofs_mip Proofs_info Proofs_vec Proofs_build Proofs_enum Proofs_session Proofs_recourse Proofs_subset Proofs_exchange Proofs_far Proofs_concrete Proofs_builder Proofs_builder2 Proofs_builder4 Proofs_builder5 Proofs_scen Proofs_scen2 Proofs_builder6 Proofs_builder7 Proofs_builder8 Proofs_dict Proofs_compare Proofs_compare5 Proofs_flipset Proofs_flipset3 Proofs_columns.
#[local] Open Scope string_scope.
#[local] Open Scope list_scope.
#[local] Open Scope Qc_scope.

Lemma assign_one E p b x b' x' : ok_env E -> reordered0 p b x b' x' -> wf_aset E (bd_A b) -> length (bd_w b) = as_len (bd_A b) -> length x = as_len (bd_A b) ->
  snd (set_x E b x) = Ok tt -> snd (set_x E b' x') = Ok tt.
Proof.
  intros HE (HP & RN & RE & RW & RX & Hy & Ht & Hc & Hmin & Hmax & U & U') HF Lw Lx H.
  destruct (set_x E b x) as [b0 r] eqn:Q. cbn in H. subst r. destruct (set_x_ok _ _ _ _ Q) as (ms & _ & HB & _).
  destruct (build_parts _ _ _ _ _ _ _ _ _ _ HB) as (subs & K1 & _ & K3 & _). rewrite Lw in HP.
  assert (ND : NoDup (as_names (bd_A b))) by apply HF. pose proof (wf_len _ _ HF) as Le.
  destruct (gbi_total E p (bd_A b) (bd_A b') (bd_cost b) (bd_w b) (bd_w b') x x' HE U U' Hy HP ND Le Lx Lw RN RE RW RX _ K1) as (infos' & K1').
  pose proof (gbi_back E p (bd_A b) (bd_A b') (bd_cost b) (bd_w b) (bd_w b') x x' HE U U' HP ND Le Lx Lw RN RE RW RX _ _ K1 K1') as PI.
  unfold set_x. rewrite (rearranged_len _ _ _ RX), (rearranged_len _ _ _ RW), Nat.eqb_refl.
  destruct (build_total E (bd_kind b') (bd_A b') (bd_cost b') (bd_w b') (bd_t b') (bd_min b') (bd_max b') x' infos' []) as (ms' & HB').
  - rewrite Hc. exact K1'.
  - unfold cons_list. unfold unconstrained in U'. rewrite U'. reflexivity.
  - rewrite Hc. intros HN Z0. apply (K3 HN). subst infos'. cbn in PI. apply Permutation_nil in PI. exact PI.
  - rewrite HB'. reflexivity.
Qed.
Lemma reachable_ready E sv b : builder_reachable E sv b -> wf_aset E (bd_A b) /\ length (bd_w b) = as_len (bd_A b).
Proof. intro H. destruct (reachable_sane E sv b H) as (H1 & H2). split; [exact (reachable_wf _ _ H1)|exact H2]. Qed.
Lemma assign_both E sv sv' p b x b' x' : ok_env E -> builder_reachable E sv b -> builder_reachable E sv' b' -> reordered0 p b x b' x' -> length x = length (bd_w b) ->
  snd (set_x E b x) = Ok tt <-> snd (set_x E b' x') = Ok tt.
Proof.
  intros HE B1 B2 R Lx. destruct (reachable_ready _ _ _ B1) as (W1 & L1). destruct (reachable_ready _ _ _ B2) as (W2 & L2). rewrite L1 in Lx. split.
  - now apply (assign_one E p).
  - destruct (reordered_sym E p b x b' x' R W1 L1 Lx) as (q & R'). apply (assign_one E q); auto.
    destruct R as (_ & RN & _ & RW & RX & _). rewrite (rearranged_len _ _ _ RX). unfold as_len. now rewrite (rearranged_len _ _ _ RN).
Qed.

(** ** Creation *)
Lemma column_re p X X' n k j : Forall (fun row => length row = n) X -> Forall2 (rearranged p) X X' -> nth_error p k = Some j -> (j < n)%nat -> Model_actionset.column X' k = Model_actionset.column X j.
Proof.
  intros HL H Hk Hj. unfold Model_actionset.column. revert HL. induction H as [|r r' X X' Hr H IH]; intro HL; [reflexivity|]. inversion HL as [|? ? L1 L2]. subst. cbn [map]. rewrite (IH L2). f_equal.
  pose proof (rearranged_nth p r r' k j Hr Hk) as N. destruct (nth_error r j) as [v|] eqn:V; [|apply nth_error_None in V; lia]. now rewrite (nth_error_nth _ _ 0 V), (nth_error_nth _ _ 0 N).
Qed.
Lemma rearranged_map {T V} (f : T -> V) p l l' : rearranged p l l' -> rearranged p (map f l) (map f l').
Proof. intro H. unfold rearranged in *. induction H as [|j v p l' Hv H IH]; constructor; [rewrite nth_error_map, Hv; reflexivity|exact IH]. Qed.
Lemma rearranged_combine {T V} p (l l' : list T) (m m' : list V) : rearranged p l l' -> rearranged p m m' -> rearranged p (combine l m) (combine l' m').
Proof.
  unfold rearranged. intro H. revert m'. induction H as [|j v p l' Hv H IH]; intros m' K; inversion K as [|j' u p' m'' Hu K' E1 E2]; subst; constructor; [|now apply IH].
  clear - Hv Hu. revert l m Hv Hu. induction j as [|j IH]; intros [|a l] [|b m]; cbn; intros H1 H2; try discriminate; [congruence|now apply IH].
Qed.
Lemma create_aset p X X' names names' y custom dflt dst A : Permutation p (seq 0 (length names)) -> Forall2 (rearranged p) X X' -> rearranged p names names' ->
  mk_action_set X names y custom dflt dst = Ok A -> exists A', mk_action_set X' names' y custom dflt dst = Ok A' /\
    as_names A' = names' /\ rearranged p (as_elems A) (as_elems A') /\ as_y A' = as_y A /\ unconstrained A' /\ unconstrained A.
Proof.
  intros HP HX HN H. pose proof (mk_aset_spec _ _ _ _ _ _ _ H) as (HV & (HT0 & HT) & En & Ec & Ey & HL & HC).
  pose proof (rearranged_perm _ _ _ _ HP eq_refl HN) as PN. pose proof (rearranged_len _ _ _ HN) as LN. pose proof (Permutation_length HP) as LP. rewrite seq_length in LP.
  assert (PL : forall k j, nth_error p k = Some j -> (j < length names)%nat).
  { intros k j Hj. apply nth_error_In, (Permutation_in _ HP), in_seq in Hj. lia. }
  assert (HV' : valid_names names').
  { destruct HV as (V1 & V2 & V3). split; [intros ->; apply Permutation_nil in PN; auto|]. split; [intro Q; apply V2, (Permutation_in _ PN Q)|exact (Permutation_NoDup (Permutation_sym PN) V3)]. }
  assert (EX : forall k n', nth_error names' k = Some n' -> exists e j, nth_error p k = Some j /\ nth_error (as_elems A) j = Some e /\ mk_column_element custom dflt dst n' (Model_actionset.column X' k) = Ok e).
  { intros k n' Hk. destruct (nth_error p k) as [j|] eqn:Ej; [|apply nth_error_None in Ej; assert (nth_error names' k <> None) as Q by congruence; apply nth_error_Some in Q; lia].
    rewrite (rearranged_nth _ _ _ _ _ HN Ej) in Hk. pose proof (PL _ _ Ej) as Hj. destruct (nth_error (as_elems A) j) as [e|] eqn:Ee; [|apply nth_error_None in Ee; lia].
    exists e, j. split; [reflexivity|]. split; [exact Ee|]. rewrite (column_re p X X' (length names) k j HT HX Ej Hj). now apply HC. }
  unfold mk_action_set in H |- *. bnd H as u1 H1. bnd H as u2 H2. bnd H as u3 H3. bnd H as es H4. bnd H as u5 H5. injection H as <-. cbn [as_elems as_y as_cons] in *.
  rewrite (proj2 (check_names_iff names') HV'). cbn [passert bind].
  assert (Lx : length X' = length X) by (clear - HX; induction HX as [|r r' X X' _ _ IH]; [reflexivity|cbn; now rewrite IH]). rewrite Lx, H2. cbn [bind].
  assert (RL : forallb (fun row => Nat.eqb (length row) (length names')) X' = true).
  { apply forallb_forall. intros r' Hr'. apply Nat.eqb_eq. rewrite LN. clear - HX Hr'. induction HX as [|r r0 X X' Hr HX IH]; [destruct Hr'|]. destruct Hr' as [<-|Hr']; [exact (rearranged_len _ _ _ Hr)|auto]. }
  rewrite RL. cbn [passert bind].
  destruct (mapM_total (fun q => mk_column_element custom dflt dst (snd q) (Model_actionset.column X' (fst q))) (combine (seq 0 (length names')) names')) as (es' & Hes).
  { intros (k & n') Hin. apply In_nth_error in Hin. destruct Hin as (m & Hm). rewrite combine_seq_nth in Hm. destruct (nth_error names' m) as [n0|] eqn:Em; [|discriminate Hm]. injection Hm as <- <-. cbn [fst snd].
    destruct (EX m n0 Em) as (e & j & _ & _ & K). eauto. }
  rewrite Hes. cbn [bind]. rewrite H5. cbn [bind]. eexists. split; [reflexivity|]. cbn [as_names as_elems as_y as_cons]. split; [reflexivity|]. split; [|split; [reflexivity|split; reflexivity]].
  unfold rearranged. apply Forall2_nth. apply mapM_ok in Hes. apply Forall2_nth in Hes. destruct Hes as (L5 & Hes). rewrite combine_length, seq_length, Nat.min_id in L5. split; [congruence|].
  intros k j e' Hk He'. destruct (nth_error names' k) as [n'|] eqn:En'; [|apply nth_error_None in En'; assert (nth_error es' k <> None) as Q by congruence; apply nth_error_Some in Q; lia].
  destruct (EX k n' En') as (e & j2 & Ej & Ee & K). rewrite Hk in Ej. injection Ej as <-. rewrite Ee. f_equal.
  pose proof (Hes k (k, n') e') as Z0. rewrite combine_seq_nth, En' in Z0. specialize (Z0 eq_refl He'). cbn [fst snd] in Z0. congruence.
Qed.
Lemma count_actionable A : length (actionable_positions A) = length (filter e_actionable (as_elems A)).
Proof.
  unfold actionable_positions. rewrite map_length. generalize 0%nat. induction (as_elems A) as [|e l IH]; intro k; [reflexivity|]. cbn [length seq combine filter snd]. destruct (e_actionable e); cbn [length]; now rewrite IH.
Qed.
Lemma forallb_perm {T} (f : T -> bool) l l' : Permutation l l' -> forallb f l = forallb f l'.
Proof. induction 1; cbn; [reflexivity|congruence|destruct (f x), (f y); reflexivity|congruence]. Qed.
Lemma create_builder E k k' p A A' w w' t ct b x x' : Permutation p (seq 0 (as_len A)) -> length (as_elems A) = as_len A -> rearranged p (as_names A) (as_names A') -> rearranged p (as_elems A) (as_elems A') ->
  as_y A' = as_y A -> unconstrained A -> unconstrained A' -> rearranged p w w' -> rearranged p x x' ->
  mk_builder E k A (coef_args w t) ct None = Ok b -> exists b', mk_builder E k' A' (coef_args w' t) ct None = Ok b' /\ reordered0 p b x b' x'.
Proof.
  intros HP LE RN RE Hy U U' RW RX H. unfold mk_builder in *. rewrite coef_parse in H |- *. cbn [bind] in *. bnd H as u Hu. apply passert_ok, Nat.eqb_eq in Hu.
  assert (LL : as_len A' = length w') by (unfold as_len; now rewrite (rearranged_len _ _ _ RN), (rearranged_len _ _ _ RW)). rewrite LL, Nat.eqb_refl. cbn [passert bind].
  pose proof (rearranged_perm _ _ _ _ HP LE RE) as PE.
  assert (AK : alignment_known A' = alignment_known A) by (unfold alignment_known; now apply forallb_perm). rewrite AK.
  assert (S : forall A1, (if alignment_known A then Ok A else set_alignment A {| k_clf := None; k_classifier := None; k_coefs := None; k_intercept := None; a_pos := [AVec (map Fin w)] |}) = Ok A1 ->
    exists A1', (if alignment_known A then Ok A' else set_alignment A' {| k_clf := None; k_classifier := None; k_coefs := None; k_intercept := None; a_pos := [AVec (map Fin w')] |}) = Ok A1' /\
      as_names A1 = as_names A /\ as_names A1' = as_names A' /\ rearranged p (as_elems A1) (as_elems A1') /\ as_y A1' = as_y A1 /\ unconstrained A1 /\ unconstrained A1' /\
      length (filter e_actionable (as_elems A1')) = length (filter e_actionable (as_elems A1))).
  { intros A1 HA1. destruct (alignment_known A).
    - injection HA1 as <-. exists A'. repeat split; auto. now apply filter_perm_len.
    - assert (PA : forall v, parse_classifier_args {| k_clf := None; k_classifier := None; k_coefs := None; k_intercept := None; a_pos := [AVec (map Fin v)] |} = Ok (v, 0)).
      { intro v. unfold parse_classifier_args. cbn. rewrite finite_all_fin. reflexivity. }
      unfold set_alignment in *. rewrite PA in *. cbn [bind] in *. rewrite LL, Nat.eqb_refl. cbn [passert bind]. bnd HA1 as u2 Hu2. injection HA1 as <-.
      rewrite Hy. eexists. split; [reflexivity|]. cbn [with_elems as_names as_elems as_y as_cons].
      split; [reflexivity|]. split; [reflexivity|].
      assert (RR : rearranged p (map (fun q => with_flip (fst q) (Some (Z.sgn (snd q)))) (combine (as_elems A) (map (fun v => if (0 <? as_y A)%Z then qsign v else (- qsign v)%Z) w)))
        (map (fun q => with_flip (fst q) (Some (Z.sgn (snd q)))) (combine (as_elems A') (map (fun v => if (0 <? as_y A)%Z then qsign v else (- qsign v)%Z) w')))).
      { apply rearranged_map, rearranged_combine; [exact RE|now apply rearranged_map]. }
      split; [exact RR|]. split; [exact Hy|]. split; [exact U|]. split; [exact U'|]. apply filter_perm_len. apply (rearranged_perm (as_len A) p); [exact HP| |exact RR].
      rewrite map_length, combine_length, map_length, LE, <- Hu. apply Nat.min_id. }
  bnd H as A1 HA1. destruct (S A1 HA1) as (A1' & -> & N1 & N2 & R1 & Y1 & V1 & V2 & CA). cbn [bind]. cbv zeta in *. injection H as <-. eexists. split; [reflexivity|].
  unfold reordered0. cbn [bd_w bd_A bd_t bd_cost bd_min bd_max]. rewrite <- Hu, N1, N2, !count_actionable, CA. repeat (split; [first [assumption|reflexivity]|]). assumption.
Qed.
Theorem columns_created p X X' names names' y custom dflt dst A : Permutation p (seq 0 (length names)) -> Forall2 (rearranged p) X X' -> rearranged p names names' ->
  mk_action_set X names y custom dflt dst = Ok A -> exists A', mk_action_set X' names' y custom dflt dst = Ok A' /\
    forall E k k' w w' t ct b x x', rearranged p w w' -> rearranged p x x' -> mk_builder E k A (coef_args w t) ct None = Ok b ->
      exists b', mk_builder E k' A' (coef_args w' t) ct None = Ok b' /\ reordered0 p b x b' x'.
Proof.
  intros HP HX HN H. pose proof (mk_aset_spec _ _ _ _ _ _ _ H) as (HV & _ & En & _ & _ & HL & _). destruct (create_aset p X X' names names' y custom dflt dst A HP HX HN H) as (A' & H' & N' & RE & Hy & U' & U).
  exists A'. split; [exact H'|]. intros E k k' w w' t ct b x x' RW RX HB. unfold as_len in *.
  apply (create_builder E k k' p A A' w w' t ct b x x'); auto; unfold as_len; rewrite ?En, ?N'; auto.
Qed.
