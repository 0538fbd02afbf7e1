(** C137: creation of the narrowed question from a table with fewer columns; cases. *)
From Verif Require Import Proofs_props_element Proofs_props_actionset Spec_fewer Proofs_num Proofs_registry Proofs_actionset Proofs_session Proofs_builder Proofs_builder2 Proofs_builder3 Proofs_builder7 Proofs_builder8 Proofs_columns Proofs_columns2 Proofs_columns3 Proofs_columns4 Proofs_vec Proofs_concrete Proofs_scen Proofs_scen2 Proofs_compare4 Proofs_constrained Proofs_flipset Proofs_flipset3 Proofs_setup Spec_setup Proofs_subset Proofs_fewer.
#[local] Open Scope string_scope.
#[local] Open Scope list_scope.
#[local] Open Scope Qc_scope.

Definition untouched (ns : list string) (A A' : action_set) : Prop :=
  as_names A' = as_names A /\ as_y A' = as_y A /\ as_cons A' = as_cons A /\ length (as_elems A') = length (as_elems A) /\
  forall k n, nth_error (as_names A) k = Some n -> In n ns -> nth_error (as_elems A') k = nth_error (as_elems A) k.
Lemma untouched_refl ns A : untouched ns A A.
Proof. repeat split. Qed.
Lemma untouched_trans ns A B C : untouched ns A B -> untouched ns B C -> untouched ns A C.
Proof. intros (H1 & H2 & H3 & H4 & H5) (K1 & K2 & K3 & K4 & K5). split; [congruence|]. split; [congruence|]. split; [congruence|]. split; [congruence|]. intros k n Hk Hn. rewrite (K5 k n), (H5 k n); congruence. Qed.
Lemma list_set_other {T} k j (v : T) l : k <> j -> nth_error (list_set j v l) k = nth_error l k.
Proof. revert k j. induction l as [|u l IH]; intros [|k] [|j] H; cbn; try reflexivity; [congruence|]. apply IH. congruence. Qed.
Lemma edit_untouched ns A n a v : ~ In n ns -> untouched ns A (fst (index_setattr A (IStr n) a v)).
Proof.
  intro Hn. unfold index_setattr. cbn [select]. unfold key_pos. destruct (index_of n (as_names A)) as [j|] eqn:Hj; cbn; [|apply untouched_refl].
  destruct (nth_error (as_elems A) j) as [e|] eqn:He; [|apply untouched_refl]. destruct (elem_setattr a v e) as [e'|]; [|apply untouched_refl].
  cbn. split; [reflexivity|]. split; [reflexivity|]. split; [reflexivity|]. split; [apply list_set_length|]. intros k m Hk Hm. cbn. apply list_set_other. intros ->.
  apply index_of_ok in Hj. congruence.
Qed.
Lemma edits_untouched E ns ops : Forall (edits_others ns) ops -> forall A, untouched ns A (aset_run E A ops).
Proof.
  induction 1 as [|o ops Ho H IH]; intro A; [apply untouched_refl|]. unfold aset_run in *. cbn [fold_left]. eapply untouched_trans; [|apply IH].
  destruct o; try (exfalso; exact Ho). destruct i; try (exfalso; exact Ho). exact (edit_untouched ns A s attr v Ho).
Qed.

Lemma mapM_fine {S T} (f : S -> res T) l : (forall s, In s l -> exists t, f s = Ok t) -> exists ts, mapM f l = Ok ts.
Proof. induction l as [|s l IH]; intro H; [exists []; reflexivity|]. destruct (H s (or_introl eq_refl)) as [t Ht]. destruct IH as [ts Hts]; [intros; apply H; now right|]. exists (t :: ts). cbn [mapM]. now rewrite Ht; cbn [bind]; rewrite Hts. Qed.
Lemma narrow_aset p X X' names names' y custom dflt dst A : NoDup p -> names' <> [] -> Forall2 (rearranged p) X X' -> rearranged p names names' ->
  mk_action_set X names y custom dflt dst = Ok A -> exists A', mk_action_set X' names' y custom dflt dst = Ok A' /\
    as_names A' = names' /\ rearranged p (as_elems A) (as_elems A') /\ as_y A' = as_y A /\ unconstrained A' /\ unconstrained A.
Proof.
  intros ND NE HX HN H. pose proof (mk_aset_spec _ _ _ _ _ _ _ H) as (HV & (HT0 & HT) & En & Ec & Ey & HL & HC).
  pose proof (rearranged_len _ _ _ HN) as LN.
  assert (PL : forall k j, nth_error p k = Some j -> (j < length names)%nat).
  { intros k j Hj. apply nth_error_Some. rewrite <- (rearranged_nth _ _ _ _ _ HN Hj). apply nth_error_Some. rewrite LN. apply nth_error_Some. congruence. }
  assert (HV' : valid_names names').
  { destruct HV as (V1 & V2 & V3). split; [exact NE|]. split.
    - intro Q. apply V2. apply In_nth_error in Q. destruct Q as [k Hk]. destruct (rearranged_at _ _ _ _ _ HN Hk) as (j & _ & Hj). eapply nth_error_In. exact Hj.
    - apply NoDup_nth_error. intros i k Hi Q. destruct (nth_error names' i) as [v|] eqn:Hv; [|apply nth_error_None in Hv; lia].
      destruct (rearranged_at _ _ _ _ _ HN Hv) as (j & Hj & Hj'). destruct (rearranged_at _ _ _ _ _ HN (eq_sym Q)) as (j2 & Hj2 & Hj2').
      assert (j = j2) by (rewrite NoDup_nth_error in V3; apply V3; [apply nth_error_Some; congruence|congruence]). subst j2.
      rewrite NoDup_nth_error in ND. apply ND; [apply nth_error_Some; congruence|congruence]. }
  assert (EX : forall k n', nth_error names' k = Some n' -> exists e j, nth_error p k = Some j /\ nth_error (as_elems A) j = Some e /\ mk_column_element custom dflt dst n' (Model_actionset.column X' k) = Ok e).
  { intros k n' Hk. destruct (nth_error p k) as [j|] eqn:Ej; [|apply nth_error_None in Ej; assert (nth_error names' k <> None) as Q by congruence; apply nth_error_Some in Q; lia].
    rewrite (rearranged_nth _ _ _ _ _ HN Ej) in Hk. pose proof (PL _ _ Ej) as Hj. destruct (nth_error (as_elems A) j) as [e|] eqn:Ee; [|apply nth_error_None in Ee; lia].
    exists e, j. split; [reflexivity|]. split; [exact Ee|]. rewrite (column_re p X X' (length names) k j HT HX Ej Hj). now apply HC. }
  unfold mk_action_set in H |- *. bnd H as u1 H1. bnd H as u2 H2. bnd H as u3 H3. bnd H as es H4. bnd H as u5 H5. injection H as <-. cbn [as_elems as_y as_cons] in *.
  rewrite (proj2 (check_names_iff names') HV'). cbn [passert bind].
  assert (Lx : length X' = length X) by (clear - HX; induction HX as [|r r' X X' _ _ IH]; [reflexivity|cbn; now rewrite IH]). rewrite Lx, H2. cbn [bind].
  assert (RL : forallb (fun row => Nat.eqb (length row) (length names')) X' = true).
  { apply forallb_forall. intros r' Hr'. apply Nat.eqb_eq. rewrite LN. clear - HX Hr'. induction HX as [|r r0 X X' Hr HX IH]; [destruct Hr'|]. destruct Hr' as [<-|Hr']; [exact (rearranged_len _ _ _ Hr)|auto]. }
  rewrite RL. cbn [passert bind].
  destruct (mapM_fine (fun q => mk_column_element custom dflt dst (snd q) (Model_actionset.column X' (fst q))) (combine (seq 0 (length names')) names')) as (es' & Hes).
  { intros (k & n') Hin. apply In_nth_error in Hin. destruct Hin as (m & Hm). rewrite combine_seq_nth in Hm. destruct (nth_error names' m) as [n0|] eqn:Em; [|discriminate Hm]. injection Hm as <- <-. cbn [fst snd].
    destruct (EX m n0 Em) as (e & j & _ & _ & K). eauto. }
  rewrite Hes. cbn [bind]. rewrite H5. cbn [bind]. eexists. split; [reflexivity|]. cbn [as_names as_elems as_y as_cons]. split; [reflexivity|]. split; [|split; [reflexivity|split; reflexivity]].
  unfold rearranged. apply Forall2_nth. apply mapM_ok in Hes. apply Forall2_nth in Hes. destruct Hes as (L5 & Hes). rewrite combine_length, seq_length, Nat.min_id in L5. split; [congruence|].
  intros k j e' Hk He'. destruct (nth_error names' k) as [n'|] eqn:En'; [|apply nth_error_None in En'; assert (nth_error es' k <> None) as Q by congruence; apply nth_error_Some in Q; lia].
  destruct (EX k n' En') as (e & j2 & Ej & Ee & K). rewrite Hk in Ej. injection Ej as <-. rewrite Ee. f_equal.
  pose proof (Hes k (k, n') e') as Z0. rewrite combine_seq_nth, En' in Z0. specialize (Z0 eq_refl He'). cbn [fst snd] in Z0. congruence.
Qed.

Lemma filter_none {T} (f : T -> bool) l : (forall v, In v l -> f v = false) -> filter f l = [].
Proof. induction l as [|v l IH]; intro H; [reflexivity|]. cbn. rewrite (H v (or_introl eq_refl)). apply IH. intros; apply H; now right. Qed.
Lemma narrow_count {T} (f : T -> bool) n p (l l' : list T) : NoDup p -> (forall j, In j p -> (j < n)%nat) -> length l = n -> rearranged p l l' ->
  (forall j v, nth_error l j = Some v -> ~ In j p -> f v = false) -> length (filter f l') = length (filter f l).
Proof.
  intros ND HB L HR H. destruct (some_rest n p l l' L HR) as (m & Lm & F). rewrite <- (filter_perm_len f _ _ (rearranged_perm n _ _ _ (rest_perm n p ND HB) L F)).
  rewrite filter_app, app_length. rewrite (filter_none f m); [cbn; lia|]. intros v Hv. apply In_nth_error in Hv. destruct Hv as [k Hk].
  assert (K : nth_error (l' ++ m) (length p + k) = Some v) by (rewrite nth_error_app2; rewrite (rearranged_len _ _ _ HR); [|lia]; now replace (length p + k - length p)%nat with k by lia).
  assert (Kl : (k < length (rest n p))%nat) by (rewrite <- Lm; apply nth_error_Some; congruence).
  destruct (nth_error (rest n p) k) as [j|] eqn:Hj; [|apply nth_error_None in Hj; lia].
  assert (K2 : nth_error (p ++ rest n p) (length p + k) = Some j) by (rewrite nth_error_app2 by lia; now replace (length p + k - length p)%nat with k by lia).
  rewrite (rearranged_nth _ _ _ _ _ F K2) in K. apply (H j); [exact K|]. apply nth_error_In, rest_in in Hj. tauto.
Qed.
Lemma narrow_fixed_elems A p : (forall j, ~ In j p -> fixed_at A j) -> forall j e, nth_error (as_elems A) j = Some e -> ~ In j p -> e_actionable e = false.
Proof. intros H j e He Hj. exact (H j Hj e He). Qed.
Lemma narrow_builder E k k' p A A' w w' t t' ct b b' x x' : NoDup p -> length (as_elems A) = as_len A -> length (as_elems A') = as_len A' ->
  alignment_known A = false -> alignment_known A' = false ->
  rearranged p (as_names A) (as_names A') -> rearranged p (as_elems A) (as_elems A') ->
  as_y A' = as_y A -> unconstrained A -> unconstrained A' -> rearranged p w w' -> rearranged p x x' -> (forall j, ~ In j p -> left_out A w j) -> score w' t' x' = score w t x ->
  mk_builder E k A (coef_args w t) ct None = Ok b -> mk_builder E k' A' (coef_args w' t') ct None = Ok b' -> narrowed p b x b' x'.
Proof.
  intros ND LE LE' AK AK' RN RE Hy U U' RW RX HF HS H H'. unfold mk_builder in *. rewrite coef_parse in H, H'. cbn [bind] in *. bnd H as u Hu. apply passert_ok, Nat.eqb_eq in Hu. bnd H' as u' Hu'. apply passert_ok, Nat.eqb_eq in Hu'.
  rewrite AK in H. rewrite AK' in H'. bnd H as A1 HA1. bnd H' as A1' HA1'. cbv zeta in *. injection H as <-. injection H' as <-.
  assert (PA : forall v, parse_classifier_args {| k_clf := None; k_classifier := None; k_coefs := None; k_intercept := None; a_pos := [AVec (map Fin v)] |} = Ok (v, 0)).
  { intro v. unfold parse_classifier_args. cbn. rewrite finite_all_fin. reflexivity. }
  unfold set_alignment in *. rewrite PA in *. cbn [bind] in *. bnd HA1 as u2 Hu2. injection HA1 as <-. bnd HA1' as u2' Hu2'. injection HA1' as <-.
  assert (HB : forall j, In j p -> (j < as_len A)%nat).
  { intros j Hj. apply In_nth_error in Hj. destruct Hj as [i Hi]. unfold as_len. apply nth_error_Some. rewrite <- (rearranged_nth _ _ _ _ _ RN Hi). apply nth_error_Some. rewrite (rearranged_len _ _ _ RN). apply nth_error_Some. congruence. }
  rewrite Hy. unfold narrowed. cbn [bd_w bd_A bd_t bd_cost bd_min bd_max with_elems as_names as_elems as_y as_cons].
  set (al := fun (B : action_set) (v : list Qc) => map (fun q : element * Z => with_flip (fst q) (Some (Z.sgn (snd q)))) (combine (as_elems B) (map (fun v => if (0 <? as_y A)%Z then qsign v else (- qsign v)%Z) v))).
  assert (RR : rearranged p (al A w) (al A' w')) by (unfold al; apply rearranged_map, rearranged_combine; [exact RE|now apply rearranged_map]).
  assert (AC : forall B v j e, nth_error (al B v) j = Some e -> exists e0, nth_error (as_elems B) j = Some e0 /\ e_actionable e = e_actionable e0).
  { intros B v j e He. unfold al in He. rewrite nth_error_map in He. destruct (nth_error (combine _ _) j) as [[e0 f]|] eqn:Q; [|discriminate He]. cbn in He. injection He as <-. exists e0. split; [|reflexivity].
    clear - Q. revert Q. generalize (map (fun v0 : Qc => if (0 <? as_y A)%Z then qsign v0 else (- qsign v0)%Z) v). generalize (as_elems B). revert j. intros j l. revert j. induction l as [|a l IH]; intros [|j] [|b m]; cbn; intro Q; try discriminate; [congruence|eauto]. }
  split; [exact ND|]. split; [exact RN|]. split; [exact RR|]. split; [exact RW|]. split; [exact RX|].
  split. { intros j Hj. destruct (HF j Hj) as [Q|Q]; [left|now right]. intros e He. destruct (AC A w j e He) as (e0 & He0 & ->). exact (Q e0 He0). }
  split; [exact HS|]. split; [exact Hy|]. split; [reflexivity|]. split; [reflexivity|]. split.
  { right. unfold n_actionable_features. cbn [bd_max bd_A]. rewrite !count_actionable. cbn [with_elems as_elems]. lia. }
  assert (NS : forall B id c, unconstrained B -> ~ stored (as_cons B) id c). { intros B id c HU. unfold stored, unconstrained in *. rewrite HU. discriminate. }
  split; [split|].
  - intros id c Hc. exfalso. exact (NS A id c U Hc).
  - intros id c Hc. exfalso. exact (NS A' id c U' Hc).
  - intros j (id & c & Hc & _). exfalso. exact (NS A id c U Hc).
Qed.
(** ** From tables to answers *)
Lemma fewer_tables E p X X' names names' y custom dflt dst A0 edits A : NoDup p -> names' <> [] -> Forall2 (rearranged p) X X' -> rearranged p names names' ->
  mk_action_set X names y custom dflt dst = Ok A0 -> Forall set_up_edit edits -> Forall (edits_others names') edits -> A = aset_run E A0 edits ->
  exists A', mk_action_set X' names' y custom dflt dst = Ok A' /\
  forall sv sv' k k' w w' t t' ct x x' b0 b0', ok_env E -> sound_solver sv -> finishing_solver sv -> sound_solver sv' -> finishing_solver sv' -> density E -> log_ok E ct ->
    rearranged p w w' -> rearranged p x x' -> (forall j, ~ In j p -> left_out A w j) -> score w' t' x' = score w t x -> denied (as_y A) (score w t x) ->
    mk_builder E k A (coef_args w t) ct (Some x) = Ok b0 -> mk_builder E k' A' (coef_args w' t') ct (Some x') = Ok b0' ->
    exists b1 r b1' r', fit sv b0 = Ok (b1, r) /\ fit sv' b0' = Ok (b1', r') /\
      match r, r' with
      | Some s, Some s' => regular E A x -> ct <> CMax -> s_cost s' = s_cost s
      | None, None => True
      | _, _ => False
      end.
Proof.
  intros ND NE HX HN H0 HE1 HE2 HA. destruct (narrow_aset p X X' names names' y custom dflt dst A0 ND NE HX HN H0) as (A' & H' & N' & RE & Hy & U' & U).
  assert (SU : set_up E X A) by (do 7 eexists; split; [exact H0|]; split; [exact HE1|exact HA]). destruct (set_up_props E X A SU) as (R & C & UA & _).
  assert (SU' : set_up E X' A') by (exists names', y, custom, dflt, dst, A', []; split; [exact H'|]; split; [constructor|reflexivity]). destruct (set_up_props E X' A' SU') as (R' & C' & UA' & _).
  pose proof (edits_untouched E names' edits HE2 A0) as UT. rewrite <- HA in UT. destruct UT as (T1 & T2 & T3 & T4 & T5).
  pose proof (mk_aset_spec _ _ _ _ _ _ _ H0) as (_ & _ & En & _ & _ & HL & _). pose proof (mk_aset_spec _ _ _ _ _ _ _ H') as (_ & _ & En' & _ & _ & HL' & HC').
  assert (RN : rearranged p (as_names A) (as_names A')) by (rewrite T1, En, N'; exact HN).
  assert (REA : rearranged p (as_elems A) (as_elems A')).
  { unfold rearranged in *. apply Forall2_nth in RE. destruct RE as [L RE]. apply Forall2_nth. split; [exact L|]. intros k j v Hj Hv. pose proof (RE k j v Hj Hv) as Q.
    destruct (nth_error names' k) as [m|] eqn:Hm; [|apply nth_error_None in Hm; assert (nth_error (as_elems A') k <> None) as Z by congruence; apply nth_error_Some in Z; lia].
    rewrite (T5 j m); [exact Q| |eapply nth_error_In; exact Hm]. rewrite En. now rewrite <- (rearranged_nth p names names' k j HN Hj). }
  assert (AK' : alignment_known A' = false /\ alignment_known A = false).
  { destruct names' as [|m names2] eqn:EN; [congruence|]. destruct (as_elems A') as [|e l] eqn:EE; [cbn in HL'; discriminate HL'|].
    assert (Fe : e_aligned e = false). { assert (E0 : nth_error (e :: l) 0 = Some e) by reflexivity. try rewrite EE in HC'. destruct (mk_column_created _ _ _ _ _ _ (HC' 0%nat m e eq_refl E0)) as (_ & _ & _ & Q). unfold e_aligned. now rewrite Q. }
    split; [unfold alignment_known; rewrite EE; cbn; now rewrite Fe|].
    inversion REA as [|j v p' l' Hv HR' E1 E2]. subst. unfold alignment_known. apply not_true_is_false. intro Q. rewrite forallb_forall in Q. apply nth_error_In in Hv. rewrite (Q e Hv) in Fe. discriminate Fe. }
  destruct AK' as [AK' AK]. exists A'. split; [exact H'|].
  intros sv sv' k k' w w' t t' ct x x' b0 b0' HE S1 F1 S2 F2 HD HLg RW RX HF HS Den HB HB'.
  destruct (created_assigned _ _ _ _ _ _ _ R HB) as (b & Hb & _ & _ & Has). destruct (created_assigned _ _ _ _ _ _ _ R' HB') as (b' & Hb' & _ & _ & Has').
  pose proof (created_fresh _ _ _ _ _ _ _ _ R (coef_parse w t) Hb) as Fr. pose proof (created_fresh _ _ _ _ _ _ _ _ R' (coef_parse w' t') Hb') as Fr'.
  assert (NR : narrowed p b x b' x').
  { apply (narrow_builder E k k' p A A' w w' t t' ct b b' x x'); auto; [exact (fr_elems _ _ _ _ _ _ _ Fr)|exact (fr_elems _ _ _ _ _ _ _ Fr')|congruence]. }
  pose proof (fr_sbf _ _ _ _ _ _ _ Fr) as SB. pose proof SB as (S_1 & S_2 & S_3 & S_4). pose proof (fr_sbf _ _ _ _ _ _ _ Fr') as (Q_1 & Q_2 & Q_3 & Q_4).
  assert (Ub : unconstrained (bd_A b)) by (unfold unconstrained in *; now rewrite S_2). assert (Ub' : unconstrained (bd_A b')) by (unfold unconstrained in *; now rewrite Q_2).
  assert (G : good_setup E b x).
  { split; [now apply unconstrained_orderly|]. split; [rewrite (fr_w _ _ _ _ _ _ _ Fr); apply (fr_flips _ _ _ _ _ _ _ Fr); now left|]. split; [exact (sbf_current _ _ SB C)|]. split; [rewrite (fr_min _ _ _ _ _ _ _ Fr); lia|].
    rewrite S_3, (fr_w _ _ _ _ _ _ _ Fr), (fr_t _ _ _ _ _ _ _ Fr). exact Den. }
  destruct (fewer_thm E sv sv' p b x b' x' b0 b0' HE S1 F1 S2 F2 HD ltac:(rewrite (fr_cost _ _ _ _ _ _ _ Fr); exact HLg) (Has sv) (Has' sv') NR G (unconstrained_orderly E _ _ _ Ub')) as (b1 & r & b1' & r' & Hf & Hf' & HM).
  exists b1, r, b1', r'. split; [exact Hf|]. split; [exact Hf'|]. rewrite (fr_cost _ _ _ _ _ _ _ Fr) in HM. destruct r, r'; auto. intros Hr Hc. apply HM; [exact (sbf_regular E A _ x SB Hr)|exact Hc].
Qed.
