(** Proofs of the property theorems of Props_actionset.v. *)
From Verif Require Export Proofs_actionset.

(** ** C07 *)
Lemma all_distinct_sorted g : StronglySorted Qclt g -> all_distinct g = true.
Proof.
  intro H. apply all_distinct_iff. induction H as [|a l H IH HF]; constructor; [|exact IH].
  intro Hin. rewrite Forall_forall in HF. specialize (HF a Hin). revert HF. apply Qclt_not_eq || idtac. 
  intro K. qlra.
Qed.
Lemma nondecr_sorted g : StronglySorted Qclt g -> nondecr g = true.
Proof.
  induction 1 as [|a l H IH HF]; [reflexivity|]. destruct l as [|b l]; [reflexivity|]. cbn [nondecr] in *.
  apply andb_true_iff. split; [|exact IH]. inversion HF; subst. qbool. now apply Qclt_le_weak.
Qed.
Lemma check_rep_ok e e' : basic_inv e -> update_grid e = Ok e' -> element_check_rep e' = Ok tt.
Proof.
  intros HB HU. pose proof (is_grid_sorted _ _ (new_grid_is_grid _ _ HB HU)) as HS.
  destruct (update_grid_spec _ _ HB HU) as [_ Ee]. unfold element_check_rep.
  assert (Hle : (e_lb e' <=? e_ub e') = true) by (rewrite Ee; qbool; apply HB).
  rewrite Hle, (all_distinct_sorted _ HS), (nondecr_sorted _ HS). reflexivity.
Qed.
Lemma qsort_ne (l : list Qc) : l <> [] -> Nat.eqb (length (qsort l)) 0 = false.
Proof. intro H. rewrite qsort_length. destruct l; [congruence|reflexivity]. Qed.

Lemma mk_element_eq name col l u tv b t stv stp ssv q :
  name <> "" -> col <> [] -> mk_bound (qsort col) l u tv = Ok b ->
  (stv = PStr "relative" /\ stp = Relative /\ q <= 1 \/ stv = PStr "absolute" /\ stp = AbsoluteStep) ->
  ssv = PFloat (Fin q) \/ (exists z, ssv = PInt z /\ q = qz z) -> 0 < q ->
  mk_element name col (PTuple [l; u; tv]) (PType t) (PBool true) stv (PInt 0) ssv =
  update_grid (raw_element name (qsort col) t true b stp q 0%Z).
Proof.
  intros Hn Hc Hb Hst Hss Hq. unfold mk_element. apply String.eqb_neq in Hn. rewrite Hn. cbn [negb passert bind].
  rewrite (qsort_ne _ Hc). cbn [negb passert bind set_variable_type set_actionable is01 pynum].
  assert (E01 : (1 =? 0) || (1 =? 1) = true) by reflexivity. rewrite E01. cbn [passert bind].
  assert (E10 : (1 =? 0) = false) by reflexivity. rewrite E10. cbn [negb].
  unfold set_bounds. cbn [e_values with_actionable with_vtype]. rewrite Hb. cbn [bind].
  set (e3 := with_bounds _ b).
  assert (E4 : set_step_type e3 stv = Ok (with_step_type e3 stp)) by (destruct Hst as [(-> & -> & _)|(-> & ->)]; reflexivity).
  rewrite E4. cbn [bind].
  assert (E5 : set_step_size (with_step_type e3 stp) ssv = Ok (with_step_size (with_step_type e3 stp) q)).
  { assert (Hq' : (0 <? q) = true) by (qbool; exact Hq).
    unfold set_step_size. destruct Hss as [->|(z & -> & Ez)]; cbn [pynum]; [|rewrite <- Ez]; rewrite Hq'; cbn [passert bind e_step_type with_step_type];
      (destruct Hst as [(_ & -> & H1)|(_ & ->)]; [|reflexivity]);
      (assert (H1' : (q <=? 1) = true) by (qbool; exact H1)); rewrite H1'; reflexivity. }
  rewrite E5. cbn [bind]. unfold set_step_direction. cbn [sign_arg pynum bind].
  rewrite qsign_qz. cbn [Z.sgn].
  change (with_step_dir (with_step_size (with_step_type e3 stp) q) 0) with (raw_element name (qsort col) t true b stp q 0%Z).
  destruct (update_grid _) as [e7|x] eqn:HU; [|reflexivity]. cbn [bind].
  rewrite (check_rep_ok _ _ (raw_basic _ _ _ _ _ _ _ _ _ _ _ Hb Hq) HU). reflexivity.
Qed.

Lemma int_column_perm l m : Permutation l m -> int_column l -> int_column m.
Proof.
  intros HP [H1 H2]. split; [eapply Permutation_Forall; eauto|]. intro H. apply H2. eapply Permutation_Forall; [symmetry; exact HP|exact H].
Qed.
Lemma is_percentile_perm l m q p : Permutation l m -> is_percentile l q p -> is_percentile m q p.
Proof. intros HP (s & i & f & lo & H1 & H). exists s, i, f, lo. split; [now rewrite H1|exact H]. Qed.
Lemma rounded_down_perm l m v b : Permutation l m -> rounded_down l v b -> rounded_down m v b.
Proof.
  intros HP [H1 H2]. split; intro H; [apply H1|apply H2; intro K; apply H].
  - eapply int_column_perm; [symmetry; exact HP|exact H].
  - eapply int_column_perm; [exact HP|exact K].
Qed.
Lemma rounded_up_perm l m v b : Permutation l m -> rounded_up l v b -> rounded_up m v b.
Proof.
  intros HP [H1 H2]. split; intro H; [apply H1|apply H2; intro K; apply H].
  - eapply int_column_perm; [symmetry; exact HP|exact H].
  - eapply int_column_perm; [exact HP|exact K].
Qed.
Lemma dvt_perm l m : Permutation l m -> determine_variable_type l = determine_variable_type m.
Proof.
  intro HP. destruct (determine_variable_type m) eqn:E.
  - apply dvt_bool. apply dvt_bool in E. eapply Permutation_Forall; [symmetry; exact HP|exact E].
  - apply dvt_int. apply dvt_int in E. eapply int_column_perm; [symmetry; exact HP|exact E].
  - apply dvt_float. apply dvt_float in E. destruct E as [E1 E2]. split; intro K; [apply E1|apply E2].
    + eapply Permutation_Forall; eauto.
    + eapply int_column_perm; eauto.
Qed.

Lemma default_bound_ok col : col <> [] -> exists b, mk_bound (qsort col) (PInt 1) (PInt 99) (PStr "percentile") = Ok b /\
  b_type b = Percentile.
Proof.
  intro Hc. unfold mk_bound. cbn [parse_btype String.eqb Ascii.eqb Bool.eqb orb bind percentile_arg pynum].
  assert (E1 : (0 <=? qz 1) && (qz 1 <=? qz 100) = true) by reflexivity.
  assert (E2 : (0 <=? qz 99) && (qz 99 <=? qz 100) = true) by reflexivity.
  rewrite E1, E2. cbn [passert bind].
  assert (Hs : qsort col <> []). { intro H. pose proof (qsort_length col) as HL. rewrite H in HL. destruct col; [congruence|discriminate]. }
  destruct (np_percentile_total (qsort col) (qz 1) Hs) as (l & Hl). destruct (np_percentile_total (qsort col) (qz 99) Hs) as (u & Hu).
  rewrite Hl, Hu. cbn [of_option bind].
  assert (Hle : (l <=? u) = true).
  { qbool. eapply (percentile_mono (qsort col) (qz 1) (qz 99)); [now apply qz_le| |];
      apply np_percentile_spec; auto; try (rewrite <- qz_0; now apply qz_le); now apply qz_le. }
  rewrite Hle. cbn [passert bind]. destruct (determine_variable_type (qsort col)); eexists; split; reflexivity.
Qed.

Lemma hundredth_pos : 0 < qfrac 1 100. Proof. reflexivity. Qed.
Lemma default_step_pos name col b t : mk_bound (qsort col) (PInt 1) (PInt 99) (PStr "percentile") = Ok b ->
  determine_variable_type col = t ->
  (grid_step (raw_element name (qsort col) t true b Relative (qfrac 1 100) 0%Z) <> 0 <-> b_lb b < b_ub b).
Proof.
  intros Hb Ht. pose proof (mk_bound_spec _ _ _ _ _ Hb) as (_ & Hle & l & u & _ & _ & HD & HU & _).
  unfold grid_step, grid_stop, grid_start. cbn [e_step_type e_vtype e_step_size raw_element].
  change (e_lb (raw_element name (qsort col) t true b Relative (qfrac 1 100) 0%Z)) with (b_lb b).
  change (e_ub (raw_element name (qsort col) t true b Relative (qfrac 1 100) 0%Z)) with (b_ub b).
  assert (R : forall d, 0 <= d -> (qfrac 1 100 * d <> 0 <-> 0 < d)).
  { intros d Hd. split.
    - intro H. apply Qcnot_le_lt. intro K. apply H. assert (d = 0) as -> by (apply Qcle_antisym; assumption). ring.
    - intros H E. assert (0 < qfrac 1 100 * d) by (apply qmul_pos; [exact hundredth_pos|exact H]). rewrite E in *. qlra. }
  assert (D : 0 < b_ub b - b_lb b <-> b_lb b < b_ub b) by (split; intro; qlra).
  destruct t; try (rewrite <- D; apply R; qlra).
  assert (HI : int_column (qsort col)) by (eapply int_column_perm; [symmetry; apply qsort_perm|now apply dvt_int]).
  destruct HD as [HD _], HU as [HU _]. destruct (HD HI) as ((x & Ex) & _). destruct (HU HI) as ((y & Ey) & _).
  rewrite Ex, Ey in *. rewrite qfloor_qz, qceil_qz.
  set (s := qfrac 1 100 * (qz y - qz x)). pose proof (qceil_ge s) as Hc.
  assert (Hd : 0 <= qz y - qz x) by qlra.
  rewrite <- D. split.
  - intro H. apply Qcnot_le_lt. intro K. apply H. assert (E : qz y - qz x = 0) by (apply Qcle_antisym; assumption).
    assert (Es : s = qz 0) by (unfold s; rewrite E; apply Qc_is_canon; reflexivity). rewrite Es, qceil_qz. reflexivity.
  - intros H E. assert (Hs : 0 < s) by (apply qmul_pos; [exact hundredth_pos|exact H]). rewrite E in Hc. qlra.
Qed.

Lemma mk_column_default n col : n <> "" -> col <> [] ->
  (mk_column_element [] default_bounds default_step_type n col = Err ValueError /\ ~ (bool_column col \/ has_room col)) \/
  (exists e, mk_column_element [] default_bounds default_step_type n col = Ok e /\ (bool_column col \/ has_room col)).
Proof.
  intros Hn Hc. unfold mk_column_element. cbn [dget].
  assert (NB : forall t, t <> TBool -> determine_variable_type col = t ->
    (mk_element n col default_bounds (PType t) (PBool true) default_step_type (PInt 0) default_step_size = Err ValueError
      /\ ~ (bool_column col \/ has_room col)) \/
    (exists e, mk_element n col default_bounds (PType t) (PBool true) default_step_type (PInt 0) default_step_size = Ok e
      /\ (bool_column col \/ has_room col))).
  { intros t Ht Et. destruct (default_bound_ok col Hc) as (b & Hb & Hbt).
    assert (Em : mk_element n col default_bounds (PType t) (PBool true) default_step_type (PInt 0) default_step_size =
       update_grid (raw_element n (qsort col) t true b Relative (qfrac 1 100) 0%Z)).
    { apply mk_element_eq; auto; [left; split; [reflexivity|split; [reflexivity|discriminate]]|reflexivity]. }
    rewrite Em. unfold update_grid.
    pose proof (default_step_pos n col b t Hb Et) as HS.
    assert (HR : b_lb b < b_ub b <-> has_room col).
    { pose proof (mk_bound_spec _ _ _ _ _ Hb) as (_ & _ & l & u & _ & _ & HD & HU & HP).
      destruct (HP Hbt) as (N1 & N2 & P1 & P2 & _). cbn in N1, N2. rewrite N1 in P1. rewrite N2 in P2.
      pose proof (qsort_perm col) as HPm.
      split.
      - intro H. exists l, u, (b_lb b), (b_ub b). split; [eapply is_percentile_perm; eauto|]. split; [eapply is_percentile_perm; eauto|].
        split; [eapply rounded_down_perm; eauto|]. split; [eapply rounded_up_perm; eauto|]. exact H.
      - intros (l' & u' & b' & c' & Q1 & Q2 & D1 & U1 & H).
        rewrite (percentile_unique col (qz 1) l' l) in D1; [|exact Q1|eapply is_percentile_perm; eauto].
        rewrite (percentile_unique col (qz 99) u' u) in U1; [|exact Q2|eapply is_percentile_perm; eauto].
        rewrite (rounded_down_unique col l b' (b_lb b)) in H; [|exact D1|eapply rounded_down_perm; eauto].
        rewrite (rounded_up_unique col u c' (b_ub b)) in H; [exact H|exact U1|eapply rounded_up_perm; eauto]. }
    assert (HB : ~ bool_column col) by (rewrite <- dvt_bool; congruence).
    destruct (qeq_spec (grid_step (raw_element n (qsort col) t true b Relative (qfrac 1 100) 0%Z)) 0) as [E|E].
    - left. split; [reflexivity|]. intros [H|H]; [tauto|]. apply HR, HS in H. tauto.
    - right. eexists. split; [reflexivity|]. right. now apply HR, HS. }
  destruct (determine_variable_type col) eqn:Et; [|apply NB; congruence|apply NB; congruence].
  right. apply dvt_bool in Et as HB. cbn [dget].
  assert (Hb : mk_bound (qsort col) (PInt 0) (PInt 1) (PStr "absolute") =
     Ok {| b_type := Absolute; b_lb := qz 0; b_ub := qz 1; b_qlb := 0; b_qub := qz 100 |}).
  { unfold mk_bound. rewrite (dvt_perm (qsort col) col (qsort_perm col)), Et.
    cbn [parse_btype String.eqb Ascii.eqb Bool.eqb orb bind absolute_arg pynum].
    assert (E01 : (qz 0 <=? qz 1) = true) by reflexivity. rewrite E01. reflexivity. }
  assert (Em : mk_element n col (PTuple [PInt 0; PInt 1; PStr "absolute"]) (PType TBool) (PBool true) (PStr "absolute") (PInt 0) (PInt 1) =
     update_grid (raw_element n (qsort col) TBool true {| b_type := Absolute; b_lb := qz 0; b_ub := qz 1; b_qlb := 0; b_qub := qz 100 |} AbsoluteStep (qz 1) 0%Z)).
  { apply mk_element_eq; auto; [right; exists 1%Z; auto|reflexivity]. }
  rewrite Em. unfold update_grid. match goal with |- context [grid_step ?r =? 0] => change (grid_step r =? 0) with false end.
  cbv iota. eexists. split; [reflexivity|]. now left.
Qed.

Lemma column_ne X j : X <> [] -> column X j <> [].
Proof. destruct X; [congruence|discriminate]. Qed.
Lemma is_column_unique X j c : is_column X j c -> c = column X j.
Proof.
  unfold is_column, column. induction 1 as [|row v X c H HF IH]; [reflexivity|]. cbn. f_equal; [|exact IH].
  symmetry. now apply nth_error_nth.
Qed.
Lemma mapM_one_error {A B} (f : A -> res B) (P : A -> Prop) x l :
  (forall a, In a l -> (f a = Err x /\ ~ P a) \/ (exists b, f a = Ok b /\ P a)) ->
  (mapM f l = Err x /\ ~ Forall P l) \/ (exists bs, mapM f l = Ok bs /\ Forall P l).
Proof.
  induction l as [|a l IH]; intro H; [right; exists []; auto|]. cbn.
  destruct (H a (or_introl eq_refl)) as [[E N]|(b & E & Y)]; rewrite E; cbn.
  - left. split; [reflexivity|]. intro K. inversion K; tauto.
  - destruct IH as [[E2 N2]|(bs & E2 & Y2)]; [intros a' Ha'; apply H; now right| |]; rewrite E2; cbn.
    + left. split; [reflexivity|]. intro K. inversion K; tauto.
    + right. eauto.
Qed.
Lemma c07_partial X names y : valid_names names -> valid_table X names -> (y = 1 \/ y = 0 \/ y = -1)%Z ->
  let ok := forall j col, (j < length names)%nat -> is_column X j col -> bool_column col \/ has_room col in
  (ok -> exists A, mk_action_set X names y [] default_bounds default_step_type = Ok A) /\
  (~ ok -> mk_action_set X names y [] default_bounds default_step_type = Err ValueError).
Proof.
  intros HV [HX HR] Hy ok. unfold mk_action_set.
  apply check_names_iff in HV as HV'. rewrite HV'. cbn [passert bind].
  assert (E1 : Nat.eqb (length X) 0 = false) by (destruct X; [congruence|reflexivity]). rewrite E1. cbn [negb passert bind].
  assert (E2 : forallb (fun row => Nat.eqb (length row) (length names)) X = true).
  { apply forallb_forall. rewrite Forall_forall in HR. intros r Hr. apply Nat.eqb_eq. auto. }
  rewrite E2. cbn [passert bind].
  assert (E3 : ((y =? -1) || (y =? 0) || (y =? 1))%Z = true) by (destruct Hy as [->|[->| ->]]; reflexivity).
  rewrite E3. cbn [passert bind].
  set (f := fun p : nat * string => mk_column_element [] default_bounds default_step_type (snd p) (column X (fst p))).
  set (P := fun p : nat * string => bool_column (column X (fst p)) \/ has_room (column X (fst p))).
  assert (Hok : ok <-> Forall P (combine (seq 0 (length names)) names)).
  { split.
    - intro H. apply Forall_forall. intros [j n] Hin. red. cbn. apply in_combine_l, in_seq in Hin.
      apply (H j); [lia|]. eapply column_is; [exact HR|lia].
    - intros H j col Hj Hc. rewrite (is_column_unique _ _ _ Hc). rewrite Forall_forall in H.
      destruct (nth_error names j) as [n|] eqn:En; [|apply nth_error_None in En; lia].
      apply (H (j, n)). eapply nth_error_In. rewrite combine_seq_nth, En. reflexivity. }
  destruct (mapM_one_error f P ValueError (combine (seq 0 (length names)) names)) as [[E N]|(es & E & Y)].
  - intros [j n] Hin. apply mk_column_default; [|apply column_ne, HX]. apply in_combine_r in Hin. cbn. intros ->.
    destruct HV as (_ & HV & _). tauto.
  - rewrite E. cbn. split; [intro H; apply Hok in H; tauto|reflexivity].
  - rewrite E. cbn. split; [eauto|]. intro H. exfalso. apply H, Hok, Y.
Qed.
Lemma c07_shape X names y custom dflt dst A : mk_action_set X names y custom dflt dst = Ok A ->
  as_names A = names /\ Forall2 (fun n e => e_name e = n) names (as_elems A) /\
  (forall j col e, is_column X j col -> nth_error (as_elems A) j = Some e -> Permutation (e_values e) col) /\
  alignment_known A = false.
Proof.
  intro H. apply mk_aset_spec in H. destruct H as (HV & HT & En & Ec & Ey & HL & HC).
  assert (K : forall j e, nth_error (as_elems A) j = Some e -> exists n, nth_error names j = Some n /\
      e_name e = n /\ e_values e = qsort (column X j) /\ e_flip e = None).
  { intros j e He. destruct (nth_error names j) as [n|] eqn:Hn.
    - exists n. split; [reflexivity|]. apply (HC j n e Hn), mk_column_created in He. tauto.
    - apply nth_error_None in Hn. assert (nth_error (as_elems A) j <> None) by congruence. apply nth_error_Some in H. lia. }
  split; [exact En|]. split.
  - apply Forall2_nth. split; [congruence|]. intros i n e Hn He. destruct (K i e He) as (n' & E1 & E2 & _). congruence.
  - split.
    + intros j col e Hc He. destruct (K j e He) as (n' & _ & _ & E3 & _). rewrite E3, (is_column_unique _ _ _ Hc). apply qsort_perm.
    + unfold alignment_known. destruct (as_elems A) as [|e es] eqn:Ee.
      { destruct HV as (HV & _). destruct names; [congruence|discriminate]. }
      destruct (K 0%nat e eq_refl) as (_ & _ & _ & _ & E4). cbn. unfold e_aligned at 1. rewrite E4. reflexivity.
Qed.
Lemma c07_refuted : exists X names, valid_names names /\ valid_table X names /\
  mk_action_set X names 1 [] default_bounds default_step_type = Err ValueError.
Proof.
  exists [[qz 5; qz 1]; [qz 5; qz 3]], ["a"; "b"]. split.
  - split; [discriminate|]. split; [cbn; intuition discriminate|]. repeat constructor; cbn; intuition discriminate.
  - split; [split; [discriminate|repeat constructor]|]. vm_compute. reflexivity.
Qed.

(** ** C15 *)
Lemma qsign_sgn c : Z.sgn (qsign c) = qsign c.
Proof. destruct (sgn_cases c) as [->|[->| ->]]; reflexivity. Qed.
Lemma align_flips A a A' w t : parse_classifier_args a = Ok (w, t) -> set_alignment A a = Ok A' ->
  length (as_elems A) = as_len A -> (as_y A = 1 \/ as_y A = -1)%Z -> flips_match A' w.
Proof.
  intros Hp H HL Hy. apply set_alignment_spec in H. destruct H as (w' & t' & Hp' & Hlen & _ & _ & Ey & Ee).
  rewrite Hp in Hp'. injection Hp' as <- <-. unfold flips_match. rewrite Ee.
  split; [rewrite map_length, combine_length, map_length; lia|].
  intros j e c He Hc. rewrite nth_error_map in He.
  destruct (nth_error (combine _ _) j) as [[e0 f]|] eqn:E; [|discriminate]. cbn in He. injection He as <-. cbn.
  assert (Hf : f = if (0 <? as_y A)%Z then qsign c else (- qsign c)%Z).
  { assert (K : forall (A B : Type) (l : list A) (m : list B) i a b, nth_error (combine l m) i = Some (a, b) -> nth_error m i = Some b).
    { intros TA TB l. induction l as [|x l IH]; intros [|y m] [|i] p q; cbn; try discriminate; [congruence|apply IH]. }
    apply K in E. rewrite nth_error_map, Hc in E. cbn in E. congruence. }
  rewrite Hf, Ey. f_equal. destruct Hy as [->| ->]; cbn.
  - apply qsign_sgn.
  - rewrite Z.sgn_opp, qsign_sgn. reflexivity.
Qed.
Lemma flips_aligned A w : flips_match A w -> alignment_known A = true.
Proof.
  intros [HL H]. unfold alignment_known. apply forallb_forall. intros e He. apply In_nth_error in He. destruct He as (j & Hj).
  destruct (nth_error w j) as [c|] eqn:Hc.
  - unfold e_aligned. now rewrite (H j e c Hj Hc).
  - apply nth_error_None in Hc. assert (nth_error (as_elems A) j <> None) by congruence. apply nth_error_Some in H0. lia.
Qed.
Lemma desire_flips A y A' w : (y = 1 \/ y = -1)%Z -> (as_y A = 1 \/ as_y A = -1)%Z -> set_y_desired A y = Ok A' ->
  flips_match A w -> flips_match A' w.
Proof.
  intros Hy HA H HF. pose proof (flips_aligned _ _ HF) as Hk. apply set_y_spec in H.
  destruct H as (_ & _ & _ & [[_ ->]|(Hne & Ey & [[_ Ee]|[Hk' _]])]); [exact HF| |congruence].
  destruct HF as [HL HF]. unfold flips_match. rewrite Ee, map_length. split; [exact HL|].
  intros j e c He Hc. rewrite nth_error_map in He. destruct (nth_error (as_elems A) j) as [e0|] eqn:E0; [|discriminate].
  cbn in He. injection He as <-. cbn. rewrite (HF j e0 c E0 Hc), Ey. cbn. f_equal.
  destruct Hy as [->| ->], HA as [HA|HA]; rewrite HA in *; try congruence; cbn.
  - rewrite Z.opp_involutive. apply qsign_sgn.
  - rewrite Z.sgn_opp, qsign_sgn. reflexivity.
Qed.
Lemma align_step_wf E s o : wf_aset E (fst s) -> wf_aset E (fst (align_step s o)).
Proof.
  destruct s as [A mw]. intro HW. destruct o as [a|y]; cbn [align_step fst].
  - pose proof (wf_astep E A (OAlign a) HW) as K. cbn in K.
    destruct (set_alignment A a); [|exact HW]. destruct (parse_classifier_args a) as [[w t]|]; [exact K|exact HW].
  - pose proof (wf_astep E A (ODesire y) HW) as K. cbn in K. destruct (set_y_desired A y); [exact K|exact HW].
Qed.
Lemma c15_partial E A ops A' w : aset_reachable E A -> Forall desire_pm1 ops ->
  align_run (A, None) ops = (A', Some w) -> flips_match A' w.
Proof.
  intros HR HF H. apply reachable_wf in HR.
  assert (G : forall ops s, wf_aset E (fst s) -> (forall w, snd s = Some w -> flips_match (fst s) w) -> Forall desire_pm1 ops ->
     forall w, snd (align_run s ops) = Some w -> flips_match (fst (align_run s ops)) w).
  { clear. induction ops as [|o ops IH]; intros s HW HM HF w; [apply HM|]. inversion HF; subst. cbn. apply IH; auto.
    { now apply align_step_wf. }
    intros w'. destruct s as [A mw]. cbn [fst snd] in *. destruct HW as (W1 & W2 & W3 & W4 & W5 & W6).
    assert (HL : length (as_elems A) = as_len A) by (unfold as_len; rewrite <- W2; now rewrite map_length).
    destruct o as [a|y]; cbn [align_step fst snd].
    - destruct (set_alignment A a) as [A1|] eqn:Ha; [|apply HM].
      destruct (parse_classifier_args a) as [[w1 t1]|] eqn:Hp; [|apply HM].
      cbn. intro E1. injection E1 as <-. eapply align_flips; eauto.
    - destruct (set_y_desired A y) as [A1|] eqn:Ha; [|apply HM]. cbn. intro E1. eapply desire_flips; eauto. }
  specialize (G ops (A, None) HR ltac:(discriminate) HF w). rewrite H in G. cbn in G. auto.
Qed.

Definition ex_X : list (list Qc) := [[qz 20; 1; qfrac 1 2]; [qz 33; 0; qz 2]; [qz 60; 1; qz 7]].
Definition ex_names : list string := ["age"; "married"; "income"].
Definition ex_set (y : Z) : res action_set := mk_action_set ex_X ex_names y [] default_bounds default_step_type.
Definition ex_args : cargs := {| k_clf := None; k_classifier := None; k_coefs := Some (AVec [Fin 1; Fin (qz (-2)); Fin 1]);
   k_intercept := Some (ANum (Fin (qz 3))); a_pos := [] |}.
Lemma ex_set_created y A : ex_set y = Ok A -> aset_created A.
Proof. unfold ex_set. intro H. exists ex_X, ex_names, y, [], default_bounds, default_step_type. exact H. Qed.
Opaque ex_set.
Lemma ex_set_reach E y A : ex_set y = Ok A -> aset_reachable E A.
Proof. intro H. exists A, []. split; [eapply ex_set_created, H|reflexivity]. Qed.

Lemma c15_refuted : exists A A1 A2 w, aset_created A /\ (exists t, parse_classifier_args ex_args = Ok (w, t)) /\ set_alignment A ex_args = Ok A1 /\
  set_y_desired A1 0 = Ok A2 /\ as_y A2 = (-1)%Z /\ ~ flips_match A2 w.
Proof.
  assert (H : ok_and (ex_set (-1)) (fun A => ok_and (set_alignment A ex_args) (fun A1 => ok_and (set_y_desired A1 0) (fun A2 =>
     ok_and (parse_classifier_args ex_args) (fun wt => Z.eqb (as_y A2) (-1) &&
       match as_elems A2, fst wt with e :: _, c :: _ => match e_flip e with Some f => negb (Z.eqb f (- qsign c)) | None => false end | _, _ => false end)))) = true)
    by (vm_compute; reflexivity).
  apply ok_and_true in H. destruct H as (A & HA & H). apply ok_and_true in H. destruct H as (A1 & HA1 & H).
  apply ok_and_true in H. destruct H as (A2 & HA2 & H). apply ok_and_true in H. destruct H as ([w t] & Hp & H).
  apply andb_true_iff in H. destruct H as [Hy Hf]. apply Z.eqb_eq in Hy. cbn [fst] in Hf.
  exists A, A1, A2, w. split; [eapply ex_set_created, HA|]. split; [eauto|]. split; [exact HA1|]. split; [exact HA2|]. split; [exact Hy|].
  intros [_ HM]. destruct (as_elems A2) as [|e es] eqn:Ee; [discriminate Hf|]. destruct w as [|c w]; [discriminate Hf|].
  specialize (HM 0%nat e c). specialize (HM eq_refl eq_refl). rewrite HM, Hy in Hf. cbn [Z.eqb Pos.eqb] in Hf.
  change ((-1 =? 1)%Z) with false in Hf. rewrite Z.eqb_refl in Hf. discriminate Hf.
Qed.

(** ** C17-C20 *)
Lemma c17_index E A i ps name v A' r : aset_reachable E A -> select A i = Ok ps -> NoDup ps ->
  index_setattr A i name v = (A', r) ->
  as_names A' = as_names A /\ as_cons A' = as_cons A /\ as_y A' = as_y A /\ length (as_elems A') = as_len A /\
  (forall p, ~ In p ps -> nth_error (as_elems A') p = nth_error (as_elems A) p) /\
  (r = Ok tt -> forall k p, nth_error ps k = Some p ->
     exists e w e', nth_error (as_elems A) p = Some e /\
       (if match i with IStr _ | IInt _ => true | _ => false end then w = v else value_for v (length ps) k w) /\
       elem_setattr name w e = Ok e' /\ nth_error (as_elems A') p = Some e').
Proof. intro H. apply reachable_wf in H. now apply index_setattr_spec with (E := E). Qed.
Lemma c17_whole E A name v A' : aset_reachable E A -> elem_hasattr name = true -> set_setattr A name v = (A', Ok tt) ->
  as_names A' = as_names A /\ as_cons A' = as_cons A /\ as_y A' = as_y A /\ length (as_elems A') = as_len A /\
  (forall j e, nth_error (as_elems A) j = Some e ->
     exists w e', value_for v (as_len A) j w /\ elem_setattr name w e = Ok e' /\ nth_error (as_elems A') j = Some e').
Proof.
  intros HR Ha H. apply reachable_wf in HR. pose proof (wf_len _ _ HR) as HL.
  destruct (set_setattr_spec A name v A' (Ok tt) Ha HL H) as (E1 & E2 & E3 & [(x & _ & Hx & _)|(k & K1 & K2 & K3 & K4 & K5)]); [discriminate|].
  do 4 (split; [assumption|]). intros j e He. assert (k = as_len A) by now apply K2. subst k.
  assert (Hj : (j < as_len A)%nat) by (rewrite <- HL; apply nth_error_Some; congruence).
  destruct (K4 j Hj) as (e0 & w & e' & H0 & H1 & H2 & H3). rewrite He in H0. injection H0 as <-. eauto 6.
Qed.
Lemma c17_shape E A0 ops : aset_created A0 -> let A := aset_run E A0 ops in
  as_names A = as_names A0 /\ map e_name (as_elems A) = as_names A0 /\ Forall (elem_reachable E) (as_elems A).
Proof.
  intros Hc A. assert (HR : wf_aset E A) by (apply reachable_wf; exists A0, ops; auto).
  pose proof (run_anames E A0 ops (created_wf E _ Hc)) as HN. fold A in HN.
  destruct HR as (_ & W2 & W3 & _). rewrite HN in W2. auto.
Qed.
(** Reading back the simple settings. *)
Lemma c17_readback e :
  (forall b e', elem_setattr "actionable" (PBool b) e = Ok e' -> e_actionable e' = b) /\
  (forall t e', elem_setattr "variable_type" (PType t) e = Ok e' -> e_vtype e' = t) /\
  (forall z e', elem_setattr "step_direction" (PInt z) e = Ok e' -> e_step_dir e' = Z.sgn z) /\
  (forall z e', elem_setattr "flip_direction" (PInt z) e = Ok e' -> e_flip e' = Some (Z.sgn z)) /\
  (forall q e', elem_setattr "step_size" (PFloat (Fin q)) e = Ok e' -> e_step_size e' = q) /\
  (forall s e', elem_setattr "step_type" (PStr s) e = Ok e' ->
     (s = "relative" /\ e_step_type e' = Relative) \/ (s = "absolute" /\ e_step_type e' = AbsoluteStep)).
Proof.
  split; [|split; [|split; [|split; [|split]]]].
  - intros b e' H. cbn in H. destruct b; cbn in H; injection H as <-; reflexivity.
  - intros t e' H. cbn in H. injection H as <-. reflexivity.
  - intros z e' H. cbn in H. unfold set_step_direction in H. cbn in H. injection H as <-. cbn. apply qsign_qz.
  - intros z e' H. cbn in H. unfold set_flip_direction in H. cbn in H. injection H as <-. cbn. now rewrite qsign_qz.
  - intros q e' H. cbn in H. bnd H as u1 H1. bnd H as u2 H2. injection H as <-. reflexivity.
  - intros s e' H. cbn in H. destruct (String.eqb_spec s "relative") as [->|]; [injection H as <-; auto|].
    destruct (String.eqb_spec s "absolute") as [->|]; [injection H as <-; auto|discriminate].
Qed.

Lemma c18_refuted : exists A l ps, aset_created A /\ length l = as_len A /\
  select A (IList (map PBool l)) = Ok ps /\ ~ (forall p, In p ps <-> positions_mask l p).
Proof.
  assert (H : ok_and (ex_set 1) (fun A => ok_and (select A (IList (map PBool [false; false; true])))
     (fun ps => match ps with [0%nat; 0%nat; 1%nat] => Nat.eqb (as_len A) 3 | _ => false end)) = true) by (vm_compute; reflexivity).
  apply ok_and_true in H. destruct H as (A & HA & H). apply ok_and_true in H. destruct H as (ps & Hps & H).
  exists A, [false; false; true], ps. split; [eapply ex_set_created, HA|].
  destruct ps as [|[|] [|[|] [|[|[|]] [|]]]]; try discriminate H. apply Nat.eqb_eq in H. split; [symmetry; exact H|]. split; [exact Hps|].
  intro K. destruct (K 0%nat) as [K1 _]. specialize (K1 (or_introl eq_refl)). discriminate K1.
Qed.
Lemma c18_lists A l : l <> [] -> (2 <= as_len A)%nat ->
  select A (IList (map PBool l)) = Ok (map (fun b : bool => if b then 1%nat else 0%nat) l).
Proof.
  intros Hl H2. destruct l as [|b l]; [congruence|]. cbn [select select_list map].
  assert (G : forall l', mapM (fun v => match as_int v with Some z => name_pos A z | None => Err TypeError end) (map PBool l') =
      Ok (map (fun b : bool => if b then 1%nat else 0%nat) l')).
  { induction l' as [|c l' IH]; [reflexivity|]. cbn [map mapM as_int].
    assert (E : name_pos A (if c then 1%Z else 0%Z) = Ok (if c then 1%nat else 0%nat)).
    { unfold name_pos, py_index. rewrite seq_length. destruct (as_len A) as [|[|n]]; [lia|lia|].
      destruct c.
      - replace ((0 <=? 1) && (1 <? Z.of_nat (S (S n))))%Z with true by (symmetry; apply andb_true_iff; split; [apply Z.leb_le|apply Z.ltb_lt]; lia). reflexivity.
      - replace ((0 <=? 0) && (0 <? Z.of_nat (S (S n))))%Z with true by (symmetry; apply andb_true_iff; split; [apply Z.leb_le|apply Z.ltb_lt]; lia). reflexivity. }
    rewrite E. cbn [bind]. rewrite IH. reflexivity. }
  apply (G (b :: l)).
Qed.
Lemma c18_masks A m ps : select A (IMask m) = Ok ps -> NoDup ps /\ forall p, In p ps <-> positions_mask m p.
Proof.
  cbn. destruct (Nat.eqb (length m) (as_len A)); [|discriminate]. intro H. injection H as <-. split.
  - generalize 0%nat as k. induction m as [|b m IH]; intro k; cbn; [constructor|]. destruct b; [|apply IH].
    constructor; [|apply IH]. intro Hin. apply mask_positions_iff in Hin. destruct Hin as (i & Hi & _). lia.
  - intro p. rewrite mask_positions_iff. split; [intros (i & -> & H); exact H|intro H; exists p; auto].
Qed.

Lemma c19_refuted : exists A v A' x, aset_created A /\ set_setattr A "step_size" v = (A', Err x) /\ A' <> A.
Proof.
  set (v := PList [PFloat (Fin (qfrac 1 10)); PFloat (Fin (qz (-1))); PFloat (Fin (qfrac 1 10))]).
  assert (H : ok_and (ex_set 1) (fun A => let '(A', r) := set_setattr A "step_size" v in
     match r, as_elems A, as_elems A' with Err _, e :: _, e' :: _ => negb (e_step_size e =? e_step_size e') | _, _, _ => false end) = true)
    by (vm_compute; reflexivity).
  apply ok_and_true in H. destruct H as (A & HA & H). destruct (set_setattr A "step_size" v) as [A' r] eqn:HS.
  destruct r as [|x]; [discriminate H|]. exists A, v, A', x. split; [eapply ex_set_created, HA|]. split; [exact HS|].
  intros ->. destruct (as_elems A) as [|e es]; [discriminate H|]. apply negb_true_iff in H. qbool. congruence.
Qed.
Lemma c19_partial E A name v A' x : aset_reachable E A -> elem_hasattr name = true -> set_setattr A name v = (A', Err x) ->
  (expand_values v (as_len A) = Err x -> A' = A) /\
  exists k, (k < as_len A)%nat /\
    (forall j, (k <= j)%nat -> nth_error (as_elems A') j = nth_error (as_elems A) j) /\
    (A' <> A -> forall j, (j < k)%nat -> exists e w e', nth_error (as_elems A) j = Some e /\ value_for v (as_len A) j w /\
                 elem_setattr name w e = Ok e' /\ nth_error (as_elems A') j = Some e').
Proof.
  intros HR Ha H. apply reachable_wf in HR. pose proof (wf_len _ _ HR) as HL.
  assert (Hpos : (0 < as_len A)%nat).
  { destruct HR as ((HV & _) & _). unfold as_len. destruct (as_names A); [congruence|cbn; lia]. }
  pose proof H as H0. apply set_setattr_spec in H; auto.
  destruct H as (E1 & E2 & E3 & [(y & Hy & _ & ->)|(k & K1 & K2 & K3 & K4 & K5)]).
  - split; [reflexivity|]. exists 0%nat. split; [exact Hpos|]. split; [reflexivity|congruence].
  - split.
    + intro HX. unfold set_setattr in H0. rewrite Ha, HX in H0. now injection H0 as <-.
    + exists k. split. { destruct (Nat.eq_dec k (as_len A)) as [E0|]; [apply K2 in E0; discriminate|lia]. }
      split; [exact K5|]. intros _. exact K4.
Qed.
Lemma c20_refuted : exists A A' p e, aset_created A /\
  index_setattr A (IStr "married") "mutable" (PBool false) = (A', Ok tt) /\
  nth_error (as_elems A') p = Some e /\ e_name e = "married" /\ e_actionable e = true.
Proof.
  assert (H : ok_and (ex_set 1) (fun A => let '(A', r) := index_setattr A (IStr "married") "mutable" (PBool false) in
     match r, nth_error (as_elems A') 1 with Ok tt, Some e => String.eqb (e_name e) "married" && e_actionable e | _, _ => false end) = true)
    by (vm_compute; reflexivity).
  apply ok_and_true in H. destruct H as (A & HA & H).
  destruct (index_setattr A (IStr "married") "mutable" (PBool false)) as [A' r] eqn:HS. destruct r as [[]|]; [|discriminate H].
  destruct (nth_error (as_elems A') 1) as [e|] eqn:E; [|discriminate H]. apply andb_true_iff in H. destruct H as [H1 H2].
  apply String.eqb_eq in H1. exists A, A', 1%nat, e. split; [eapply ex_set_created, HA|]. auto.
Qed.
Lemma c20_partial A i ps name v : elem_hasattr name = false -> select A i = Ok ps ->
  match i with IStr _ | IInt _ => False | _ => True end ->
  index_setattr A i name v = (A, Err AssertionError).
Proof. intros Ha Hs Hi. unfold index_setattr. rewrite Hs, Ha. destruct i; tauto || reflexivity. Qed.
(** On a single element an unknown public attribute changes nothing that the package reads. *)
Lemma c20_silent name v e e' : elem_hasattr name = false -> elem_setattr name v e = Ok e' ->
  e' = with_extra e (e_extra e') /\ dget name (e_extra e') = Some v.
Proof.
  unfold elem_hasattr, elem_setattr. intros Ha. apply orb_false_iff in Ha. destruct Ha as [Ha Hm]. apply orb_false_iff in Ha. destruct Ha as [Hs Hr].
  unfold elem_settable, smem in Hs. cbn [existsb] in Hs. rewrite !orb_false_iff in Hs.
  destruct Hs as (S1 & S2 & S3 & S4 & S5 & S6 & S7 & S8 & S9 & S10 & _).
  rewrite S1, S2, S3, S4, S5, S6, S7, S8, S9, S10, Hr, Hm. destruct (prefix "_" name); [discriminate|].
  intro H. injection H as <-. cbn. split; [reflexivity|]. now rewrite dget_dset, String.eqb_refl.
Qed.

(** ** C22 *)
Lemma c22_refuted : exists names ops ns r' i, valid_names names /\
  let r := reg_run (empty_registry names) ops in
  add_subset_limit r ns 0 1 None = Ok (r', i) /\ exists c, stored r i c /\ ~ stored r' i c.
Proof.
  exists ["a"; "b"; "c"], [RAdd ["a"; "b"] 0 1 (Some "1")], ["b"; "c"].
  assert (H : ok_and (add_subset_limit (reg_run (empty_registry ["a"; "b"; "c"]) [RAdd ["a"; "b"] 0 1 (Some "1")]) ["b"; "c"] 0 1 None)
     (fun p => match dget (snd p) (r_cons (reg_run (empty_registry ["a"; "b"; "c"]) [RAdd ["a"; "b"] 0 1 (Some "1")])), dget (snd p) (r_cons (fst p)) with
               | Some c, Some c' => negb (Nat.eqb (hd 9 (c_indices c))%nat (hd 9 (c_indices c'))%nat) | _, _ => false end) = true) by (vm_compute; reflexivity).
  apply ok_and_true in H. destruct H as ([r' i] & Hr & H). exists r', i. split.
  - split; [discriminate|]. split; [cbn; intuition discriminate|]. repeat constructor; cbn; intuition discriminate.
  - split; [exact Hr|]. cbn [fst snd] in H.
    destruct (dget i (r_cons (reg_run _ _))) as [c|] eqn:E1; [|discriminate H]. destruct (dget i (r_cons r')) as [c'|] eqn:E2; [|discriminate H].
    exists c. split; [exact E1|]. unfold stored. rewrite E2. intro K. injection K as ->. rewrite Nat.eqb_refl in H. discriminate H.
Qed.

(** ** C59 *)
Lemma c59_refuted : exists A A', aset_created A /\ set_setattr A "actionable" (PList [PBool false]) = (A', Ok tt) /\
  Forall (fun e => e_actionable e = true) (as_elems A').
Proof.
  assert (H : ok_and (ex_set 1) (fun A => let '(A', r) := set_setattr A "actionable" (PList [PBool false]) in
     match r with Ok tt => forallb e_actionable (as_elems A') | _ => false end) = true) by (vm_compute; reflexivity).
  apply ok_and_true in H. destruct H as (A & HA & H).
  destruct (set_setattr A "actionable" (PList [PBool false])) as [A' r] eqn:HS. destruct r as [[]|]; [|discriminate H].
  exists A, A'. split; [eapply ex_set_created, HA|]. split; [exact HS|]. rewrite forallb_forall in H. now apply Forall_forall.
Qed.
Lemma c59_partial E A name v f : aset_reachable E A -> elem_hasattr name = true ->
  (v = PArr [f]) -> as_len A <> 1%nat ->
  set_setattr A name v = set_setattr A name (PFloat f).
Proof.
  intros _ Ha -> Hm. unfold set_setattr. rewrite Ha. cbn [expand_values length].
  destruct (Nat.eqb_spec 1 (as_len A)); [congruence|reflexivity].
Qed.
