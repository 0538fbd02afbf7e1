(** Histories of one element: what each operation changes, and the invariant of reachable elements. *)
From Verif Require Export Proofs_bounds.

Lemma sgn_cases q : qsign q = 1%Z \/ qsign q = 0%Z \/ qsign q = (-1)%Z.
Proof. unfold qsign. destruct (qlt 0 q), (qlt q 0); auto. Qed.

(** ** What an accepted attribute assignment does. *)
Inductive setattr_effect (e : element) : string -> element -> Prop :=
| SE_actionable b : setattr_effect e "actionable" (with_actionable e b)
| SE_vtype t : setattr_effect e "variable_type" (with_vtype e t)
| SE_bounds n b lb ub tv : In n ["bounds"; "lb"; "ub"] -> mk_bound (e_values e) lb ub tv = Ok b ->
    setattr_effect e n (with_bounds e b)
| SE_flip z : (z = 1 \/ z = 0 \/ z = -1)%Z -> setattr_effect e "flip_direction" (with_flip e (Some z))
| SE_dir z : (z = 1 \/ z = 0 \/ z = -1)%Z -> setattr_effect e "step_direction" (with_step_dir e z)
| SE_stype t : setattr_effect e "step_type" (with_step_type e t)
| SE_size q : 0 < q -> (e_step_type e = Relative -> q <= 1) -> setattr_effect e "step_size" (with_step_size e q)
| SE_extra n v : elem_hasattr n = false -> setattr_effect e n (with_extra e (dset n v (e_extra e))).

Lemma set_actionable_ok e v e' : set_actionable e v = Ok e' -> exists b, e' = with_actionable e b.
Proof.
  unfold set_actionable. intro H.
  destruct v as [| | | | | |l|l|l|]; try (bnd H as u Hu; injection H as <-; eauto; fail);
  destruct l as [|w [|? ?]]; try discriminate; bnd H as u Hu; injection H as <-; eauto.
Qed.
Lemma sign_arg_ok v z : sign_arg v = Ok z -> (z = 1 \/ z = 0 \/ z = -1)%Z.
Proof.
  unfold sign_arg. intro H.
  assert (K : forall w, match w with PBool _ => Err TypeError | _ =>
      match pynum w with Some (Fin q) => Ok (qsign q) | Some _ => Err AssertionError | None => Err TypeError end end = Ok z ->
      (z = 1 \/ z = 0 \/ z = -1)%Z).
  { intros w Hw. destruct w; cbn in Hw; try discriminate.
    - injection Hw as <-. apply sgn_cases.
    - destruct f; try discriminate. injection Hw as <-. apply sgn_cases.
    - injection Hw as <-. apply sgn_cases. }
  destruct v as [| | | | | |l|l|l|]; try discriminate; try (apply (K _ H)).
  - cbn in H. injection H as <-. apply sgn_cases.
  - cbn in H. destruct f; try discriminate. injection H as <-. apply sgn_cases.
  - cbn in H. injection H as <-. apply sgn_cases.
  - destruct l as [|w [|? ?]]; try discriminate. apply (K _ H).
  - destruct l as [|w [|? ?]]; try discriminate. apply (K _ H).
  - destruct l as [|w [|? ?]]; try discriminate. apply (K (PFloat w) H).
Qed.
Lemma set_bounds_ok e v e' : set_bounds e v = Ok e' ->
  exists b lb ub tv, mk_bound (e_values e) lb ub tv = Ok b /\ e' = with_bounds e b.
Proof.
  unfold set_bounds. intro H.
  destruct v as [| | | | | |l|l|l|]; try discriminate.
  - bnd H as b Hb. injection H as <-. eauto 10.
  - destruct l as [|a [|b [|c [|? ?]]]]; try discriminate; bnd H as bb Hb; injection H as <-; eauto 10.
  - destruct l as [|a [|b [|c [|? ?]]]]; try discriminate; bnd H as bb Hb; injection H as <-; eauto 10.
Qed.
Lemma set_lb_ok e v e' : set_lb e v = Ok e' ->
  exists b lb ub tv, mk_bound (e_values e) lb ub tv = Ok b /\ e' = with_bounds e b.
Proof. unfold set_lb. intro H. bnd H as b Hb. injection H as <-. destruct (b_type _); eauto 10. Qed.
Lemma set_ub_ok e v e' : set_ub e v = Ok e' ->
  exists b lb ub tv, mk_bound (e_values e) lb ub tv = Ok b /\ e' = with_bounds e b.
Proof. unfold set_ub. intro H. bnd H as b Hb. injection H as <-. destruct (b_type _); eauto 10. Qed.
Lemma set_step_type_ok e v e' : set_step_type e v = Ok e' -> exists t, e' = with_step_type e t.
Proof.
  unfold set_step_type. intro H. destruct v; try discriminate.
  destruct (String.eqb s "relative"); [injection H as <-; eauto|].
  destruct (String.eqb s "absolute"); [injection H as <-; eauto|discriminate].
Qed.
Lemma set_step_size_ok e v e' : set_step_size e v = Ok e' ->
  exists q, 0 < q /\ (e_step_type e = Relative -> q <= 1) /\ e' = with_step_size e q.
Proof.
  unfold set_step_size. intro H.
  assert (K : forall f, match f with
    | Fin q => let! _ := passert (0 <? q) in
               let! _ := match e_step_type e with Relative => passert (q <=? 1) | _ => Ok tt end in
               Ok (with_step_size e q)
    | PosInf => match e_step_type e with Relative => Err AssertionError | _ => Err Unmodelled end
    | _ => Err AssertionError end = Ok e' ->
    exists q, 0 < q /\ (e_step_type e = Relative -> q <= 1) /\ e' = with_step_size e q).
  { intros f Hf. destruct f as [q| | |]; try discriminate.
    - bnd Hf as u Hu. bnd Hf as u2 Hu2. injection Hf as <-. exists q. apply passert_ok in Hu. qbool.
      split; [exact Hu|]. split; [|reflexivity]. intro E. rewrite E in Hu2. apply passert_ok in Hu2. qbool. exact Hu2.
    - destruct (e_step_type e); discriminate. }
  destruct v as [|b|z|f|z|s|l|l|l|t]; try discriminate; cbn [pynum] in H.
  - apply (K (Fin (if b then 1 else 0)) H).
  - apply (K (Fin (qz z)) H).
  - apply (K f H).
  - destruct l as [|f [|? ?]]; try discriminate. apply (K f H).
Qed.
Lemma set_vtype_ok e v e' : set_variable_type e v = Ok e' -> exists t, e' = with_vtype e t.
Proof. unfold set_variable_type. destruct v; try discriminate; intro H; injection H as <-; eauto. Qed.

Lemma setattr_spec n v e e' : elem_setattr n v e = Ok e' -> setattr_effect e n e'.
Proof.
  unfold elem_setattr.
  destruct (String.eqb_spec n "actionable") as [->|N1];
    [intro H; apply set_actionable_ok in H; destruct H as (b & ->); constructor|].
  destruct (String.eqb_spec n "variable_type") as [->|N2];
    [intro H; apply set_vtype_ok in H; destruct H as (b & ->); constructor|].
  destruct (String.eqb_spec n "bounds") as [->|N3];
    [intro H; apply set_bounds_ok in H; destruct H as (b & lb & ub & tv & Hb & ->); econstructor; [cbn; tauto|exact Hb]|].
  destruct (String.eqb_spec n "lb") as [->|N4];
    [intro H; apply set_lb_ok in H; destruct H as (b & lb & ub & tv & Hb & ->); econstructor; [cbn; tauto|exact Hb]|].
  destruct (String.eqb_spec n "ub") as [->|N5];
    [intro H; apply set_ub_ok in H; destruct H as (b & lb & ub & tv & Hb & ->); econstructor; [cbn; tauto|exact Hb]|].
  destruct (String.eqb_spec n "flip_direction") as [->|N6];
    [intro H; unfold set_flip_direction in H; bnd H as z Hz; injection H as <-; constructor; eapply sign_arg_ok; exact Hz|].
  destruct (String.eqb_spec n "step_type") as [->|N7];
    [intro H; apply set_step_type_ok in H; destruct H as (b & ->); constructor|].
  destruct (String.eqb_spec n "step_direction") as [->|N8];
    [intro H; unfold set_step_direction in H; bnd H as z Hz; injection H as <-; constructor; eapply sign_arg_ok; exact Hz|].
  destruct (String.eqb_spec n "step_size") as [->|N9];
    [intro H; apply set_step_size_ok in H; destruct H as (q & H1 & H2 & ->); constructor; assumption|].
  destruct (String.eqb_spec n "bound_type") as [->|N10]; [discriminate|].
  destruct (smem n elem_readonly) eqn:R; [discriminate|].
  destruct (smem n elem_methods) eqn:M; [discriminate|].
  destruct (prefix "_" n); [discriminate|]. intro H. injection H as <-.
  constructor. unfold elem_hasattr. rewrite R, M. unfold smem, elem_settable. cbn [existsb].
  apply String.eqb_neq in N1, N2, N3, N4, N5, N6, N7, N8, N9, N10.
  rewrite N1, N2, N3, N4, N5, N6, N7, N8, N9, N10. reflexivity.
Qed.

(** ** Invariant of reachable elements *)
Record elem_inv (E : env) (e : element) : Prop := {
  inv_values : e_values e <> [];
  inv_name : e_name e <> "";
  inv_bounds : exists lb ub tv, mk_bound (e_values e) lb ub tv = Ok (e_bounds e);
  inv_size : 0 < e_step_size e;
  inv_grid_ne : e_grid e <> [];
  inv_grid : StronglySorted Qclt (e_grid e);
  inv_gint : e_gint e = true -> Forall is_int (e_grid e);
  inv_flip : forall z, e_flip e = Some z -> (z = 1 \/ z = 0 \/ z = -1)%Z;
  inv_dir : (e_step_dir e = 1 \/ e_step_dir e = 0 \/ e_step_dir e = -1)%Z;
  inv_interp : forall g c, e_interp e = Some (g, c) ->
    g <> [] /\ StronglySorted Qclt g /\ exists pdf, kde E (e_values e) = Some pdf /\ c = cdf_of pdf g }.

Lemma inv_lb_ub E e : elem_inv E e -> e_lb e <= e_ub e.
Proof. intro H. destruct (inv_bounds _ _ H) as (lb & ub & tv & Hb). apply mk_bound_spec in Hb. apply Hb. Qed.

Definition basic_inv (e : element) : Prop := e_lb e <= e_ub e /\ 0 < e_step_size e.
Lemma inv_basic E e : elem_inv E e -> basic_inv e.
Proof. intro H. split; [eapply inv_lb_ub; exact H|apply (inv_size _ _ H)]. Qed.

Lemma grid_start_le e : basic_inv e -> grid_start e <= grid_stop e.
Proof.
  intro H. pose proof (proj1 H). unfold grid_start, grid_stop.
  pose proof (qfloor_le (e_lb e)). pose proof (qceil_ge (e_ub e)). destruct (e_vtype e); qlra.
Qed.
Lemma grid_step_nonneg e : basic_inv e -> 0 <= grid_step e.
Proof.
  intro H. pose proof (grid_start_le _ H) as Hs. pose proof (proj2 H) as Hp.
  assert (Hraw : 0 <= match e_step_type e with Relative => e_step_size e * (grid_stop e - grid_start e)
                      | AbsoluteStep => e_step_size e end).
  { destruct (e_step_type e); [|qlra]. apply qmul_nonneg; qlra. }
  unfold grid_step. destruct (e_vtype e); try exact Hraw.
  match goal with |- 0 <= qz (qceil ?r) => pose proof (qceil_ge r) end. qlra.
Qed.

Lemma update_grid_spec e e' : basic_inv e -> update_grid e = Ok e' ->
  0 < grid_step e /\
  e' = with_grid e (np_arange (grid_start e) (grid_stop e + grid_step e) (grid_step e)) (vtype_eqb (e_vtype e) TInt).
Proof.
  intros HI H. unfold update_grid in H. destruct (qeq_spec (grid_step e) 0) as [Hz|Hz]; [discriminate|].
  injection H as <-. split; [|reflexivity]. pose proof (grid_step_nonneg _ HI) as Hn.
  destruct (Qclt_le_dec 0 (grid_step e)) as [Hl|Hl]; [exact Hl|]. exfalso. apply Hz. apply Qcle_antisym; assumption.
Qed.

Lemma qceil_int s : is_int (qz (qceil s)). Proof. eexists; reflexivity. Qed.

Lemma arange_ints a b s : is_int a -> is_int s -> Forall is_int (np_arange a b s).
Proof.
  intros (x & ->) (y & ->). rewrite Forall_forall. intros v Hv. apply In_nth_error in Hv. destruct Hv as (i & Hi).
  apply arange_nth in Hi. subst v. exists (x + Z.of_nat i * y)%Z. now rewrite qz_plus, qz_mult.
Qed.

(** A recomputed grid is the grid of the element's settings. *)
Lemma new_grid_is_grid e e' : basic_inv e -> update_grid e = Ok e' -> is_grid_of e' (e_grid e').
Proof.
  intros HI H. destruct (update_grid_spec _ _ HI H) as [Hs ->]. cbn [e_grid with_grid].
  set (lo := grid_start e). set (hi := grid_stop e). set (s := grid_step e) in *.
  pose proof (grid_start_le _ HI) as Hle. fold lo hi in Hle.
  assert (Hne : nth_error (np_arange lo (hi + s) s) 0 = Some lo) by (apply arange_nonempty; [exact Hs|qlra]).
  assert (Hlen : (0 < length (np_arange lo (hi + s) s))%nat) by (apply nth_error_Some; congruence).
  destruct (nth_error (np_arange lo (hi + s) s) (pred (length (np_arange lo (hi + s) s)))) as [la|] eqn:Hla.
  2:{ apply nth_error_None in Hla. lia. }
  exists lo, hi, s, la.
  split. { unfold grid_from. cbn [e_vtype with_grid]. unfold lo, grid_start, e_lb. cbn.
           destruct (e_vtype e); try reflexivity. split; [eexists; reflexivity|]. split; [apply qfloor_le|apply qfloor_lt]. }
  split. { unfold grid_to. cbn [e_vtype with_grid]. unfold hi, grid_stop, e_ub. cbn.
           destruct (e_vtype e); try reflexivity. split; [eexists; reflexivity|]. split; [apply qceil_ge|apply qceil_lt]. }
  split. { unfold grid_step_is. cbn [e_vtype with_grid e_step_type e_step_size]. unfold s, grid_step. fold lo hi.
           destruct (e_vtype e); try reflexivity. split; [apply qceil_int|]. split; [apply qceil_ge|apply qceil_lt]. }
  split; [exact Hs|]. split; [exact Hne|]. split; [intros i v; apply arange_nth|]. split; [exact Hla|].
  assert (Hin : In la (np_arange lo (hi + s) s)) by (eapply nth_error_In; exact Hla).
  apply (arange_In _ _ _ _ Hs) in Hin. destruct Hin as (i & Ei & Hlt). split; [|exact Hlt].
  (* the next point would be below hi + s, hence in the grid *)
  destruct (Qclt_le_dec la hi) as [Hl|Hl]; [|exact Hl]. exfalso.
  assert (Hn : In (lo + qz (Z.of_nat (length (np_arange lo (hi + s) s))) * s) (np_arange lo (hi + s) s)).
  { apply (arange_In _ _ _ _ Hs). eexists. split; [reflexivity|].
    apply arange_nth in Hla.
    replace (Z.of_nat (length (np_arange lo (hi + s) s))) with (Z.of_nat (pred (length (np_arange lo (hi + s) s))) + 1)%Z by lia.
    rewrite qz_plus, qz_1.
    replace (lo + (qz (Z.of_nat (pred (length (np_arange lo (hi + s) s)))) + 1) * s) with (la + s) by (rewrite Hla at 1; ring).
    qlra. }
  apply In_nth_error in Hn. destruct Hn as (k & Hk).
  assert (Hkl : (k < length (np_arange lo (hi + s) s))%nat) by (apply nth_error_Some; congruence).
  apply arange_nth in Hk.
  assert (Ek : qz (Z.of_nat (length (np_arange lo (hi + s) s))) * s = qz (Z.of_nat k) * s) by qlra.
  apply qmul_cancel in Ek; [|now apply qpos_neq]. apply qz_inj in Ek. lia.
Qed.

Lemma is_grid_sorted e g : is_grid_of e g -> StronglySorted Qclt g.
Proof.
  intros (lo & hi & s & la & _ & _ & _ & Hs & _ & Hall & _).
  assert (Eg : g = map (fun i => lo + qz (Z.of_nat i) * s) (seq 0 (length g))).
  { apply nth_error_ext_local. intro i. rewrite nth_error_map.
    destruct (nth_error g i) as [v|] eqn:Ei.
    - assert (Hi : (i < length g)%nat) by (apply nth_error_Some; congruence).
      rewrite (nth_error_nth' (seq 0 (length g)) 0%nat) by (rewrite seq_length; exact Hi).
      rewrite seq_nth by exact Hi. cbn. now rewrite (Hall _ _ Ei).
    - apply nth_error_None in Ei.
      assert (En : nth_error (seq 0 (length g)) i = None) by (apply nth_error_None; rewrite seq_length; exact Ei).
      now rewrite En. }
  rewrite Eg. apply ssorted_map_seq. intros i j Hij.
  assert (Hz : qz (Z.of_nat i) < qz (Z.of_nat j)) by (apply qz_lt; lia).
  apply (qmul_lt_r _ _ s Hs) in Hz. qlra.
Qed.

Lemma new_grid_gint e e' : basic_inv e -> update_grid e = Ok e' -> e_gint e' = true -> Forall is_int (e_grid e').
Proof.
  intros HI H. destruct (update_grid_spec _ _ HI H) as [Hs ->]. cbn [e_grid with_grid e_gint].
  intro Hg. assert (Ht : e_vtype e = TInt) by (destruct (e_vtype e); try discriminate; reflexivity).
  unfold grid_start, grid_step. rewrite Ht. apply arange_ints; eexists; reflexivity.
Qed.
Lemma new_grid_ne e e' : basic_inv e -> update_grid e = Ok e' -> e_grid e' <> [].
Proof.
  intros HI H E. destruct (new_grid_is_grid _ _ HI H) as (lo & hi & s & la & _ & _ & _ & _ & H0 & _).
  rewrite E in H0. discriminate.
Qed.

(** ** Creation *)
(** The element produced by the constructor, before its grid is computed. *)
Definition raw_element name values t act b st ss sd : element :=
  {| e_name := name; e_values := values; e_vtype := t; e_flip := None; e_actionable := act;
     e_bounds := b; e_step_type := st; e_step_size := ss; e_step_dir := sd; e_grid := []; e_gint := false;
     e_interp := None; e_extra := [] |}.

Lemma mk_element_spec name values bounds vt act st sd ss e :
  mk_element name values bounds vt act st sd ss = Ok e ->
  name <> "" /\ values <> [] /\
  exists t a b stp q z lb ub tv,
    mk_bound (qsort values) lb ub tv = Ok b /\ 0 < q /\ (stp = Relative -> q <= 1) /\
    (z = 1 \/ z = 0 \/ z = -1)%Z /\
    update_grid (raw_element name (qsort values) t a b stp q z) = Ok e.
Proof.
  unfold mk_element. intro H. bnd H as u0 H0. bnd H as u1 H1. apply passert_ok in H0, H1.
  bnd H as e1 K1. bnd H as e2 K2. bnd H as e3 K3. bnd H as e4 K4. bnd H as e5 K5. bnd H as e6 K6. bnd H as e7 K7.
  bnd H as u2 K8. injection H as <-.
  apply set_vtype_ok in K1. destruct K1 as (t & ->).
  apply set_actionable_ok in K2. destruct K2 as (a & ->).
  apply set_bounds_ok in K3. destruct K3 as (b & lb & ub & tv & Hb & ->).
  apply set_step_type_ok in K4. destruct K4 as (stp & ->).
  apply set_step_size_ok in K5. destruct K5 as (q & Hq & Hq1 & ->).
  unfold set_step_direction in K6. bnd K6 as z Hz. injection K6 as <-. apply sign_arg_ok in Hz.
  split. { intros ->. discriminate. }
  split. { intros ->. discriminate. }
  exists t, a, b, stp, q, z, lb, ub, tv. cbn in Hb, Hq1. auto.
Qed.

Lemma raw_basic name values t a b stp q z lb ub tv : mk_bound values lb ub tv = Ok b -> 0 < q ->
  basic_inv (raw_element name values t a b stp q z).
Proof. intros Hb Hq. split; [|exact Hq]. apply mk_bound_spec in Hb. apply Hb. Qed.

Lemma created_inv E e : elem_created e -> elem_inv E e /\ e_interp e = None /\ e_flip e = None /\ e_extra e = [] /\
  is_grid_of e (e_grid e) /\ (e_step_type e = Relative -> e_step_size e <= 1) /\
  e_gint e = vtype_eqb (e_vtype e) TInt.
Proof.
  intros (name & values & bounds & vt & act & st & sd & ss & H).
  apply mk_element_spec in H. destruct H as (Hn & Hv & t & a & b & stp & q & z & lb & ub & tv & Hb & Hq & Hq1 & Hz & HU).
  pose proof (raw_basic name (qsort values) t a b stp q z lb ub tv Hb Hq) as HB.
  pose proof (new_grid_is_grid _ _ HB HU) as HG. pose proof (new_grid_gint _ _ HB HU) as HI.
  pose proof (new_grid_ne _ _ HB HU) as HN.
  destruct (update_grid_spec _ _ HB HU) as [_ ->].
  split; [|split; [reflexivity|split; [reflexivity|split; [reflexivity|split; [exact HG|split; [exact Hq1|reflexivity]]]]]].
  constructor; cbn [e_values e_name e_bounds e_step_size e_flip e_step_dir e_interp with_grid raw_element];
    try discriminate; auto.
  - intro E1. apply Hv. pose proof (qsort_length values) as HL. rewrite E1 in HL. destruct values; [reflexivity|discriminate].
  - eauto.
  - eapply is_grid_sorted; exact HG.
Qed.

Lemma get_interp_ok E e g c : elem_inv E e -> get_interp E e = Ok (g, c) ->
  g <> [] /\ StronglySorted Qclt g /\ exists pdf, kde E (e_values e) = Some pdf /\ c = cdf_of pdf g.
Proof.
  intros HI. unfold get_interp. destruct (e_interp e) as [[g' c']|] eqn:Ei.
  - intro H. injection H as <- <-. eapply inv_interp; eauto.
  - unfold fresh_interp. destruct (kde E (e_values e)) as [pdf|] eqn:Ek; [|discriminate].
    destruct (e_grid e) as [|g0 gr] eqn:Eg; [discriminate|]. rewrite <- Eg. intro H. injection H as <- <-.
    split; [apply (inv_grid_ne _ _ HI)|]. split; [apply (inv_grid _ _ HI)|]. exists pdf. split; reflexivity.
Qed.

Lemma step_inv E e o : elem_inv E e -> elem_inv E (elem_step E e o).
Proof.
  intro HI. destruct o as [n v| |]; cbn [elem_step].
  - destruct (elem_setattr n v e) as [e'|] eqn:H; [|exact HI]. apply setattr_spec in H.
    destruct HI as [V1 V2 V3 V4 V5 V6 V7 V8 V9 V10].
    inversion H; subst; constructor; cbn; auto; try (eauto; fail).
    intros z' E'. injection E' as <-. assumption.
  - destruct (update_grid e) as [e'|] eqn:H; [|exact HI]. pose proof (inv_basic _ _ HI) as HB.
    pose proof (new_grid_is_grid _ _ HB H) as HG. pose proof (new_grid_gint _ _ HB H) as Hi.
    pose proof (new_grid_ne _ _ HB H) as HN. destruct (update_grid_spec _ _ HB H) as [_ ->].
    destruct HI as [V1 V2 V3 V4 V5 V6 V7 V8 V9 V10]. constructor; cbn; auto.
    eapply is_grid_sorted; exact HG.
  - unfold touch_interp. destruct (get_interp E e) as [[g c]|] eqn:H; [|exact HI].
    pose proof (get_interp_ok _ _ _ _ HI H) as HG.
    destruct HI as [V1 V2 V3 V4 V5 V6 V7 V8 V9 V10]. constructor; cbn; auto.
    intros g' c' E'. injection E' as <- <-. exact HG.
Qed.
Lemma run_inv E e ops : elem_inv E e -> elem_inv E (elem_run E e ops).
Proof. revert e. induction ops as [|o ops IH]; intros e H; [exact H|]. cbn. apply IH, step_inv, H. Qed.
Lemma reachable_inv E e : elem_reachable E e -> elem_inv E e.
Proof. intros (e0 & ops & Hc & ->). apply run_inv, created_inv, Hc. Qed.

(** The observed values, the name never change. *)
Lemma step_values E e o : e_values (elem_step E e o) = e_values e /\ e_name (elem_step E e o) = e_name e.
Proof.
  destruct o as [n v| |]; cbn [elem_step].
  - destruct (elem_setattr n v e) as [e'|] eqn:H; [|auto]. apply setattr_spec in H. inversion H; subst; auto.
  - unfold update_grid. destruct (grid_step e =? 0); auto.
  - unfold touch_interp. destruct (get_interp E e); auto.
Qed.
