(** Feasible values, bound setters, step sizes (C05, C06, C08-C12). *)
From Verif Require Export Proofs_pct.

Lemma mapM_ok {A B} (f : A -> res B) l ys : mapM f l = Ok ys <-> Forall2 (fun x y => f x = Ok y) l ys.
Proof.
  revert ys. induction l as [|x r IH]; intro ys; cbn [mapM].
  - split; intro H; [injection H as <-; constructor|now inversion H].
  - split; intro H.
    + bnd H as y Hy. bnd H as ys' Hys. injection H as <-. constructor; [exact Hy|]. now apply IH.
    + inversion H as [|? y ? ys' H1 H2]; subst. rewrite H1. cbn. apply IH in H2. rewrite H2. reflexivity.
Qed.

Lemma cast_representable e x : representable e x -> cast_to_grid e x = x.
Proof.
  unfold cast_to_grid, representable. destruct (e_gint e); [|reflexivity].
  intro H. destruct (H eq_refl) as (z & ->). now rewrite qtrunc_qz.
Qed.

Definition in_dir (d : Z) (x v : Qc) : Prop := ((0 < d)%Z -> x <= v) /\ ((d < 0)%Z -> v <= x).
Definition dir_filter (d : Z) (x : Qc) (l : list Qc) : list Qc :=
  if (0 <? d)%Z then filter (fun v => x <=? v) l else if (d <? 0)%Z then filter (fun v => v <=? x) l else l.
Lemma dir_filter_In d x l v : In v (dir_filter d x l) <-> In v l /\ in_dir d x v.
Proof.
  unfold dir_filter, in_dir. destruct (Z.ltb_spec 0 d).
  - rewrite filter_In, qle_iff. intuition lia.
  - destruct (Z.ltb_spec d 0); [rewrite filter_In, qle_iff|]; intuition lia.
Qed.
Lemma dir_filter_sorted d x l : StronglySorted Qclt l -> StronglySorted Qclt (dir_filter d x l).
Proof.
  unfold dir_filter. destruct (0 <? d)%Z; [apply StronglySorted_filter|].
  destruct (d <? 0)%Z; [apply StronglySorted_filter|auto].
Qed.

(** The array before dropping suboptimal values. *)
Definition base_x (e : element) (x : Qc) : list Qc :=
  if e_actionable e then
    let g := dir_filter (e_step_dir e) x (e_grid e) in
    if qmem x g then g else np_insert g (searchsorted g x) (cast_to_grid e x)
  else [x].
Lemma feasible_x_eq e x d : feasible_x e x d =
  if d then match e_flip e with Some fd => dir_filter fd x (base_x e x) | None => base_x e x end else base_x e x.
Proof. reflexivity. Qed.

Lemma base_x_In e x v : representable e x -> (In v (base_x e x) <-> permitted e x v).
Proof.
  intro HR. unfold base_x, permitted. destruct (e_actionable e).
  - cbv zeta. rewrite (cast_representable e x HR). destruct (qmem x _) eqn:M.
    + apply qmem_iff in M. rewrite dir_filter_In. apply dir_filter_In in M. unfold in_dir in *. split.
      * intros [H1 H2]. right. tauto.
      * intros [->|(_ & H1 & H2)]; [exact M|tauto].
    + rewrite insert_In, dir_filter_In. unfold in_dir. tauto.
  - cbn. split; [intros [->|[]]; now left|]. intros [->|(H & _)]; [now left|discriminate].
Qed.
Lemma base_x_sorted e x : representable e x -> StronglySorted Qclt (e_grid e) -> StronglySorted Qclt (base_x e x).
Proof.
  intros HR HS. unfold base_x. destruct (e_actionable e); [|repeat constructor].
  cbv zeta. rewrite (cast_representable e x HR). pose proof (dir_filter_sorted (e_step_dir e) x _ HS) as HF.
  destruct (qmem x _) eqn:M; [exact HF|]. apply insert_sorted; [exact HF|]. intro Hin. apply qmem_iff in Hin. congruence.
Qed.
Lemma feasible_x_In e x d v : representable e x ->
  (In v (feasible_x e x d) <-> permitted e x v /\ (d = true -> improving e x v)).
Proof.
  intro HR. rewrite feasible_x_eq. unfold improving.
  destruct d; [|rewrite base_x_In by exact HR; intuition discriminate].
  destruct (e_flip e) as [fd|].
  - rewrite dir_filter_In, base_x_In by exact HR. unfold in_dir. intuition.
  - rewrite base_x_In by exact HR. intuition.
Qed.
Lemma feasible_x_sorted e x d : representable e x -> StronglySorted Qclt (e_grid e) ->
  StronglySorted Qclt (feasible_x e x d).
Proof.
  intros HR HS. rewrite feasible_x_eq. pose proof (base_x_sorted e x HR HS).
  destruct d; [|assumption]. destruct (e_flip e); [apply dir_filter_sorted|]; assumption.
Qed.

Lemma feasible_values_spec E e x ra rp d vals ps :
  feasible_values E e x ra rp d = Ok (vals, ps) ->
  (ra = true -> e_aligned e = true) /\
  vals = (if ra then map (fun v => v - x) (feasible_x e x d) else feasible_x e x d) /\
  (rp = true -> Forall2 (fun v p => percentile E e v = Ok p) (feasible_x e x d) ps) /\
  (rp = false -> ps = []).
Proof.
  unfold feasible_values. intro H. bnd H as u Hu. apply passert_ok in Hu. cbv zeta in H.
  split. { intros ->. exact Hu. }
  destruct rp.
  - bnd H as ps' Hps. injection H as <- <-. split; [reflexivity|]. split; [|discriminate].
    intros _. now apply mapM_ok.
  - injection H as <- <-. split; [reflexivity|]. split; [discriminate|reflexivity].
Qed.

(** ** Rounding is unique *)
Lemma int_between a b : is_int a -> is_int b -> a < b + 1 -> b < a + 1 -> a = b.
Proof.
  intros (x & ->) (y & ->) H1 H2. f_equal.
  rewrite <- qz_1, <- qz_plus, qz_lt in H1, H2. lia.
Qed.
Lemma int_dec (values : list Qc) : int_column values \/ ~ int_column values.
Proof. rewrite <- dvt_int. destruct (determine_variable_type values); [right|left|right]; congruence. Qed.
Lemma rounded_up_unique values v b b' : rounded_up values v b -> rounded_up values v b' -> b = b'.
Proof.
  intros [A1 A2] [B1 B2]. destruct (int_dec values) as [H|H].
  - destruct (A1 H) as (I1 & L1 & M1), (B1 H) as (I2 & L2 & M2). apply int_between; auto; qlra.
  - rewrite (A2 H), (B2 H). reflexivity.
Qed.
Lemma rounded_down_unique values v b b' : rounded_down values v b -> rounded_down values v b' -> b = b'.
Proof.
  intros [A1 A2] [B1 B2]. destruct (int_dec values) as [H|H].
  - destruct (A1 H) as (I1 & L1 & M1), (B1 H) as (I2 & L2 & M2). apply int_between; auto; qlra.
  - rewrite (A2 H), (B2 H). reflexivity.
Qed.
Lemma rounded_up_fix values v b : (int_column values -> is_int v) -> rounded_up values v b -> b = v.
Proof.
  intros HI [A1 A2]. destruct (int_dec values) as [H|H]; [|now apply A2].
  destruct (A1 H) as (I1 & L1 & M1). apply int_between; auto; qlra.
Qed.
Lemma rounded_down_fix values v b : (int_column values -> is_int v) -> rounded_down values v b -> b = v.
Proof.
  intros HI [A1 A2]. destruct (int_dec values) as [H|H]; [|now apply A2].
  destruct (A1 H) as (I1 & L1 & M1). apply int_between; auto; qlra.
Qed.
Lemma py_number_unique v a b : py_number v a -> py_number v b -> a = b.
Proof.
  destruct v as [| | |f| | | | |l|]; cbn; try tauto; try congruence.
  - destruct f; try tauto; congruence.
  - destruct l as [|f [|? ?]]; try tauto; destruct f; try tauto; congruence.
Qed.

(** ** lb and ub setters *)
Lemma bounds_int E e : elem_inv E e -> int_column (e_values e) -> is_int (e_lb e) /\ is_int (e_ub e).
Proof.
  intros HI Hc. destruct (inv_bounds _ _ HI) as (lb & ub & tv & Hb). apply mk_bound_spec in Hb.
  destruct Hb as (_ & _ & l & u & _ & _ & [Hd _] & [Hu _] & _). split; [apply (Hd Hc)|apply (Hu Hc)].
Qed.
Lemma spelled_abs t : spelled (PStr "absolute") t -> t = Absolute.
Proof. destruct t; [reflexivity|]. cbn. intros [H|H]; discriminate. Qed.
Lemma spelled_pct t : spelled (PStr "percentile") t -> t = Percentile.
Proof. destruct t; [|reflexivity]. cbn. intros [H|H]; discriminate. Qed.

Lemma set_lb_spec E e v e' : elem_inv E e -> set_lb e v = Ok e' ->
  e' = with_bounds e (e_bounds e') /\ e_ub e' = e_ub e /\ b_type (e_bounds e') = b_type (e_bounds e) /\
  (b_type (e_bounds e) = Absolute -> forall q, py_number v q -> rounded_down (e_values e) q (e_lb e')) /\
  (b_type (e_bounds e) = Percentile -> forall q, py_number v q ->
     exists p, is_percentile (e_values e) q p /\ rounded_down (e_values e) p (e_lb e')).
Proof.
  intros HI H. unfold set_lb in H. bnd H as b Hb. injection H as <-. cbn [e_bounds with_bounds].
  split; [reflexivity|]. unfold e_ub, e_lb. cbn [e_bounds with_bounds].
  destruct (b_type (e_bounds e)) eqn:Et.
  - apply mk_bound_spec in Hb. destruct Hb as (Hs & _ & l & u & Hreq & _ & Hd & Hu & _).
    apply spelled_abs in Hs. rewrite Hs in *. cbn in Hreq. destruct Hreq as [Hl Hub].
    destruct Hub as [->|[Hub _]]; [|discriminate].
    split. { apply (rounded_up_fix (e_values e)); [|exact Hu]. intro Hc. now destruct (bounds_int _ _ HI Hc). }
    split; [reflexivity|]. split; [|discriminate]. intros _ q Hq.
    destruct Hl as [Hl|[-> _]]; [|destruct Hq]. rewrite (py_number_unique _ _ _ Hq Hl). exact Hd.
  - destruct (inv_bounds _ _ HI) as (lb0 & ub0 & tv0 & Hb0). apply mk_bound_spec in Hb0, Hb.
    destruct Hb0 as (_ & _ & l0 & u0 & _ & _ & _ & Hu0 & HP0). destruct (HP0 Et) as (_ & _ & _ & Hpu0 & _).
    destruct Hb as (Hs & _ & l & u & _ & _ & Hd & Hu & HP). apply spelled_pct in Hs.
    destruct (HP Hs) as (Nl & Nu & Pl & Pu & _). cbn in Nu. rewrite Nu in Pu.
    rewrite (percentile_unique _ _ _ _ Pu Hpu0) in Hu.
    split; [eapply rounded_up_unique; eassumption|]. split; [exact Hs|]. split; [discriminate|].
    intros _ q Hq. exists l. rewrite (py_number_unique _ _ _ Hq Nl). split; assumption.
Qed.
Lemma set_ub_spec E e v e' : elem_inv E e -> set_ub e v = Ok e' ->
  e' = with_bounds e (e_bounds e') /\ e_lb e' = e_lb e /\ b_type (e_bounds e') = b_type (e_bounds e) /\
  (b_type (e_bounds e) = Absolute -> forall q, py_number v q -> rounded_up (e_values e) q (e_ub e')) /\
  (b_type (e_bounds e) = Percentile -> forall q, py_number v q ->
     exists p, is_percentile (e_values e) q p /\ rounded_up (e_values e) p (e_ub e')).
Proof.
  intros HI H. unfold set_ub in H. bnd H as b Hb. injection H as <-. cbn [e_bounds with_bounds].
  split; [reflexivity|]. unfold e_ub, e_lb. cbn [e_bounds with_bounds].
  destruct (b_type (e_bounds e)) eqn:Et.
  - apply mk_bound_spec in Hb. destruct Hb as (Hs & _ & l & u & Hreq & _ & Hd & Hu & _).
    apply spelled_abs in Hs. rewrite Hs in *. cbn in Hreq. destruct Hreq as [Hl Hub].
    destruct Hl as [->|[Hl _]]; [|discriminate].
    split. { apply (rounded_down_fix (e_values e)); [|exact Hd]. intro Hc. now destruct (bounds_int _ _ HI Hc). }
    split; [reflexivity|]. split; [|discriminate]. intros _ q Hq.
    destruct Hub as [Hub|[-> _]]; [|destruct Hq]. rewrite (py_number_unique _ _ _ Hq Hub). exact Hu.
  - destruct (inv_bounds _ _ HI) as (lb0 & ub0 & tv0 & Hb0). apply mk_bound_spec in Hb0, Hb.
    destruct Hb0 as (_ & _ & l0 & u0 & _ & _ & Hd0 & _ & HP0). destruct (HP0 Et) as (_ & _ & Hpl0 & _ & _).
    destruct Hb as (Hs & _ & l & u & _ & _ & Hd & Hu & HP). apply spelled_pct in Hs.
    destruct (HP Hs) as (Nl & Nu & Pl & Pu & _). cbn in Nl. rewrite Nl in Pl.
    rewrite (percentile_unique _ _ _ _ Pl Hpl0) in Hd.
    split; [eapply rounded_down_unique; eassumption|]. split; [exact Hs|]. split; [discriminate|].
    intros _ q Hq. exists u. rewrite (py_number_unique _ _ _ Hq Nu). split; assumption.
Qed.

(** ** Step sizes over histories *)
Definition step_ok (e : element) : Prop :=
  0 < e_step_size e /\ (e_step_type e = Relative -> e_step_size e <= 1).
Lemma step_ok_step E e o : never_relative o -> step_ok e -> step_ok (elem_step E e o).
Proof.
  intros HN [H1 H2]. destruct o as [n v| |]; cbn [elem_step].
  - destruct (elem_setattr n v e) as [e'|] eqn:H; [|split; assumption].
    pose proof (setattr_spec _ _ _ _ H) as Hs. inversion Hs; subst; try (split; assumption).
    (* step_type *)
    { split; [exact H1|]. cbn. intro Et. subst t. cbn in H. unfold set_step_type in H.
      destruct v; try discriminate.
      destruct (String.eqb_spec s "relative") as [->|]; [exfalso; cbn in HN; destruct HN; congruence|].
      destruct (String.eqb s "absolute"); discriminate. }
  - unfold update_grid. destruct (grid_step e =? 0); split; assumption.
  - unfold touch_interp. destruct (get_interp E e); split; assumption.
Qed.
Lemma step_ok_run E e ops : Forall never_relative ops -> step_ok e -> step_ok (elem_run E e ops).
Proof.
  revert e. induction ops as [|o r IH]; intros e HF H; [exact H|]. inversion HF; subst.
  cbn. apply IH; [assumption|]. now apply step_ok_step.
Qed.

(** ** Grids over histories *)
Lemma step_grid E e o : (match o with EUpdateGrid => False | _ => True end) ->
  e_grid (elem_step E e o) = e_grid e /\ e_gint (elem_step E e o) = e_gint e.
Proof.
  destruct o as [n v| |]; cbn [elem_step]; intro H; try tauto.
  - destruct (elem_setattr n v e) as [e'|] eqn:Hs; [|auto]. apply setattr_spec in Hs. inversion Hs; subst; auto.
  - unfold touch_interp. destruct (get_interp E e); auto.
Qed.

(** Two descriptions of the same settings give the same grid. *)
Lemma is_grid_unique e g1 g2 : is_grid_of e g1 -> is_grid_of e g2 -> g1 = g2.
Proof.
  intros (lo & hi & s & la & A1 & A2 & A3 & A4 & A5 & A6 & A7 & A8 & A9)
         (lo' & hi' & s' & la' & B1 & B2 & B3 & B4 & B5 & B6 & B7 & B8 & B9).
  assert (lo = lo').
  { unfold grid_from in A1, B1. destruct (e_vtype e); try congruence.
    destruct A1 as (I1 & ? & ?), B1 as (I2 & ? & ?). apply int_between; auto; qlra. }
  assert (hi = hi').
  { unfold grid_to in A2, B2. destruct (e_vtype e); try congruence.
    destruct A2 as (I1 & ? & ?), B2 as (I2 & ? & ?). apply int_between; auto; qlra. }
  subst lo' hi'.
  assert (s = s').
  { unfold grid_step_is in A3, B3. cbv zeta in A3, B3. destruct (e_vtype e); try congruence.
    destruct A3 as (I1 & ? & ?), B3 as (I2 & ? & ?). apply int_between; auto; qlra. }
  subst s'.
  assert (HL : length g1 = length g2).
  { assert (L1 : (0 < length g1)%nat) by (apply nth_error_Some; congruence).
    assert (L2 : (0 < length g2)%nat) by (apply nth_error_Some; congruence).
    apply A6 in A7. apply B6 in B7.
    assert (C : forall m n : nat, hi <= lo + qz (Z.of_nat m) * s -> lo + qz (Z.of_nat n) * s < hi + s -> (n <= m)%nat).
    { intros m n Hm Hn. assert (Hmn : qz (Z.of_nat n) * s < (qz (Z.of_nat m) + 1) * s) by qlra.
      apply (qmul_cancel_lt _ _ _ A4) in Hmn. rewrite <- qz_1, <- qz_plus, qz_lt in Hmn. lia. }
    subst la la'. pose proof (C _ _ A8 B9). pose proof (C _ _ B8 A9). lia. }
  apply nth_error_ext_local. intro i. destruct (nth_error g1 i) as [v|] eqn:E1, (nth_error g2 i) as [w|] eqn:E2; try reflexivity.
  - apply A6 in E1. apply B6 in E2. congruence.
  - apply nth_error_None in E2. assert ((i < length g1)%nat) by (apply nth_error_Some; congruence). lia.
  - apply nth_error_None in E1. assert ((i < length g2)%nat) by (apply nth_error_Some; congruence). lia.
Qed.

(** When the step divides the range, the grid stays inside. *)
Lemma grid_inside e g n : is_grid_of e g -> basic_inv e -> 
  (exists lo hi s, grid_from e lo /\ grid_to e hi /\ grid_step_is e lo hi s /\ hi - lo = qz (Z.of_nat n) * s) ->
  forall v, In v g -> exists lo hi, grid_from e lo /\ grid_to e hi /\ lo <= v /\ v <= hi.
Proof.
  intros HG HB (lo & hi & s & A1 & A2 & A3 & Hdiv) v Hv.
  destruct HG as (lo' & hi' & s' & la' & B1 & B2 & B3 & B4 & B5 & B6 & B7 & B8 & B9).
  assert (lo = lo').
  { unfold grid_from in A1, B1. destruct (e_vtype e); try congruence.
    destruct A1 as (I1 & ? & ?), B1 as (I2 & ? & ?). apply int_between; auto; qlra. }
  assert (hi = hi').
  { unfold grid_to in A2, B2. destruct (e_vtype e); try congruence.
    destruct A2 as (I1 & ? & ?), B2 as (I2 & ? & ?). apply int_between; auto; qlra. }
  subst lo' hi'.
  assert (s = s').
  { unfold grid_step_is in A3, B3. cbv zeta in A3, B3. destruct (e_vtype e); try congruence.
    destruct A3 as (I1 & ? & ?), B3 as (I2 & ? & ?). apply int_between; auto; qlra. }
  subst s'. exists lo, hi. split; [exact A1|]. split; [exact A2|].
  apply In_nth_error in Hv. destruct Hv as (i & Hi).
  assert (Hil : (i < length g)%nat) by (apply nth_error_Some; congruence).
  apply B6 in Hi. apply B6 in B7.
  assert (Hip : qz (Z.of_nat i) <= qz (Z.of_nat (pred (length g)))) by (apply qz_le; lia).
  assert (Hvs : qz (Z.of_nat i) * s <= qz (Z.of_nat (pred (length g))) * s) by (apply qmul_le_r; [qlra|exact Hip]).
  assert (H0 : 0 <= qz (Z.of_nat i)) by (rewrite <- qz_0; apply qz_le; lia).
  pose proof (qmul_nonneg _ s H0 (Qclt_le_weak _ _ B4)) as Hnn.
  split; [qlra|].
  assert (Hla : qz (Z.of_nat (pred (length g))) * s < (qz (Z.of_nat n) + 1) * s) by qlra.
  apply (qmul_cancel_lt _ _ _ B4) in Hla. rewrite <- qz_1, <- qz_plus, qz_lt in Hla.
  assert (Hz : qz (Z.of_nat (pred (length g))) <= qz (Z.of_nat n)) by (apply qz_le; lia).
  assert (qz (Z.of_nat (pred (length g))) * s <= qz (Z.of_nat n) * s) by (apply qmul_le_r; [qlra|exact Hz]). qlra.
Qed.
