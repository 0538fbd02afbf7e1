(** Proofs of the property theorems of Props_element.v. *)
From Verif Require Export Proofs_values.

Lemma c01_bound values lb ub t b : mk_bound values lb ub t = Ok b ->
  b_lb b <= b_ub b /\
  exists l u, requests values lb ub (b_type b) l u /\ rounded_down values l (b_lb b) /\ rounded_up values u (b_ub b).
Proof. intro H. apply mk_bound_spec in H. destruct H as (_ & Hle & l & u & H1 & _ & H2 & H3 & _). eauto 10. Qed.
Lemma c01_history E e : elem_reachable E e ->
  e_lb e <= e_ub e /\ (int_column (e_values e) -> is_int (e_lb e) /\ is_int (e_ub e)).
Proof. intro H. apply reachable_inv in H. split; [eapply inv_lb_ub; exact H|]. eapply bounds_int; exact H. Qed.

Lemma c02_bounds values lb ub t b p q :
  mk_bound values lb ub t = Ok b -> b_type b = Percentile -> py_number lb p -> py_number ub q ->
  exists l u, is_percentile values p l /\ is_percentile values q u /\
              rounded_down values l (b_lb b) /\ rounded_up values u (b_ub b).
Proof.
  intros H Ht Hp Hq. apply mk_bound_spec in H. destruct H as (_ & _ & l & u & _ & _ & Hd & Hu & HP).
  destruct (HP Ht) as (N1 & N2 & P1 & P2 & _). exists l, u.
  rewrite (py_number_unique _ _ _ Hp N1), (py_number_unique _ _ _ Hq N2). auto.
Qed.
Lemma c02_laws values :
  (forall p v mn mx, is_percentile values p v -> is_minimum values mn -> is_maximum values mx -> mn <= v /\ v <= mx) /\
  (forall v, is_percentile values 0 v -> is_minimum values v) /\
  (forall v, is_percentile values (qz 100) v -> is_maximum values v) /\
  (forall p q v w, p <= q -> is_percentile values p v -> is_percentile values q w -> v <= w) /\
  (forall p, values <> [] -> 0 <= p -> p <= qz 100 -> exists v, is_percentile values p v).
Proof.
  split. { intros p v mn mx H. apply (percentile_range _ _ _ H). }
  split; [apply percentile_0|]. split; [apply percentile_100|].
  split. { intros p q v w Hpq Hv Hw. eapply percentile_mono; eauto. }
  intros p Hne H0 H1. destruct (np_percentile_total values p Hne) as (v & Hv). exists v. now apply np_percentile_spec.
Qed.
Lemma rounded_down_mono values v w b c : v <= w -> rounded_down values v b -> rounded_down values w c -> b <= c.
Proof.
  intros Hvw [A1 A2] [B1 B2]. destruct (int_dec values) as [H|H].
  - destruct (A1 H) as ((x & ->) & L1 & M1), (B1 H) as ((y & ->) & L2 & M2). apply qz_le.
    assert (Hlt : qz x < qz y + 1) by qlra. rewrite <- qz_1, <- qz_plus, qz_lt in Hlt. lia.
  - rewrite (A2 H), (B2 H). exact Hvw.
Qed.
Lemma rounded_up_mono values v w b c : v <= w -> rounded_up values v b -> rounded_up values w c -> b <= c.
Proof.
  intros Hvw [A1 A2] [B1 B2]. destruct (int_dec values) as [H|H].
  - destruct (A1 H) as ((x & ->) & L1 & M1), (B1 H) as ((y & ->) & L2 & M2). apply qz_le.
    assert (Hlt : qz x < qz y + 1) by qlra. rewrite <- qz_1, <- qz_plus, qz_lt in Hlt. lia.
  - rewrite (A2 H), (B2 H). exact Hvw.
Qed.
Lemma c02_monotone values lb ub lb' ub' t t' b b' p q p' q' :
  mk_bound values lb ub t = Ok b -> mk_bound values lb' ub' t' = Ok b' ->
  b_type b = Percentile -> b_type b' = Percentile ->
  py_number lb p -> py_number ub q -> py_number lb' p' -> py_number ub' q' ->
  (p <= p' -> b_lb b <= b_lb b') /\ (q <= q' -> b_ub b <= b_ub b').
Proof.
  intros H H' Ht Ht' N1 N2 N3 N4.
  destruct (c02_bounds _ _ _ _ _ _ _ H Ht N1 N2) as (l & u & P1 & P2 & R1 & R2).
  destruct (c02_bounds _ _ _ _ _ _ _ H' Ht' N3 N4) as (l' & u' & P3 & P4 & R3 & R4).
  split; intro Hle.
  - eapply rounded_down_mono; [|exact R1|exact R3]. eapply percentile_mono; eauto.
  - eapply rounded_up_mono; [|exact R2|exact R4]. eapply percentile_mono; eauto.
Qed.

Lemma c03 values :
  (determine_variable_type values = TBool <-> Forall is_bit values) /\
  (determine_variable_type values = TInt <-> Forall is_int values /\ ~ Forall is_bit values) /\
  (determine_variable_type values = TFloat <-> ~ Forall is_bit values /\ ~ (Forall is_int values /\ ~ Forall is_bit values)).
Proof. split; [apply dvt_bool|]. split; [apply dvt_int|apply dvt_float]. Qed.

Definition fresh_grid (E : env) (e e' : element) : Prop :=
  elem_created e' \/ (elem_reachable E e /\ update_grid e = Ok e').
Lemma c04 E e e' : fresh_grid E e e' ->
  is_grid_of e' (e_grid e') /\ StronglySorted Qclt (e_grid e') /\ (e_vtype e' = TInt -> Forall is_int (e_grid e')).
Proof.
  intros [H|[H HU]].
  - destruct (created_inv E _ H) as (HI & _ & _ & _ & HG & _ & Hg). split; [exact HG|].
    split; [apply (inv_grid _ _ HI)|]. intro Ht. apply (inv_gint _ _ HI). rewrite Hg, Ht. reflexivity.
  - apply reachable_inv in H. pose proof (inv_basic _ _ H) as HB.
    pose proof (new_grid_is_grid _ _ HB HU) as HG. split; [exact HG|]. split; [eapply is_grid_sorted; exact HG|].
    intro Ht. apply (new_grid_gint _ _ HB HU). destruct (update_grid_spec _ _ HB HU) as [_ ->]. cbn in *. now rewrite Ht.
Qed.
Lemma fresh_inv E e e' : fresh_grid E e e' -> elem_inv E e'.
Proof.
  intros [H|[H HU]]; [now apply created_inv|]. apply reachable_inv in H.
  pose proof (step_inv E e EUpdateGrid H) as K. cbn in K. rewrite HU in K. exact K.
Qed.

Definition ex_bounds : pyval := PTuple [num 20; num 60].
Definition ex_elem (ss : Qc) : res element :=
  mk_element "age" [qz 20; qz 33; qz 60] ex_bounds PNone (PBool true) (PStr "relative") (num 0) (PFloat (Fin ss)).
Lemma ex_created ss e : ex_elem ss = Ok e -> elem_created e.
Proof. intro H. do 8 eexists. exact H. Qed.

Lemma existsb_In (l : list Qc) f : existsb f l = true -> exists v, In v l /\ f v = true.
Proof. intro H. now apply existsb_exists in H. Qed.

Lemma c05_refuted : exists e v, elem_created e /\ In v (e_grid e) /\ e_ub e < v.
Proof.
  assert (H : ok_and (ex_elem (qfrac 3 10)) (fun e => existsb (fun v => e_ub e <? v) (e_grid e)) = true)
    by (vm_compute; reflexivity).
  apply ok_and_true in H. destruct H as (e & He & Hv). apply existsb_In in Hv. destruct Hv as (v & Hin & Hlt). qbool.
  exists e, v. split; [eapply ex_created; exact He|]. auto.
Qed.
Lemma c05_partial E e e' n : fresh_grid E e e' ->
  (exists lo hi s, grid_from e' lo /\ grid_to e' hi /\ grid_step_is e' lo hi s /\ hi - lo = qz (Z.of_nat n) * s) ->
  forall v, In v (e_grid e') -> exists lo hi, grid_from e' lo /\ grid_to e' hi /\ lo <= v /\ v <= hi.
Proof.
  intros HF Hd v Hv. pose proof (c04 _ _ _ HF) as [HG _]. pose proof (inv_basic _ _ (fresh_inv _ _ _ HF)) as HB.
  eapply grid_inside; eauto.
Qed.
Lemma c05_partial_int E e e' n : fresh_grid E e e' ->
  (e_vtype e' = TInt -> is_int (e_lb e') /\ is_int (e_ub e')) ->
  (exists s, grid_step_is e' (e_lb e') (e_ub e') s /\ e_ub e' - e_lb e' = qz (Z.of_nat n) * s) ->
  forall v, In v (e_grid e') -> e_lb e' <= v /\ v <= e_ub e'.
Proof.
  intros HF Hint (s & Hs & Hd) v Hv.
  assert (Hlo : grid_from e' (e_lb e')).
  { unfold grid_from. destruct (e_vtype e') eqn:Et; try reflexivity. destruct (Hint eq_refl). split; [assumption|]. split; [apply Qcle_refl|qlra]. }
  assert (Hhi : grid_to e' (e_ub e')).
  { unfold grid_to. destruct (e_vtype e') eqn:Et; try reflexivity. destruct (Hint eq_refl). split; [assumption|]. split; [apply Qcle_refl|qlra]. }
  destruct (c05_partial E e e' n HF) with (v := v) as (lo & hi & A1 & A2 & H1 & H2); [eauto 10|exact Hv|].
  unfold grid_from, grid_to in *. destruct (e_vtype e') eqn:Et; try (subst; split; assumption).
  destruct Hlo as (I1 & ? & ?), Hhi as (I2 & ? & ?), A1 as (I3 & ? & ?), A2 as (I4 & ? & ?).
  rewrite (int_between (e_lb e') lo), (int_between (e_ub e') hi); auto; qlra.
Qed.

Lemma qmem_true x l : qmem x l = true -> In x l. Proof. apply qmem_iff. Qed.
Lemma c06_refuted : exists e e', elem_created e /\ elem_setattr "ub" (num 40) e = Ok e' /\
    ~ is_grid_of e' (e_grid e') /\ e_ub e' = qz 40 /\ In (qz 60) (feasible_x e' (qz 20) false).
Proof.
  assert (H : ok_and (ex_elem (qfrac 1 4)) (fun e => ok_and (elem_setattr "ub" (num 40) e)
     (fun e' => (e_ub e' =? qz 40) && qmem (qz 60) (feasible_x e' (qz 20) false) && (qmem (qz 60) (e_grid e'))
       && vtype_eqb (e_vtype e') TInt && (e_lb e' =? qz 20) && match e_step_type e' with Relative => true | _ => false end
       && (e_step_size e' =? qfrac 1 4))) = true) by (vm_compute; reflexivity).
  apply ok_and_true in H. destruct H as (e & He & Hv). apply ok_and_true in Hv. destruct Hv as (e' & He' & Hv).
  rewrite !andb_true_iff in Hv. destruct Hv as ((((((H1 & H2) & H3) & H4) & H5) & H6) & H7). qbool.
  apply qmem_true in H2, H3.
  exists e, e'. split; [eapply ex_created; exact He|]. split; [exact He'|]. split; [|auto]. clear He He'.
  intros (lo & hi & s & la & A1 & A2 & A3 & A4 & A5 & A6 & A7 & A8 & A9).
  assert (Ht : e_vtype e' = TInt) by (destruct (e_vtype e'); [discriminate H4|reflexivity|discriminate H4]).
  unfold grid_from, grid_to, grid_step_is in *. rewrite Ht in *.
  destruct A1 as (I1 & ? & ?), A2 as (I2 & ? & ?), A3 as (I3 & Hs1 & Hs2).
  assert (lo = qz 20) by (apply int_between; auto; [eexists; reflexivity|qlra|qlra]).
  assert (hi = qz 40) by (apply int_between; auto; [eexists; reflexivity|qlra|qlra]).
  subst lo hi. destruct (e_step_type e'); [|discriminate H6]. rewrite H7 in *.
  assert (Ex : qfrac 1 4 * (qz 40 - qz 20) = qz 5) by (apply Qc_is_canon; reflexivity).
  rewrite Ex in *. assert (Hs5 : s < qz 6) by (change (qz 6) with (qz 5 + 1); qlra).
  apply In_nth_error in H3. destruct H3 as (i & Hi).
  assert (Hil : (i < length (e_grid e'))%nat) by (apply nth_error_Some; congruence).
  apply A6 in Hi. apply A6 in A7.
  assert (Hip : qz (Z.of_nat i) <= qz (Z.of_nat (pred (length (e_grid e'))))) by (apply qz_le; lia).
  assert (qz (Z.of_nat i) * s <= qz (Z.of_nat (pred (length (e_grid e')))) * s) by (apply qmul_le_r; [qlra|exact Hip]).
  assert (qz 60 < qz 40 + qz 6) by qlra.
  change (qz 40 + qz 6) with (qz 46) in *. discriminate.
Qed.
Lemma c06_partial E e : elem_reachable E e ->
  (forall attr v e', elem_setattr attr v e = Ok e' -> e_grid e' = e_grid e) /\
  (forall e', update_grid e = Ok e' -> is_grid_of e' (e_grid e') /\
     e_bounds e' = e_bounds e /\ e_step_type e' = e_step_type e /\ e_step_size e' = e_step_size e /\ e_vtype e' = e_vtype e).
Proof.
  intro H. split.
  - intros attr v e' Hs. pose proof (step_grid E e (ESet attr v) I) as K. cbn in K. rewrite Hs in K. apply K.
  - intros e' HU. split; [eapply c04; right; eauto|].
    apply reachable_inv, inv_basic in H. destruct (update_grid_spec _ _ H HU) as [_ ->]. auto.
Qed.

Lemma c08_refuted : exists e x vals, elem_created e /\ feasible_values env0 e x false false false = Ok (vals, []) /\ ~ In x vals.
Proof.
  assert (H : ok_and (ex_elem (qfrac 1 4)) (fun e => negb (qmem (qfrac 71 2) (feasible_x e (qfrac 71 2) false))) = true) by (vm_compute; reflexivity).
  apply ok_and_true in H. destruct H as (e & He & Hv).
  exists e, (qfrac 71 2), (feasible_x e (qfrac 71 2) false). split; [eapply ex_created; exact He|].
  split; [reflexivity|]. apply negb_true_iff in Hv. intro Hin. apply qmem_iff in Hin. congruence.
Qed.
Lemma improving_self e x : improving e x x.
Proof. unfold improving. destruct (e_flip e); [|exact I]. split; intros _; apply Qcle_refl. Qed.
Lemma c08_partial E e x ra rp d vals ps : elem_reachable E e -> representable e x ->
  feasible_values E e x ra rp d = Ok (vals, ps) -> In (if ra then 0 else x) vals.
Proof.
  intros H HR HF. apply feasible_values_spec in HF. destruct HF as (_ & -> & _).
  assert (Hx : In x (feasible_x e x d)).
  { apply feasible_x_In; [exact HR|]. split; [now left|]. intros _. apply improving_self. }
  destruct ra; [|exact Hx]. apply in_map_iff. exists x. split; [ring|exact Hx].
Qed.
Lemma base_x_int E e x v : elem_inv E e -> e_gint e = true -> e_actionable e = true -> In v (base_x e x) -> is_int v.
Proof.
  intros HI Hg Ha Hin. unfold base_x in Hin. rewrite Ha in Hin. cbv zeta in Hin.
  pose proof (inv_gint _ _ HI Hg) as HG. rewrite Forall_forall in HG.
  destruct (qmem x _).
  - apply dir_filter_In in Hin. now apply HG.
  - apply insert_In in Hin. destruct Hin as [->|Hin].
    + unfold cast_to_grid. rewrite Hg. eexists; reflexivity.
    + apply dir_filter_In in Hin. now apply HG.
Qed.
Lemma c08_exact E e x rp d vals ps : elem_reachable E e -> e_actionable e = true -> ~ representable e x ->
  feasible_values E e x false rp d = Ok (vals, ps) -> ~ In x vals.
Proof.
  intros H Ha HR HF Hin. apply reachable_inv in H. apply feasible_values_spec in HF. destruct HF as (_ & -> & _).
  apply HR. intro Hg. rewrite feasible_x_eq in Hin.
  eapply (base_x_int E e x); eauto.
  destruct d; [|exact Hin]. destruct (e_flip e); [|exact Hin]. apply dir_filter_In in Hin. apply Hin.
Qed.

Lemma c09 E e x rp d vals ps v : elem_reachable E e -> representable e x ->
  feasible_values E e x false rp d = Ok (vals, ps) -> In v vals -> permitted e x v /\ (d = true -> improving e x v).
Proof. intros H HR HF Hv. apply feasible_values_spec in HF. destruct HF as (_ & -> & _). now apply feasible_x_In. Qed.
Lemma c09_fixed E e x rp d vals ps : elem_reachable E e -> e_actionable e = false ->
  feasible_values E e x false rp d = Ok (vals, ps) -> vals = [x].
Proof.
  intros H Ha HF. apply feasible_values_spec in HF. destruct HF as (_ & -> & _). rewrite feasible_x_eq.
  unfold base_x. rewrite Ha. destruct d; [|reflexivity]. destruct (e_flip e) as [fd|]; [|reflexivity].
  unfold dir_filter. assert (Hr : (x <=? x) = true) by (apply qle_iff, Qcle_refl). cbn [filter]. rewrite Hr.
  destruct (0 <? fd)%Z; [reflexivity|]. destruct (fd <? 0)%Z; reflexivity.
Qed.
Lemma c10 E e x rp d vals ps : elem_reachable E e -> representable e x ->
  feasible_values E e x false rp d = Ok (vals, ps) ->
  StronglySorted Qclt vals /\
  (forall v, permitted e x v -> (d = true -> improving e x v) -> In v vals) /\
  (forall acts ps', feasible_values E e x true rp d = Ok (acts, ps') -> acts = map (fun v => v - x) vals /\ ps' = ps) /\
  (rp = true -> Forall2 (fun v p => percentile E e v = Ok p) vals ps).
Proof.
  intros H HR HF. apply reachable_inv in H. pose proof HF as HF0.
  apply feasible_values_spec in HF. destruct HF as (_ & Ev & HP & HN). cbn in Ev. rewrite Ev.
  split; [apply feasible_x_sorted; [exact HR|apply (inv_grid _ _ H)]|].
  split; [intros v Hv Hi; apply feasible_x_In; auto|]. split; [|exact HP].
  intros acts ps' HA. unfold feasible_values in HA, HF0. bnd HA as u Hu. cbn in HF0. cbv zeta in HA.
  destruct rp.
  - bnd HA as q Hq. rewrite Hq in HF0. cbn in HF0. injection HA as <- <-. injection HF0 as _ ->. auto.
  - injection HA as <- <-. injection HF0 as _ <-. auto.
Qed.

Lemma c11_lb E e v e' : elem_reachable E e -> elem_setattr "lb" v e = Ok e' ->
  e_ub e' = e_ub e /\ b_type (e_bounds e') = b_type (e_bounds e) /\ e' = with_bounds e (e_bounds e') /\
  (b_type (e_bounds e) = Absolute -> forall q, py_number v q -> rounded_down (e_values e) q (e_lb e')) /\
  (b_type (e_bounds e) = Percentile -> forall q, py_number v q ->
     exists p, is_percentile (e_values e) q p /\ rounded_down (e_values e) p (e_lb e')).
Proof.
  intros H Hs. apply reachable_inv in H. change (set_lb e v = Ok e') in Hs.
  destruct (set_lb_spec _ _ _ _ H Hs) as (A & B & C & D & F). auto.
Qed.
Lemma c11_ub E e v e' : elem_reachable E e -> elem_setattr "ub" v e = Ok e' ->
  e_lb e' = e_lb e /\ b_type (e_bounds e') = b_type (e_bounds e) /\ e' = with_bounds e (e_bounds e') /\
  (b_type (e_bounds e) = Absolute -> forall q, py_number v q -> rounded_up (e_values e) q (e_ub e')) /\
  (b_type (e_bounds e) = Percentile -> forall q, py_number v q ->
     exists p, is_percentile (e_values e) q p /\ rounded_up (e_values e) p (e_ub e')).
Proof.
  intros H Hs. apply reachable_inv in H. change (set_ub e v = Ok e') in Hs.
  destruct (set_ub_spec _ _ _ _ H Hs) as (A & B & C & D & F). auto.
Qed.

Lemma c12_refuted : exists e, elem_reachable env0 e /\ e_step_type e = Relative /\ 1 < e_step_size e.
Proof.
  set (ops := [ESet "step_type" (PStr "absolute"); ESet "step_size" (num 5); ESet "step_type" (PStr "relative")]).
  assert (H : ok_and (ex_elem (qfrac 1 4)) (fun e => let e' := elem_run env0 e ops in
     match e_step_type e' with Relative => 1 <? e_step_size e' | _ => false end) = true) by (vm_compute; reflexivity).
  apply ok_and_true in H. destruct H as (e & He & Hv). cbv zeta in Hv.
  exists (elem_run env0 e ops). split; [exists e, ops; split; [eapply ex_created; exact He|reflexivity]|].
  destruct (e_step_type _); [|discriminate Hv]. qbool. auto.
Qed.
Lemma c12_partial E e ops : elem_created e ->
  0 < e_step_size (elem_run E e ops) /\
  (Forall never_relative ops -> e_step_type (elem_run E e ops) = Relative -> e_step_size (elem_run E e ops) <= 1).
Proof.
  intro H. destruct (created_inv E _ H) as (HI & _ & _ & _ & _ & Hs & _). split.
  - apply (inv_size E). now apply run_inv.
  - intros HF Ht. apply (step_ok_run E e ops HF); [|exact Ht]. split; [apply (inv_size _ _ HI)|exact Hs].
Qed.

Lemma percentile_spec E e x p : elem_inv E e -> percentile E e x = Ok p ->
  exists g pdf, percentile_grid e g /\ g <> [] /\ StronglySorted Qclt g /\ kde E (e_values e) = Some pdf /\ p = interp g (cdf_of pdf g) x.
Proof.
  intros HI H. unfold percentile in H. bnd H as [g c] Hg. injection H as <-.
  destruct (get_interp_ok _ _ _ _ HI Hg) as (H1 & H2 & pdf & H3 & ->). exists g, pdf. split; [|auto].
  unfold percentile_grid. unfold get_interp in Hg. destruct (e_interp e) as [[g' c']|] eqn:Ei.
  - injection Hg as <- _. reflexivity.
  - unfold fresh_interp in Hg. rewrite H3 in Hg. destruct (e_grid e); [discriminate|]. now injection Hg as <- _.
Qed.
Lemma c13_range E e x p : elem_reachable E e -> (forall pdf v, kde E (e_values e) = Some pdf -> 0 <= pdf v) ->
  percentile E e x = Ok p -> 0 < p /\ p < 1.
Proof.
  intros H Hk Hp. apply reachable_inv in H. destruct (percentile_spec _ _ _ _ H Hp) as (g & pdf & _ & H1 & H2 & H3 & ->).
  apply interp_range; auto. rewrite Forall_forall. intros v _. eapply Hk, H3.
Qed.
Lemma percentile_grid_unique e g g' : percentile_grid e g -> percentile_grid e g' -> g = g'.
Proof. unfold percentile_grid. destruct (e_interp e) as [[? ?]|]; congruence. Qed.
Lemma c13_mono E e g x y p q : elem_reachable E e -> percentile_grid e g ->
  (forall pdf v, kde E (e_values e) = Some pdf -> 0 <= pdf v) ->
  within g x -> within g y -> percentile E e x = Ok p -> percentile E e y = Ok q -> x <= y -> p <= q.
Proof.
  intros H Hg Hk Hx Hy Hp Hq Hxy. apply reachable_inv in H.
  destruct (percentile_spec _ _ _ _ H Hp) as (g1 & pdf & G1 & H1 & H2 & H3 & ->).
  destruct (percentile_spec _ _ _ _ H Hq) as (g2 & pdf2 & G2 & _ & _ & H4 & ->).
  rewrite (percentile_grid_unique _ _ _ G1 Hg) in *. rewrite (percentile_grid_unique _ _ _ G2 Hg) in *.
  rewrite H3 in H4. injection H4 as <-. apply interp_mono; auto. rewrite Forall_forall. intros v _. eapply Hk, H3.
Qed.
Lemma c13_strict E e g x y p q : elem_reachable E e -> percentile_grid e g ->
  (forall pdf v, kde E (e_values e) = Some pdf -> In v g -> 0 < pdf v) ->
  within g x -> within g y -> percentile E e x = Ok p -> percentile E e y = Ok q -> x < y -> p < q.
Proof.
  intros H Hg Hk Hx Hy Hp Hq Hxy. apply reachable_inv in H.
  destruct (percentile_spec _ _ _ _ H Hp) as (g1 & pdf & G1 & H1 & H2 & H3 & ->).
  destruct (percentile_spec _ _ _ _ H Hq) as (g2 & pdf2 & G2 & _ & _ & H4 & ->).
  rewrite (percentile_grid_unique _ _ _ G1 Hg) in *. rewrite (percentile_grid_unique _ _ _ G2 Hg) in *.
  rewrite H3 in H4. injection H4 as <-. apply interp_smono; auto. rewrite Forall_forall. intros v Hv. eapply Hk; eauto.
Qed.

(** Values of the percentile scale: at the grid points, and beyond the grid. *)
Lemma seg_at : forall xs ys i x y, StronglySorted Qclt xs -> length xs = length ys -> nth_error xs i = Some x -> nth_error ys i = Some y -> interp_seg xs ys x = y.
Proof.
  induction xs as [|x1 xs IH]; intros [|y1 ys] i x y HS HL Hx Hy; try (destruct i; discriminate).
  destruct xs as [|x2 xs]; destruct ys as [|y2 ys]; try discriminate HL.
  - destruct i as [|i]; [cbn in *; congruence|destruct i; discriminate].
  - rewrite seg_cons2. inversion HS as [|? ? HS' HF]; subst. inversion HF as [|? ? H12 HF']; subst.
    destruct i as [|[|i]].
    + cbn in Hx, Hy. injection Hx as ->. injection Hy as ->. destruct (x <=? x2) eqn:C; [ring|]. qbool. exfalso. qlra.
    + cbn in Hx, Hy. injection Hx as ->. injection Hy as ->. destruct (x <=? x) eqn:C; [|qbool; exfalso; qlra]. apply segment_right, H12.
    + assert (L : x2 < x). { inversion HS' as [|? ? _ HG]; subst. rewrite Forall_forall in HG. apply HG. cbn in Hx. eapply nth_error_In, Hx. }
      destruct (x <=? x2) eqn:C; [qbool; exfalso; qlra|]. apply (IH (y2 :: ys) (S i)); auto. 
Qed.
Lemma cumsum_nth : forall l a i v, nth_error (cumsum_from a l) i = Some v -> v = a + qsum (firstn (S i) l).
Proof.
  induction l as [|u l IH]; intros a i v H; [destruct i; discriminate|]. destruct i as [|i]; cbn in H.
  - injection H as <-. cbn. ring.
  - apply IH in H. rewrite H. cbn [firstn qsum]. ring.
Qed.
Lemma filter_upto : forall g i v, StronglySorted Qclt g -> nth_error g i = Some v -> filter (fun u => u <=? v) g = firstn (S i) g.
Proof.
  induction g as [|u g IH]; intros i v HS H; [destruct i; discriminate|]. inversion HS as [|? ? HS' HF]; subst. destruct i as [|i].
  - cbn in H. injection H as ->. cbn [filter firstn]. destruct (v <=? v) eqn:C; [|qbool; exfalso; qlra]. f_equal.
    clear -HF. induction g as [|u g IH]; [reflexivity|]. inversion HF; subst. cbn. destruct (u <=? v) eqn:C; [qbool; exfalso; qlra|]. now apply IH.
  - cbn in H. cbn [filter]. rewrite Forall_forall in HF. pose proof (HF v (nth_error_In _ _ H)) as L. destruct (u <=? v) eqn:C; [|qbool; exfalso; qlra].
    change (firstn (S (S i)) (u :: g)) with (u :: firstn (S i) g). f_equal. now apply IH.
Qed.
Lemma c13_value E e g v p : elem_reachable E e -> percentile_grid e g -> In v g -> percentile E e v = Ok p ->
  exists pdf, kde E (e_values e) = Some pdf /\
    p = (qfrac 1 1000000 + qsum (map pdf (filter (fun u => u <=? v) g))) / (qsum (map pdf g) + qfrac 2 1000000).
Proof.
  intros H Hg Hv Hp. apply reachable_inv in H. destruct (percentile_spec _ _ _ _ H Hp) as (g1 & pdf & G1 & H1 & H2 & H3 & ->).
  rewrite (percentile_grid_unique _ _ _ G1 Hg) in *. clear G1 g1. exists pdf. split; [exact H3|]. destruct (In_nth_error _ _ Hv) as (i & Hi).
  destruct g as [|g0 g]; [contradiction|]. unfold interp.
  assert (L0 : g0 <= v). { inversion H2 as [|? ? _ HF]; subst. destruct Hv as [->|Hv]; [apply Qcle_refl|]. rewrite Forall_forall in HF. apply Qclt_le_weak, HF, Hv. }
  destruct (v <? g0) eqn:C; [qbool; exfalso; qlra|]. destruct (last (g0 :: g) g0 <? v) eqn:C2.
  { qbool. exfalso. pose proof (last_ge (g0 :: g) g0 v (ssorted_weaken _ H2) Hv). qlra. }
  assert (LC : length (cdf_of pdf (g0 :: g)) = length (g0 :: g)) by apply cdf_length.
  destruct (nth_error (cdf_of pdf (g0 :: g)) i) as [y|] eqn:Hy; [|apply nth_error_None in Hy; rewrite LC in Hy; apply nth_error_None in Hy; congruence].
  rewrite (seg_at _ _ i v y H2 (eq_sym LC) Hi Hy). rewrite (filter_upto _ _ _ H2 Hi).
  unfold cdf_of in Hy. rewrite nth_error_map in Hy. destruct (nth_error (np_cumsum (map pdf (g0 :: g))) i) as [r|] eqn:Hr; [|discriminate Hy]. injection Hy as <-.
  apply cumsum_nth in Hr. rewrite Qcplus_0_l in Hr. rewrite Hr. rewrite firstn_map.
  assert (T : last (np_cumsum (map pdf (g0 :: g))) 0 + buffer + buffer = qsum (map pdf (g0 :: g)) + qfrac 2 1000000); [|rewrite <- T; reflexivity].
  assert (Q : last (np_cumsum (map pdf (g0 :: g))) 0 = qsum (map pdf (g0 :: g))); [|rewrite Q; unfold buffer; rewrite <- Qcplus_assoc; f_equal; now apply Qc_is_canon].
  set (l := map pdf (g0 :: g)). assert (NE : l <> []) by discriminate. clearbody l. clear -NE. unfold np_cumsum. assert (G : forall a, last (cumsum_from a l) 0 = a + qsum l); [|rewrite G; ring].
  induction l as [|u l IH]; [contradiction|]. intro a. cbn [cumsum_from]. destruct l as [|u' l]; [cbn; ring|]. change (last ((a + u) :: cumsum_from (a + u) (u' :: l)) 0) with (last (cumsum_from (a + u) (u' :: l)) 0). rewrite IH by discriminate. cbn [qsum]. ring.
Qed.
Lemma c13_beyond E e g v p : elem_reachable E e -> percentile_grid e g -> percentile E e v = Ok p ->
  ((forall u, In u g -> v < u) -> p = qfrac 1 1000000) /\ ((forall u, In u g -> u < v) -> p = 1 - qfrac 1 1000000).
Proof.
  intros H Hg Hp. apply reachable_inv in H. destruct (percentile_spec _ _ _ _ H Hp) as (g1 & pdf & G1 & H1 & H2 & H3 & ->).
  rewrite (percentile_grid_unique _ _ _ G1 Hg) in *. destruct g as [|g0 g]; [contradiction|]. unfold interp. split; intro HV.
  - pose proof (HV g0 (or_introl eq_refl)). destruct (v <? g0) eqn:C; [reflexivity|qbool; exfalso; qlra].
  - pose proof (HV g0 (or_introl eq_refl)). destruct (v <? g0) eqn:C; [qbool; exfalso; qlra|].
    assert (IL : In (last (g0 :: g) g0) (g0 :: g)). { clear. destruct g as [|u g]; [left; reflexivity|]. right. revert u. induction g as [|w g IH]; intro u; [left; reflexivity|right; apply IH]. }
    pose proof (HV _ IL). destruct (last (g0 :: g) g0 <? v) eqn:C2; [reflexivity|qbool; exfalso; qlra].
Qed.

Lemma c14_refuted : exists e e1 p q, elem_reachable env0 e /\ update_grid e = Ok e1 /\
    percentile env0 e1 (qz 30) = Ok p /\ percentile env0 (with_interp e1 None) (qz 30) = Ok q /\ p <> q.
Proof.
  set (ops := [EQuery; ESet "bounds" (PTuple [num 0; num 100])]).
  assert (H : ok_and (ex_elem (qfrac 1 4)) (fun e => ok_and (update_grid (elem_run env0 e ops)) (fun e1 =>
     ok_and (percentile env0 e1 (qz 30)) (fun p => ok_and (percentile env0 (with_interp e1 None) (qz 30)) (fun q => negb (p =? q))))) = true)
    by (vm_compute; reflexivity).
  apply ok_and_true in H. destruct H as (e & He & H). apply ok_and_true in H. destruct H as (e1 & He1 & H).
  apply ok_and_true in H. destruct H as (p & Hp & H). apply ok_and_true in H. destruct H as (q & Hq & H).
  apply negb_true_iff in H. qbool.
  exists (elem_run env0 e ops), e1, p, q.
  split; [exists e, ops; split; [eapply ex_created; exact He|reflexivity]|]. auto.
Qed.
Lemma c14_partial E e e1 x : elem_reachable E e -> e_interp e = None -> update_grid e = Ok e1 ->
  percentile E e1 x = (match kde E (e_values e) with
                       | Some pdf => Ok (interp (e_grid e1) (cdf_of pdf (e_grid e1)) x)
                       | None => Err LinAlgError end).
Proof.
  intros H Hi HU. apply reachable_inv in H. pose proof (inv_basic _ _ H) as HB.
  pose proof (new_grid_ne _ _ HB HU) as HN. destruct (update_grid_spec _ _ HB HU) as [_ E1].
  unfold percentile, get_interp. assert (Ei : e_interp e1 = None) by (rewrite E1; exact Hi). rewrite Ei.
  unfold fresh_interp. assert (Ev : e_values e1 = e_values e) by (rewrite E1; reflexivity). rewrite Ev.
  destruct (kde E (e_values e)) as [pdf|]; [|reflexivity].
  destruct (e_grid e1) as [|g0 gr] eqn:Eg; [congruence|]. rewrite <- Eg. reflexivity.
Qed.
Lemma c14_touch E e x : percentile E (touch_interp E e) x = percentile E e x.
Proof.
  unfold touch_interp. destruct (get_interp E e) as [i|] eqn:Hi; [|reflexivity].
  unfold percentile. rewrite Hi. reflexivity.
Qed.

Lemma c16 E e : elem_reachable E e ->
  match e_flip e with
  | None => compatible e = None
  | Some fd => compatible e = Some true <-> (e_actionable e = true /\ fd <> 0%Z /\ e_step_dir e <> (- fd)%Z)
  end.
Proof.
  intro H. apply reachable_inv in H. unfold compatible. destruct (e_flip e) as [fd|] eqn:Ef; [|reflexivity].
  destruct (inv_flip _ _ H _ Ef) as [->|[->| ->]]; destruct (inv_dir _ _ H) as [->|[->| ->]];
    destruct (e_actionable e); cbn; intuition (try discriminate; try congruence; try lia).
Qed.
Lemma c16_decided e : e_flip e <> None -> compatible e = Some true \/ compatible e = Some false.
Proof.
  unfold compatible. destruct (e_flip e); [|congruence]. intros _.
  destruct (negb (e_actionable e)); [auto|]. destruct (negb _); auto.
Qed.
