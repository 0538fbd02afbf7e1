(** Grids of real-valued features, and grids that differ from the exact ones. *)
From Verif Require Import Proofs_num Proofs_tol Proofs_round Proofs_float Proofs_float2 Proofs_float3 Model_float Spec_rounding.
#[local] Open Scope string_scope.
#[local] Open Scope list_scope.
#[local] Open Scope Qc_scope.

Lemma next_increasing g : (forall i v v', nth_error g i = Some v -> nth_error g (S i) = Some v' -> v < v') -> increasing g.
Proof.
  intros H i j. induction j as [|j IH]; intros u v Hij Hu Hv; [lia|]. assert (Lj : (S j < length g)%nat) by (apply nth_error_Some; congruence).
  destruct (nth_error g j) as [w|] eqn:Hw; [|apply nth_error_None in Hw; lia]. assert (w < v) by (eapply H; eassumption). destruct (Nat.eq_dec i j) as [->|D]; [congruence|]. assert (u < w) by (apply IH; [lia|exact Hu|reflexivity]). qlra.
Qed.
Section R.
Context (rnd : Qc -> Qc) (HR : rounding rnd).
(** The computed step of a real-valued feature. *)
Lemma step_near e : e_vtype e <> TInt -> machine rnd (e_lb e) -> machine rnd (e_ub e) -> e_lb e <= e_ub e -> 0 <= e_step_size e -> qabs (f_step rnd e - grid_step e) <= qz 4 * unit64 * grid_step e.
Proof.
  intros Hv Ml Mu Hle H0. unfold f_step, grid_step, f_start, f_stop, grid_start, grid_stop. rewrite Ml, Mu. set (s := e_step_size e) in *. set (r := e_ub e - e_lb e).
  assert (U : 0 < unit64) by apply unit_pos. assert (R0 : 0 <= r) by (unfold r; qlra).
  assert (E1 : qz 100 * (unit64 * unit64) <= unit64) by (apply qle_iff; vm_compute; reflexivity).
  assert (X : match e_step_type e with Relative => qabs (rnd (rnd s * rnd r) - s * r) <= qz 4 * unit64 * (s * r) | AbsoluteStep => qabs (rnd s - s) <= qz 4 * unit64 * s end).
  { destruct (r_err_pos rnd HR s H0) as [A1 A2]. destruct (e_step_type e).
    - destruct (r_err_pos rnd HR r R0) as [B1 B2]. assert (S0 : 0 <= rnd s) by now apply (r_nn rnd HR). assert (T0 : 0 <= rnd r) by now apply (r_nn rnd HR).
      destruct (r_err_pos rnd HR _ (qmul_nonneg _ _ S0 T0)) as [C1 C2]. set (m := s * r) in *. assert (M0 : 0 <= m) by now apply qmul_nonneg.
      (* (1-u)^2 m <= rnd s * rnd r <= (1+u)^2 m *)
      assert (D1 : rnd s * rnd r <= m + qz 2 * unit64 * m + unit64 * unit64 * m).
      { eapply Qcle_trans; [apply qmul_le_r; [exact T0|exact A2]|]. eapply Qcle_trans; [apply qmul_le_l; [|exact B2]|]. { assert (0 <= unit64 * s) by (apply qmul_nonneg; qlra). qlra. }
        replace ((s + unit64 * s) * (r + unit64 * r)) with (m + (1 + 1) * unit64 * m + unit64 * unit64 * m) by (unfold m; ring). replace (1 + 1) with (qz 2) by (apply Qc_is_canon; reflexivity). apply Qcle_refl. }
      assert (D2 : m - qz 2 * unit64 * m <= rnd s * rnd r).
      { assert (SS : unit64 * s <= s). { rewrite <- (Qcmult_1_l s) at 2. apply qmul_le_r; [exact H0|apply qle_iff; reflexivity]. }
        assert (RR : unit64 * r <= r). { rewrite <- (Qcmult_1_l r) at 2. apply qmul_le_r; [exact R0|apply qle_iff; reflexivity]. }
        eapply Qcle_trans; [|apply qmul_le_r; [exact T0|exact A1]]. eapply Qcle_trans; [|apply qmul_le_l; [qlra|exact B1]].
        replace ((s - unit64 * s) * (r - unit64 * r)) with (m - (1 + 1) * unit64 * m + unit64 * unit64 * m) by (unfold m; ring). replace (1 + 1) with (qz 2) by (apply Qc_is_canon; reflexivity). assert (0 <= unit64 * unit64 * m) by (apply qmul_nonneg; [apply qmul_nonneg; qlra|exact M0]). qlra. }
      assert (F1 : qz 100 * (unit64 * unit64 * m) <= unit64 * m) by (rewrite Qcmult_assoc; apply qmul_le_r; [exact M0|exact E1]).
      assert (F0 : 0 <= unit64 * m) by (apply qmul_nonneg; qlra).
      assert (G1 : unit64 * (rnd s * rnd r) <= unit64 * (m + qz 2 * unit64 * m + unit64 * unit64 * m)) by (apply qmul_le_l; [qlra|exact D1]).
      assert (UM : unit64 * m <= m). { rewrite <- (Qcmult_1_l m) at 2. apply qmul_le_r; [exact M0|apply qle_iff; reflexivity]. }
      assert (F2 : unit64 * (unit64 * unit64 * m) <= unit64 * unit64 * m). { rewrite <- (Qcmult_1_l (unit64 * unit64 * m)) at 2. apply qmul_le_r; [apply qmul_nonneg; [apply qmul_nonneg; qlra|exact M0]|apply qle_iff; reflexivity]. }
      replace (unit64 * (m + qz 2 * unit64 * m + unit64 * unit64 * m)) with (unit64 * m + qz 2 * (unit64 * unit64 * m) + unit64 * (unit64 * unit64 * m)) in G1 by ring.
      replace (qz 4 * unit64 * m) with (qz 4 * (unit64 * m)) by ring. replace (qz 2 * unit64 * m) with (qz 2 * (unit64 * m)) in * by ring. clearbody m. set (um := unit64 * m) in *. set (uum := unit64 * unit64 * m) in *. set (P := rnd s * rnd r) in *. apply qabs_le. split; qlra.
    - replace (qz 4 * unit64 * s) with (qz 4 * (unit64 * s)) by ring. assert (0 <= unit64 * s) by (apply qmul_nonneg; qlra). apply qabs_le. split; qlra. }
  unfold machine in Ml, Mu. destruct (e_vtype e); try (exfalso; now apply Hv); destruct (e_step_type e); rewrite ?Ml, ?Mu; exact X.
Qed.
Theorem real_grid e : e_vtype e <> TInt -> machine rnd (e_lb e) -> machine rnd (e_ub e) -> e_lb e <= e_ub e -> 0 < f_step rnd e ->
  qabs (e_lb e) <= qz (2 ^ 22) * f_step rnd e -> qabs (e_ub e) <= qz (2 ^ 22) * f_step rnd e ->
  exists g, f_grid rnd e = Ok g /\ hd_error g = Some (e_lb e) /\ increasing g /\
    (forall i v, nth_error g i = Some v -> qabs (v - (e_lb e + qz (Z.of_nat i) * f_step rnd e)) <= qfrac 1 16 * f_step rnd e) /\
    (forall v, In v g -> e_lb e <= v /\ v < e_ub e + qz 2 * f_step rnd e) /\
    (exists v, In v g /\ e_ub e - qfrac 1 8 * f_step rnd e <= v).
Proof.
  intros Hv Ml Mu Hle Hs Hl Hu. set (s := f_step rnd e) in *. unfold f_grid. fold s. rewrite (proj2 (qeq_false s 0)) by now apply qpos_neq.
  assert (E1 : f_start rnd e = e_lb e) by (unfold f_start; destruct (e_vtype e); try (exfalso; now apply Hv); exact Ml). assert (E2 : f_stop rnd e = e_ub e) by (unfold f_stop; destruct (e_vtype e); try (exfalso; now apply Hv); exact Mu).
  assert (E3 : vtype_eqb (e_vtype e) TInt = false) by (destruct (e_vtype e); try (exfalso; now apply Hv); reflexivity). rewrite E1, E2, E3. eexists. split; [reflexivity|].
  assert (Hsb : s <= qz (2 ^ 22) * s). { rewrite <- (Qcmult_1_l s) at 1. apply qmul_le_r; [qlra|apply qle_iff; reflexivity]. }
  destruct (arange_real rnd HR (e_lb e) (e_ub e) s (qz (2 ^ 22) * s) Hle Hs Hl Hu (Qcle_refl _) Ml Hsb) as (G1 & G2 & G3 & G4 & G5 & _).
  split; [exact G1|]. split; [now apply next_increasing|]. auto.
Qed.
(** Integer features with relative steps: an equidistant grid whose step is at most one off. *)
Theorem relative_grid e a b : e_vtype e = TInt -> e_step_type e = Relative -> e_lb e = qz a -> e_ub e = qz b -> (a < b)%Z -> (Z.abs a <= 2 ^ 49)%Z -> (Z.abs b <= 2 ^ 49)%Z ->
  0 < e_step_size e -> e_step_size e <= 1 ->
  exists s s', (0 < s)%Z /\ (0 < s')%Z /\ (Z.abs (s - s') <= 1)%Z /\ f_grid rnd e = Ok (np_arange (qz a) (qz (b + s)) (qz s)) /\ exact_grid e = Ok (np_arange (qz a) (qz (b + s')) (qz s')).
Proof.
  intros Hv Ht El Eu Hab Ha Hb S0 S1. destruct (relative_near rnd HR e a b Hv Ht El Eu ltac:(lia) ltac:(lia) ltac:(lia) ltac:(qlra) S1) as (s & s' & Fs & Gs & N). exists s, s'.
  destruct (f_range rnd HR e a b Hv El Eu ltac:(lia) ltac:(lia)) as [R1 R2]. assert (R0 : 0 < qz (b - a)) by (rewrite <- qz_0; apply qz_lt; lia).
  assert (P : (0 < s <= 2 ^ 50)%Z).
  { unfold f_step in Fs. rewrite Hv, Ht, R1 in Fs. apply (proj1 (qz_inj _ _)) in Fs. assert (S2 : rnd (e_step_size e) <= 1) by (rewrite <- (r_1 rnd HR); now apply (r_mono rnd HR)).
    set (q := rnd (rnd (e_step_size e) * qz (b - a))) in *. assert (Q : 0 < q) by (apply (r_pos rnd HR), qmul_pos; [now apply (r_pos rnd HR)|exact R0]).
    assert (Q2 : q <= qz (b - a)). { unfold q. rewrite <- (r_int rnd HR (b - a)) at 2 by lia. apply (r_mono rnd HR). rewrite <- (Qcmult_1_l (qz (b - a))) at 2. apply qmul_le_r; [qlra|exact S2]. }
    pose proof (qceil_ge q) as C1. pose proof (qceil_lt q) as C2. rewrite Fs in C1, C2. split.
    - assert (qz 0 < qz s) by (rewrite qz_0; qlra). now apply (proj1 (qz_lt _ _)) in H.
    - assert (H : qz (s - 1) < qz (b - a)) by (rewrite qz_minus, qz_1; qlra). apply (proj1 (qz_lt _ _)) in H. lia. }
  assert (P' : (0 < s')%Z).
  { unfold grid_step in Gs. rewrite Hv, Ht, R2 in Gs. apply (proj1 (qz_inj _ _)) in Gs. pose proof (qceil_ge (e_step_size e * qz (b - a))) as C1. rewrite Gs in C1. assert (Q : 0 < e_step_size e * qz (b - a)) by now apply qmul_pos.
    assert (qz 0 < qz s') by (rewrite qz_0; qlra). now apply (proj1 (qz_lt _ _)) in H. }
  split; [lia|]. split; [lia|]. split; [lia|].
  assert (E1 : f_start rnd e = qz a) by (unfold f_start; rewrite Hv, El, (r_int rnd HR a) by lia; now rewrite qfloor_qz). assert (E2 : f_stop rnd e = qz b) by (unfold f_stop; rewrite Hv, Eu, (r_int rnd HR b) by lia; now rewrite qceil_qz).
  assert (E3 : grid_start e = qz a) by (unfold grid_start; rewrite Hv, El; now rewrite qfloor_qz). assert (E4 : grid_stop e = qz b) by (unfold grid_stop; rewrite Hv, Eu; now rewrite qceil_qz).
  assert (Z1 : (qz s =? 0) = false) by (apply qeq_false; rewrite <- qz_0; intro Q; apply (proj1 (qz_inj _ _)) in Q; lia). assert (Z2 : (qz s' =? 0) = false) by (apply qeq_false; rewrite <- qz_0; intro Q; apply (proj1 (qz_inj _ _)) in Q; lia).
  split.
  - unfold f_grid. rewrite Fs, Z1, E1, E2, Hv. cbn [vtype_eqb]. f_equal. rewrite qz_plus. rewrite f_arange_int; auto; try lia. rewrite <- qz_plus. apply trunc_ints, np_arange_int.
  - unfold exact_grid, update_grid. rewrite Gs, Z2, E3, E4. cbn [bind e_grid with_grid]. now rewrite qz_plus.
Qed.
End R.

(** Elements as they are created. *)
Definition step07 : res element := mk_element "age" [qz 0; qz 100] PNone (PType TInt) (PBool true) (PStr "relative") (PInt 0) (PFloat (Fin (qfrac 7 100))).
Definition real21 : res element := mk_element "score" [qz 0; qfrac 21 2; qz 21] PNone PNone (PBool true) (PStr "relative") (PInt 0) (PFloat (Fin (qfrac 1 100))).
Lemma step07_def : step07 = mk_element "age" [qz 0; qz 100] PNone (PType TInt) (PBool true) (PStr "relative") (PInt 0) (PFloat (Fin (qfrac 7 100))). Proof. reflexivity. Qed.
Lemma real21_def : real21 = mk_element "score" [qz 0; qfrac 21 2; qz 21] PNone PNone (PBool true) (PStr "relative") (PInt 0) (PFloat (Fin (qfrac 1 100))). Proof. reflexivity. Qed.
Definition okb (r : res element) (p : element -> bool) : bool := match r with Ok e => p e | Err _ => false end.
Fixpoint all_eq (l m : list Qc) : bool := match l, m with [], [] => true | x :: l', y :: m' => (x =? y) && all_eq l' m' | _, _ => false end.
Lemma all_eq_ok l : forall m, all_eq l m = true -> l = m.
Proof. induction l as [|x l IH]; intros [|y m] H; cbn in H; try discriminate H; [reflexivity|]. apply andb_true_iff in H. destruct H as [H1 H2]. apply qeq_iff in H1. f_equal; auto. Qed.
Definition same_list (r : res (list Qc)) (m : list Qc) : bool := match r with Ok l => all_eq l m | Err _ => false end.
Lemma same_list_ok r m : same_list r m = true -> r = Ok m.
Proof. destruct r as [l|]; intro H; [|discriminate H]. cbn in H. now rewrite (all_eq_ok l m H). Qed.
Lemma step_off : exists e, step07 = Ok e /\ e_vtype e = TInt /\ exact_grid e = Ok (np_arange (qz 0) (qz 107) (qz 7)) /\ f_grid rnd64 e = Ok (np_arange (qz 0) (qz 108) (qz 8)).
Proof.
  assert (T : okb step07 (fun e => vtype_eqb (e_vtype e) TInt && same_list (exact_grid e) (np_arange (qz 0) (qz 107) (qz 7)) && same_list (f_grid rnd64 e) (np_arange (qz 0) (qz 108) (qz 8))) = true) by (vm_compute; reflexivity).
  destruct step07 as [e|]; [|discriminate T]. cbn [okb] in T. exists e. split; [reflexivity|]. do 2 (apply andb_true_iff in T; destruct T as [T ?]). repeat split; [destruct (e_vtype e); try discriminate T; reflexivity|now apply same_list_ok..].
Qed.
Lemma over_ub : exists e g g', real21 = Ok e /\ e_vtype e = TFloat /\ exact_grid e = Ok g /\ f_grid rnd64 e = Ok g' /\ (forall v, In v g -> v <= e_ub e) /\ length g = 101%nat /\ length g' = 102%nat /\ exists v, In v g' /\ e_ub e < v.
Proof.
  assert (T : okb real21 (fun e => vtype_eqb (e_vtype e) TFloat &&
    match exact_grid e, f_grid rnd64 e with Ok g, Ok g' => forallb (fun v => v <=? e_ub e) g && Nat.eqb (length g) 101 && Nat.eqb (length g') 102 && existsb (fun v => e_ub e <? v) g' | _, _ => false end) = true) by (vm_compute; reflexivity).
  destruct real21 as [e|]; [|discriminate T]. cbn [okb] in T. apply andb_true_iff in T. destruct T as [T1 T]. destruct (exact_grid e) as [g|] eqn:Eg; [|discriminate T]. destruct (f_grid rnd64 e) as [g'|] eqn:Eg'; [|discriminate T].
  apply andb_true_iff in T. destruct T as [T T4]. apply andb_true_iff in T. destruct T as [T T3]. apply andb_true_iff in T. destruct T as [T T2]. exists e, g, g'.
  split; [reflexivity|]. split; [destruct (e_vtype e); try discriminate T1; reflexivity|]. split; [exact Eg|]. split; [exact Eg'|].
  split; [intros v Hv; rewrite forallb_forall in T; apply qle_iff; now apply T|]. split; [now apply Nat.eqb_eq|]. split; [now apply Nat.eqb_eq|].
  apply existsb_exists in T4. destruct T4 as (v & Hv & Hlt). exists v. split; [exact Hv|]. now apply qlt_iff.
Qed.
