(** Proofs about undo_coefficient_scaling (C116). *)
From Verif Require Import Spec_scaling Proofs_num.
Open Scope list_scope. Open Scope Qc_scope.
Section scaling.
Context (sq : Qc -> Qc) (Hsq : root sq).

Lemma over_fin a b : b <> 0 -> fl_over a b = Fin (a / b).
Proof. intros H. unfold fl_over. destruct (b =? 0) eqn:E; [|reflexivity]. apply qeq_iff in E. contradiction. Qed.
Lemma over_zero a : fl_finite (fl_over a 0) = false.
Proof. unfold fl_over. replace (0 =? 0) with true by reflexivity. unfold fl_div0. destruct (a ?= 0); reflexivity. Qed.

Fixpoint quot (w s : list Qc) : list Qc := match w, s with a :: w, b :: s => a / b :: quot w s | _, _ => [] end.
Lemma overs_fin w : forall s, Forall (fun b => b <> 0) s -> fl_overs w s = map Fin (quot w s).
Proof.
  induction w as [|a w IH]; intros [|b s] F; cbn; try reflexivity. inversion F; subst.
  now rewrite over_fin, IH.
Qed.
Lemma dot_fin w : forall m, fl_dot (map Fin w) m = Fin (dot w m).
Proof. induction w as [|a w IH]; intros [|b m]; cbn; try reflexivity. now rewrite IH. Qed.
Lemma quot_len w : forall s, length w = length s -> length (quot w s) = length w.
Proof. induction w; intros [|b s] H; cbn in *; try discriminate H; auto. Qed.

Lemma std_len m v x z' : standardised sq m v x z' -> length m = length v /\ length x = length v /\ length z' = length v.
Proof. induction 1 as [|? ? ? ? ? ? ? ? ? (A & B & C)|? ? ? ? ? ? ? (A & B & C)]; cbn; auto. Qed.

Lemma std_dot m v x z' : standardised sq m v x z' -> Forall (fun q => q <> 0) v -> forall w, length w = length v ->
  dot (quot w (map sq v)) x - dot (quot w (map sq v)) m = dot w z'.
Proof.
  induction 1 as [|m v x ms vs xs zs Hv St IH|m x ms vs xs zs St IH]; intros F [|a w] L; cbn in *; try discriminate L.
  - ring.
  - inversion F; subst. rewrite <- (IH H2 w) by congruence.
    assert (sq v <> 0) by (rewrite (Hsq v); exact Hv). field. assumption.
  - inversion F; subst. exfalso. apply H1. reflexivity.
Qed.

(** The argument forms: coefficients (and intercept), or a classifier alone. *)
Lemma undo_core clf co t sc r : undo_coefficient_scaling sq clf co t (Some sc) = Ok r ->
  exists w0 b0, undo_coefficient_scaling sq clf co t None = Ok (map Fin w0, Fin b0) /\
    exists w, divide w0 (map sq (sc_var sc)) = Ok w /\ length w = length (sc_mean sc) /\
      r = (w, fl_plus (Fin b0) (fl_opp (fl_dot w (sc_mean sc)))).
Proof.
  unfold undo_coefficient_scaling. intros H.
  destruct co as [w|].
  - cbn [bind] in *. destruct (divide w (map sq (sc_var sc))) as [w'|] eqn:D; cbn [bind] in H; [|discriminate H].
    destruct (Nat.eqb_spec (length w') (length (sc_mean sc))); [|discriminate H]. inversion H. eauto 8.
  - destruct clf as [c|]; [|discriminate H].
    destruct (t =? 0); cbn [passert bind] in *; [|discriminate H].
    destruct (lm_coef c) as [w|]; cbn [bind] in *; [|discriminate H].
    destruct (divide w (map sq (sc_var sc))) as [w'|] eqn:D; cbn [bind] in H; [|discriminate H].
    destruct (Nat.eqb_spec (length w') (length (sc_mean sc))); [|discriminate H]. inversion H. eauto 8.
Qed.

Lemma undo_back clf co t sc w0 b0 w :
  undo_coefficient_scaling sq clf co t None = Ok (map Fin w0, Fin b0) ->
  divide w0 (map sq (sc_var sc)) = Ok w -> length w = length (sc_mean sc) ->
  undo_coefficient_scaling sq clf co t (Some sc) = Ok (w, fl_plus (Fin b0) (fl_opp (fl_dot w (sc_mean sc)))).
Proof.
  assert (IJ : forall a b, map Fin a = map Fin b -> a = b).
  { induction a as [|q a IH]; intros [|p b] E; cbn in E; try discriminate E; auto. inversion E. f_equal; auto. }
  unfold undo_coefficient_scaling. intros H D L.
  destruct co as [v|].
  - cbn [bind] in *. inversion H. apply IJ in H1. subst. rewrite D. cbn [bind]. rewrite L, Nat.eqb_refl. reflexivity.
  - destruct clf as [c|]; [|discriminate H].
    destruct (t =? 0); cbn [passert bind] in *; [|discriminate H].
    destruct (lm_coef c) as [v|]; cbn [bind] in *; [|discriminate H].
    inversion H. apply IJ in H1. subst. rewrite D. cbn [bind]. rewrite L, Nat.eqb_refl. reflexivity.
Qed.

Lemma scaled_same clf co t sc w0 b0 :
  undo_coefficient_scaling sq clf co t None = Ok (map Fin w0, Fin b0) ->
  length w0 = length (sc_var sc) -> length (sc_mean sc) = length (sc_var sc) -> Forall (fun v => v <> 0) (sc_var sc) ->
  exists w b w' b', undo_coefficient_scaling sq clf co t (Some sc) = Ok (w, b) /\ usable w b w' b' /\ length w' = length w0 /\
    forall x z', standardised sq (sc_mean sc) (sc_var sc) x z' -> score w' b' x = score w0 b0 z'.
Proof.
  intros H L M F.
  assert (F' : Forall (fun b => b <> 0) (map sq (sc_var sc))).
  { rewrite Forall_map. eapply Forall_impl; [|exact F]. intros v Hv. rewrite (Hsq v). exact Hv. }
  assert (D : divide w0 (map sq (sc_var sc)) = Ok (map Fin (quot w0 (map sq (sc_var sc))))).
  { unfold divide. rewrite map_length, L, Nat.eqb_refl, overs_fin; auto. }
  assert (Q : length (quot w0 (map sq (sc_var sc))) = length w0) by (apply quot_len; now rewrite map_length).
  exists (map Fin (quot w0 (map sq (sc_var sc)))), (Fin (b0 - dot (quot w0 (map sq (sc_var sc))) (sc_mean sc))),
    (quot w0 (map sq (sc_var sc))), (b0 - dot (quot w0 (map sq (sc_var sc))) (sc_mean sc)).
  split; [|split; [split; reflexivity|split; [exact Q|]]].
  - rewrite (undo_back _ _ _ _ _ _ _ H D) by (rewrite map_length; congruence). rewrite dot_fin. reflexivity.
  - intros x z' St. unfold score. rewrite <- (std_dot _ _ _ _ St F w0 L). ring.
Qed.

Lemma overs_zero w : forall s, length w = length s -> In 0 s -> forallb fl_finite (fl_overs w s) = false.
Proof.
  induction w as [|a w IH]; intros [|b s] L I; cbn in *; try discriminate L; [contradiction|].
  destruct I as [-> |I].
  - now rewrite over_zero.
  - rewrite (IH s) by (auto; congruence). apply andb_false_r.
Qed.
Lemma finite_all_bad w : forallb fl_finite w = false -> finite_all w = Err AssertionError.
Proof.
  induction w as [|f w IH]; cbn; intros H; [discriminate H|].
  destruct f; cbn in *; try reflexivity. rewrite (IH H). reflexivity.
Qed.

Lemma constant_column clf co t sc w0 b0 :
  undo_coefficient_scaling sq clf co t None = Ok (map Fin w0, Fin b0) ->
  length w0 = length (sc_var sc) -> length (sc_mean sc) = length (sc_var sc) -> In 0 (sc_var sc) ->
  exists w b, undo_coefficient_scaling sq clf co t (Some sc) = Ok (w, b) /\ (forall w' b', ~ usable w b w' b') /\
    parse_classifier_args {| k_clf := None; k_classifier := None; k_coefs := Some (AVec w); k_intercept := Some (ANum b); a_pos := [] |} = Err AssertionError.
Proof.
  intros H L M I.
  assert (D : divide w0 (map sq (sc_var sc)) = Ok (fl_overs w0 (map sq (sc_var sc)))) by (unfold divide; rewrite map_length, L, Nat.eqb_refl; auto).
  assert (N : forallb fl_finite (fl_overs w0 (map sq (sc_var sc))) = false).
  { apply overs_zero; [now rewrite map_length|]. apply in_map_iff. exists 0. split; auto. now apply Hsq. }
  assert (LL : length (fl_overs w0 (map sq (sc_var sc))) = length (sc_mean sc)).
  { rewrite M, <- L. assert (G : forall w s, length w = length s -> length (fl_overs w s) = length w)
      by (induction w; intros [|? ?] ?; cbn in *; try discriminate; auto).
    apply G. now rewrite map_length. }
  eexists _, _. split; [exact (undo_back _ _ _ _ _ _ _ H D LL)|]. split.
  - intros w' b' [U _]. rewrite U in N. clear -N. induction w'; cbn in N; [discriminate N|auto].
  - unfold parse_classifier_args. cbn [k_clf k_classifier k_coefs k_intercept bind to_float to_vec].
    now rewrite (finite_all_bad _ N).
Qed.
End scaling.

Lemma no_scaler sq w t c :
  undo_coefficient_scaling sq c (Some w) t None = Ok (map Fin w, Fin t) /\
  (forall b, undo_coefficient_scaling sq (Some {| lm_coef := Some w; lm_intercept := Some b |}) None 0 None = Ok (map Fin w, Fin b)) /\
  undo_coefficient_scaling sq (Some {| lm_coef := Some w; lm_intercept := None |}) None 0 None = Ok (map Fin w, Fin 0) /\
  (forall m sc, t <> 0 -> undo_coefficient_scaling sq m None t sc = Err AssertionError) /\
  (forall sc, undo_coefficient_scaling sq None None t sc = Err AssertionError).
Proof.
  split; [reflexivity|]. split; [reflexivity|]. split; [reflexivity|]. split; [|reflexivity].
  intros [m|] sc H; [|reflexivity]. unfold undo_coefficient_scaling.
  destruct (t =? 0) eqn:E; [apply qeq_iff in E; contradiction|]. reflexivity.
Qed.

Lemma scaling_case :
  let sq := fun v => if v =? qz 4 then qz 2 else if v =? qz 9 then qz 3 else v in
  let sc := {| sc_mean := [1; qz 5]; sc_var := [qz 4; qz 9] |} in
  root sq /\ standardised sq (sc_mean sc) (sc_var sc) [qz 5; qz (-4)] [qz 2; qz (-3)] /\
  undo_coefficient_scaling sq None (Some [qz 4; qz 6]) (qz 7) (Some sc) = Ok ([Fin (qz 2); Fin (qz 2)], Fin (qz (-5))) /\
  score [qz 2; qz 2] (qz (-5)) [qz 5; qz (-4)] = score [qz 4; qz 6] (qz 7) [qz 2; qz (-3)].
Proof.
  intros sq sc.
  split; [|split; [|split]].
  - intros v. subst sq. cbv beta.
    destruct (v =? qz 4) eqn:A; [apply qeq_iff in A; subst; split; intros H; discriminate H|].
    destruct (v =? qz 9) eqn:B; [apply qeq_iff in B; subst; split; intros H; discriminate H|]. reflexivity.
  - cbn [sc_mean sc_var sc].
    assert (A : qz 2 = (qz 5 - 1) / sq (qz 4)) by (apply Qc_is_canon; reflexivity).
    assert (B : qz (-3) = (qz (-4) - qz 5) / sq (qz 9)) by (apply Qc_is_canon; reflexivity).
    rewrite A, B. apply std_varies; [intros H; discriminate H|]. apply std_varies; [intros H; discriminate H|]. apply std_nil.
  - transitivity (Ok ([Fin (qz 4 / qz 2); Fin (qz 6 / qz 3)], Fin (qz 7 + - (qz 4 / qz 2 * 1 + (qz 6 / qz 3 * qz 5 + 0))))).
    + vm_compute. reflexivity.
    + replace (qz 4 / qz 2) with (qz 2) by (apply Qc_is_canon; reflexivity).
      replace (qz 6 / qz 3) with (qz 2) by (apply Qc_is_canon; reflexivity).
      replace (qz 7 + - (qz 2 * 1 + (qz 2 * qz 5 + 0))) with (qz (-5)) by (apply Qc_is_canon; reflexivity). reflexivity.
  - apply Qc_is_canon. reflexivity.
Qed.
