(** Theorems C100-C104: what floating-point arithmetic does to grids, percentiles and scores.  All other files compute with exact numbers. *)
From Coq Require Import Reals Qreals.
From Flocq Require Import Core.
From Verif Require Import Model_rounding Model_float Spec_rounding Spec_recourse Spec_flipset Spec_element Proofs_num Proofs_round Proofs_float Proofs_float2 Proofs_float3 Proofs_float4 Proofs_float5 Proofs_float6 Proofs_float7 Proofs_float8 Proofs_ieee.
#[local] Open Scope string_scope.
#[local] Open Scope list_scope.
#[local] Open Scope Qc_scope.

(** * C100: integer features with an absolute whole step, or with the default relative step, get exactly the grid of exact arithmetic. *)
Theorem C100_whole_grids : forall rnd e a b s, rounding rnd -> e_step_type e = AbsoluteStep -> e_lb e = qz a -> e_ub e = qz b -> e_step_size e = qz s ->
  (a <= b)%Z -> (Z.abs a <= 2 ^ 50)%Z -> (Z.abs b <= 2 ^ 50)%Z -> (0 < s <= 2 ^ 50)%Z -> f_grid rnd e = exact_grid e.
Proof. intros rnd e a b s HR. exact (whole_absolute rnd HR e a b s). Qed.
Print Assumptions C100_whole_grids.
Theorem C100_default_grids : forall e a b, e_vtype e = TInt -> e_step_type e = Relative -> e_step_size e = qfrac 1 100 -> e_lb e = qz a -> e_ub e = qz b ->
  (a < b)%Z -> (Z.abs a <= 2 ^ 50)%Z -> (Z.abs b <= 2 ^ 50)%Z -> f_grid rnd64 e = exact_grid e.
Proof. exact default_exact. Qed.
Print Assumptions C100_default_grids.
(** The rounding of the model is that of the hardware: the Flocq library's rounding to nearest even, with 53 bits; in the binary64 format
    if the number is not subnormal. *)
Theorem C100_binary64 : forall x, x = 0%Qc \/ (pow2 (-1022) <= qabs x)%Qc -> Q2R (this (rnd64 x)) = round radix2 (FLT_exp (-1074) 53) ZnearestE (Q2R (this x)).
Proof. exact rnd64_binary64. Qed.
Print Assumptions C100_binary64.
Theorem C100_rounding : rounding rnd64.
Proof. exact rounding_rnd64. Qed.
Print Assumptions C100_rounding.
(** Cases: a feature of whole numbers with step 5, and one with the default step. *)
Definition whole_case : res element := mk_element "age" [qz 20; qz 33; qz 60] (PTuple [PInt 20; PInt 60]) (PType TInt) (PBool true) (PStr "absolute") (PInt 0) (PInt 5).
Definition default_case : res element := mk_element "income" [qz 0; qz 1234; qz 100000] PNone (PType TInt) (PBool true) (PStr "relative") (PInt 0) (PFloat (Fin (qfrac 1 100))).
Example C100_nonvacuous :
  ok_and whole_case (fun e => match e_step_type e with AbsoluteStep => true | _ => false end && (e_lb e =? qz 20) && (e_ub e =? qz 60) && (e_step_size e =? qz 5) && same_list (f_grid rnd64 e) (map qz [20; 25; 30; 35; 40; 45; 50; 55; 60]%Z)) = true /\
  ok_and default_case (fun e => vtype_eqb (e_vtype e) TInt && match e_step_type e with Relative => true | _ => false end && (e_step_size e =? qfrac 1 100) && (e_lb e =? qz 0) && (e_ub e =? qz 100000) &&
    same_list (f_grid rnd64 e) (map (fun i => qz (1000 * Z.of_nat i)) (seq 0 101))) = true.
Proof. split; vm_compute; reflexivity. Qed.

(** * C101.  The full property: with any relative step, the grid of an integer feature has the step ceil(step size * range).  False of the code:
      0.07 * 100 is 7.000000000000001 in floating-point arithmetic, so the step is 8 instead of 7. *)
Theorem C101_step_refuted : exists e, mk_element "age" [qz 0; qz 100] PNone (PType TInt) (PBool true) (PStr "relative") (PInt 0) (PFloat (Fin (qfrac 7 100))) = Ok e /\
  exact_grid e = Ok (np_arange (qz 0) (qz 107) (qz 7)) /\ f_grid rnd64 e = Ok (np_arange (qz 0) (qz 108) (qz 8)).
Proof. rewrite <- step07_def. destruct step_off as (e & E & _ & G). exists e. split; [exact E|exact G]. Qed.
Print Assumptions C101_step_refuted.
(** What holds: the grid is equidistant, with a whole step that is at most one off. *)
Theorem C101_step_partial : forall rnd e a b, rounding rnd -> e_vtype e = TInt -> e_step_type e = Relative -> e_lb e = qz a -> e_ub e = qz b -> (a < b)%Z -> (Z.abs a <= 2 ^ 49)%Z -> (Z.abs b <= 2 ^ 49)%Z ->
  0 < e_step_size e -> e_step_size e <= 1 ->
  exists s s', (0 < s)%Z /\ (0 < s')%Z /\ (Z.abs (s - s') <= 1)%Z /\ f_grid rnd e = Ok (np_arange (qz a) (qz (b + s)) (qz s)) /\ exact_grid e = Ok (np_arange (qz a) (qz (b + s')) (qz s')).
Proof. intros rnd e a b HR. exact (relative_grid rnd HR e a b). Qed.
Print Assumptions C101_step_partial.
Example C101_nonvacuous : ok_and step07 (fun e => vtype_eqb (e_vtype e) TInt && match e_step_type e with Relative => true | _ => false end && (e_lb e =? qz 0) && (e_ub e =? qz 100) && (0 <? e_step_size e) && (e_step_size e <=? 1)) = true.
Proof. vm_compute. reflexivity. Qed.

(** * C102.  The full property: with a relative step of 1/n the grid of a real-valued feature ends at the upper bound.  False of the code:
      between 0 and 21 with the default step, np.arange adds a point 21.21 beyond the upper bound. *)
Theorem C102_bounds_refuted : exists e g g', mk_element "score" [qz 0; qfrac 21 2; qz 21] PNone PNone (PBool true) (PStr "relative") (PInt 0) (PFloat (Fin (qfrac 1 100))) = Ok e /\
  e_vtype e = TFloat /\ exact_grid e = Ok g /\ f_grid rnd64 e = Ok g' /\ (forall v, In v g -> v <= e_ub e) /\ length g = 101%nat /\ length g' = 102%nat /\ exists v, In v g' /\ e_ub e < v.
Proof. rewrite <- real21_def. exact over_ub. Qed.
Print Assumptions C102_bounds_refuted.
(** What holds, if the step is not tiny against the bounds: the grid starts at the lower bound and increases, each point lies within a sixteenth
    of a step of its place, the last is less than two steps beyond the upper bound, and the upper bound is reached up to an eighth of a step.
    The step itself is accurate to four units in the last place. *)
Theorem C102_grid_partial : forall rnd e, rounding rnd -> e_vtype e <> TInt -> machine rnd (e_lb e) -> machine rnd (e_ub e) -> e_lb e <= e_ub e -> 0 <= e_step_size e ->
  let s := f_step rnd e in
  qabs (s - grid_step e) <= qz 4 * unit64 * grid_step e /\
  (0 < s -> qabs (e_lb e) <= qz (2 ^ 22) * s -> qabs (e_ub e) <= qz (2 ^ 22) * s ->
   exists g, f_grid rnd e = Ok g /\ hd_error g = Some (e_lb e) /\ increasing g /\
     (forall i v, nth_error g i = Some v -> qabs (v - (e_lb e + qz (Z.of_nat i) * s)) <= qfrac 1 16 * s) /\
     (forall v, In v g -> e_lb e <= v /\ v < e_ub e + qz 2 * s) /\
     (exists v, In v g /\ e_ub e - qfrac 1 8 * s <= v)).
Proof. intros rnd e HR Hv Ml Mu Hle H0 s. split; [now apply step_near|]. now apply real_grid. Qed.
Print Assumptions C102_grid_partial.
Example C102_nonvacuous : ok_and real21 (fun e => negb (vtype_eqb (e_vtype e) TInt) && (rnd64 (e_lb e) =? e_lb e) && (rnd64 (e_ub e) =? e_ub e) && (e_lb e <=? e_ub e) && (0 <=? e_step_size e) &&
  (0 <? f_step rnd64 e) && (qabs (e_lb e) <=? qz (2 ^ 22) * f_step rnd64 e) && (qabs (e_ub e) <=? qz (2 ^ 22) * f_step rnd64 e)) = true.
Proof. vm_compute. reflexivity. Qed.

(** * C103.  The full property: percentiles increase strictly along the grid, so that every move along it has a positive cost.  False of the code:
      a density that is tiny against the sum of those before it is absorbed, and two grid points get the same percentile. *)
Theorem C103_strict_refuted : exists g pdf x x', increasing g /\ length pdf = length g /\ Forall (machine rnd64) pdf /\ Forall (fun p => 0 < p) pdf /\
  In x g /\ In x' g /\ x < x' /\ f_percentile rnd64 g pdf x = f_percentile rnd64 g pdf x'.
Proof. exact absorbed. Qed.
Print Assumptions C103_strict_refuted.
(** Nor do percentiles increase between grid points: a value between two of them can have a higher percentile than the upper one. *)
Theorem C103_between_refuted : exists g pdf x0 x x', increasing g /\ length pdf = length g /\ Forall (machine rnd64) pdf /\ Forall (fun p => 0 < p) pdf /\
  machine rnd64 x /\ In x0 g /\ In x' g /\ x0 < x /\ x < x' /\ f_percentile rnd64 g pdf x' < f_percentile rnd64 g pdf x.
Proof. exact reversed. Qed.
Print Assumptions C103_between_refuted.
(** What holds: at the grid points, percentiles are positive, at most 1, and never decrease. *)
Theorem C103_percentiles_partial : forall rnd g pdf, rounding rnd -> increasing g -> length pdf = length g -> Forall (machine rnd) pdf -> Forall (fun p => 0 <= p) pdf ->
  (forall x, In x g -> 0 < f_percentile rnd g pdf x /\ f_percentile rnd g pdf x <= 1) /\
  (forall x x', In x g -> In x' g -> x <= x' -> f_percentile rnd g pdf x <= f_percentile rnd g pdf x').
Proof. intros rnd g pdf HR. exact (f_percentile_grid rnd HR g pdf). Qed.
Print Assumptions C103_percentiles_partial.
(** Below the grid the percentile is 0.000001 and above it 0.999999, up to two units in the last place. *)
Theorem C103_outside : forall rnd g pdf x, rounding rnd -> g <> [] ->
  ((forall v, In v g -> x < v) -> qabs (f_percentile rnd g pdf x - qfrac 1 1000000) <= unit64 * qfrac 1 1000000) /\
  ((forall v, In v g -> v < x) -> qabs (f_percentile rnd g pdf x - qfrac 999999 1000000) <= qz 2 * unit64).
Proof. intros rnd g pdf x HR. exact (f_percentile_outside rnd HR g pdf x). Qed.
Print Assumptions C103_outside.
(** Between grid points the percentile never falls below that of a grid point below, and exceeds that of a grid point above by at most
    five units in the last place of 1. *)
Theorem C103_between_partial : forall rnd g pdf x v, rounding rnd -> increasing g -> length pdf = length g -> Forall (machine rnd) pdf -> Forall (fun p => 0 <= p) pdf ->
  (exists lo hi, In lo g /\ In hi g /\ lo <= x /\ x <= hi) -> In v g ->
  (v <= x -> f_percentile rnd g pdf v <= f_percentile rnd g pdf x) /\ (x <= v -> f_percentile rnd g pdf x <= f_percentile rnd g pdf v + qz 5 * unit64).
Proof. intros rnd g pdf x v HR. exact (f_percentile_between rnd HR g pdf x v). Qed.
Print Assumptions C103_between_partial.
(** At the grid points the percentile is the cumulated density, rescaled by the two buffers of 0.000001, up to 3 (n + 2) units of roundoff. *)
Theorem C103_accurate_partial : forall rnd g pdf i x, rounding rnd -> increasing g -> length pdf = length g -> Forall (machine rnd) pdf -> Forall (fun p => 0 <= p) pdf ->
  (Z.of_nat (length g) <= 2 ^ 50)%Z -> nth_error g i = Some x ->
  qabs (f_percentile rnd g pdf x - (qfrac 1 1000000 + qsum (firstn (S i) pdf)) / (qsum pdf + qfrac 1 1000000 + qfrac 1 1000000)) <= qz 3 * qz (Z.of_nat (length g + 2)) * unit64.
Proof. intros rnd g pdf i x HR. exact (f_percentile_accurate rnd HR g pdf i x). Qed.
Print Assumptions C103_accurate_partial.
Example C103_nonvacuous : increasing [qz 0; qz 1; qz 3] /\ Forall (machine rnd64) [qfrac 1 4; qfrac 1 2; qfrac 1 8] /\ Forall (fun p => 0 <= p) [qfrac 1 4; qfrac 1 2; qfrac 1 8] /\
  f_percentile rnd64 [qz 0; qz 1; qz 3] [qfrac 1 4; qfrac 1 2; qfrac 1 8] (qz 0) < f_percentile rnd64 [qz 0; qz 1; qz 3] [qfrac 1 4; qfrac 1 2; qfrac 1 8] (qz 3).
Proof.
  split; [|split; [|split]].
  - apply next_increasing. intros i v v' H1 H2. destruct i as [|[|[|i]]]; try discriminate H2; cbn in H1, H2; try (injection H1 as <-; injection H2 as <-; apply qlt_iff; reflexivity).
  - repeat constructor; apply Qc_is_canon; vm_compute; reflexivity.
  - repeat constructor; apply qle_iff; reflexivity.
  - apply qlt_iff. vm_compute. reflexivity.
Qed.

(** * C104.  The full property: the reported prediction is the sign of the exact score.  False of the code: next to the decision boundary,
      2^53 + 1 - 2^53 is computed as 0. *)
Theorem C104_prediction_refuted : exists w t x s, Forall (machine rnd64) w /\ machine rnd64 t /\ Forall (machine rnd64) x /\ float_score rnd64 w t x s /\ prediction w t x = 1%Z /\ qsign s = 0%Z.
Proof. exact lost_score. Qed.
Print Assumptions C104_prediction_refuted.
(** What holds, in whatever order the terms are added up and whether or not multiply-adds are fused: the score is off by at most its slack,
    and the prediction is right if the exact score is further than that from the boundary.  The slack is below 2 (n + 1) 2^-53 times the sum
    of the magnitudes of the n products and the intercept. *)
Theorem C104_prediction_partial : forall rnd w t x s, rounding rnd -> float_score rnd w t x s ->
  qabs (s - score w t x) <= score_slack w t x /\ (score_slack w t x < qabs (score w t x) -> qsign s = prediction w t x).
Proof. intros rnd w t x s HR H. split; [now apply (score_err rnd HR)|now apply (prediction_far rnd HR)]. Qed.
Print Assumptions C104_prediction_partial.
Theorem C104_slack_partial : forall w t x, (Z.of_nat (length w) < 2 ^ 52)%Z ->
  score_slack w t x <= qz 2 * qz (Z.of_nat (length w + 1)) * unit64 * (dot (map qabs w) (map qabs x) + qabs t).
Proof. exact slack_small. Qed.
Print Assumptions C104_slack_partial.
Example C104_nonvacuous : exists s, float_score rnd64 [qfrac 1 10; qfrac (-1) 5] (qfrac 1 20) [qz 3; qz 1] s /\ score_slack [qfrac 1 10; qfrac (-1) 5] (qfrac 1 20) [qz 3; qz 1] < qabs (score [qfrac 1 10; qfrac (-1) 5] (qfrac 1 20) [qz 3; qz 1]).
Proof.
  eexists. split; [|apply qlt_iff; vm_compute; reflexivity]. eexists ([_] ++ [_]), _. split; [|split; [right; constructor; constructor|reflexivity]]. cbn [app]. constructor; [left; reflexivity|]. constructor; [left; reflexivity|constructor].
Qed.
