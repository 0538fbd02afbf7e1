(** C116: classifiers trained on standardised data. *)
From Verif Require Import Spec_scaling Proofs_scaling.
Open Scope list_scope. Open Scope Qc_scope.

(** * C116: false of the code: a column that does not vary (var_ = 0, which StandardScaler divides by 1)
    gives coefficients that are not numbers, whatever the classifier; no builder can be created with them. *)
Theorem C116_scaling_undone_refuted : forall sq clf co t sc w0 b0, root sq ->
  undo_coefficient_scaling sq clf co t None = Ok (map Fin w0, Fin b0) ->
  length w0 = length (sc_var sc) -> length (sc_mean sc) = length (sc_var sc) -> In 0 (sc_var sc) ->
  exists w b, undo_coefficient_scaling sq clf co t (Some sc) = Ok (w, b) /\ (forall w' b', ~ usable w b w' b') /\
    parse_classifier_args {| k_clf := None; k_classifier := None; k_coefs := Some (AVec w); k_intercept := Some (ANum b); a_pos := [] |} = Err AssertionError.
Proof. intros sq clf co t sc w0 b0 R. exact (constant_column sq R clf co t sc w0 b0). Qed.
Print Assumptions C116_scaling_undone_refuted.

(** What holds: if every column varies, every raw data point has the score that the classifier gives to
    the standardised data point. *)
Theorem C116_scaling_undone_partial : forall sq clf co t sc w0 b0, root sq ->
  undo_coefficient_scaling sq clf co t None = Ok (map Fin w0, Fin b0) ->
  length w0 = length (sc_var sc) -> length (sc_mean sc) = length (sc_var sc) -> Forall (fun v => v <> 0) (sc_var sc) ->
  exists w b w' b', undo_coefficient_scaling sq clf co t (Some sc) = Ok (w, b) /\ usable w b w' b' /\ length w' = length w0 /\
    forall x z, standardised sq (sc_mean sc) (sc_var sc) x z -> score w' b' x = score w0 b0 z.
Proof. intros sq clf co t sc w0 b0 R. exact (scaled_same sq R clf co t sc w0 b0). Qed.
Print Assumptions C116_scaling_undone_partial.

(** Without a scaler the classifier is returned as it is, given as coefficients or as an object; an object
    together with an intercept is rejected. *)
Theorem C116_no_scaler : forall sq w t c,
  undo_coefficient_scaling sq c (Some w) t None = Ok (map Fin w, Fin t) /\
  (forall b, undo_coefficient_scaling sq (Some {| lm_coef := Some w; lm_intercept := Some b |}) None 0 None = Ok (map Fin w, Fin b)) /\
  undo_coefficient_scaling sq (Some {| lm_coef := Some w; lm_intercept := None |}) None 0 None = Ok (map Fin w, Fin 0) /\
  (forall m sc, t <> 0 -> undo_coefficient_scaling sq m None t sc = Err AssertionError) /\
  (forall sc, undo_coefficient_scaling sq None None t sc = Err AssertionError).
Proof. exact no_scaler. Qed.
Print Assumptions C116_no_scaler.

Example C116_nonvacuous : (* deviations 2 and 3, means 1 and 5 *)
  let sq := fun v => if v =? qz 4 then qz 2 else if v =? qz 9 then qz 3 else v in
  let sc := {| sc_mean := [1; qz 5]; sc_var := [qz 4; qz 9] |} in
  root sq /\ standardised sq (sc_mean sc) (sc_var sc) [qz 5; qz (-4)] [qz 2; qz (-3)] /\
  undo_coefficient_scaling sq None (Some [qz 4; qz 6]) (qz 7) (Some sc) = Ok ([Fin (qz 2); Fin (qz 2)], Fin (qz (-5))) /\
  score [qz 2; qz 2] (qz (-5)) [qz 5; qz (-4)] = score [qz 4; qz 6] (qz 7) [qz 2; qz (-3)].
Proof. exact scaling_case. Qed.
Example C116_refuted_nonvacuous : (* the second column does not vary *)
  ok_and (undo_coefficient_scaling (fun v => v) None (Some [1; 1]) (qz 7) (Some {| sc_mean := [0; qz 3]; sc_var := [1; 0] |}))
    (fun r => match r with ([Fin q; PosInf], NegInf) => q =? 1 | _ => false end) = true.
Proof. vm_compute. reflexivity. Qed.
