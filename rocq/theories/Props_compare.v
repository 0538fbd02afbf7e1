(** Theorems C89-C96: answers to related questions. *)
From Verif Require Import Spec_compare Proofs_concrete Proofs_compare Proofs_compare2 Proofs_compare3 Proofs_compare4 Proofs_compare5.
#[local] Open Scope list_scope.
#[local] Open Scope Qc_scope.

(** * C89: multiplying coefficients and intercept by the same positive number changes nothing. *)
Theorem C89_rescaling : forall E sv sv' k b b' x b0 b0', ok_env E -> sound_solver sv -> finishing_solver sv -> sound_solver sv' -> finishing_solver sv' ->
  assigned E sv b x b0 -> assigned E sv' b' x b0' -> 0 < k -> rescaled k b b' -> answers_related (same_answer (bd_cost b)) sv sv' b0 b0'.
Proof. exact scale_thm. Qed.
Print Assumptions C89_rescaling.
(** Creation with the rescaled classifier yields the rescaled builder... *)
Theorem C89_created : forall E kd kd' A a a' ct w t k, 0 < k -> parse_classifier_args a = Ok (w, t) -> parse_classifier_args a' = Ok (map (Qcmult k) w, k * t) ->
  alike (rescaled k) (mk_builder E kd A a ct None) (mk_builder E kd' A a' ct None).
Proof. exact create_scaled. Qed.
Print Assumptions C89_created.
(** ... and an individual is accepted by one iff by the other, as long as no coefficient is tiny. *)
Theorem C89_assigned : forall E b b' k x, 0 < k -> rescaled k b b' -> tiny_free (bd_w b) -> tiny_free (bd_w b') -> snd (set_x E b' x) = snd (set_x E b x).
Proof. exact assign_scaled. Qed.
Print Assumptions C89_assigned.
Example C89_case : exists b b' x b0 b0', (forall sv, assigned env0 sv b x b0) /\ (forall sv, assigned env0 sv b' x b0') /\ rescaled (qz 2) b b' /\ 0 < qz 2 /\ tiny_free (bd_w b) /\ tiny_free (bd_w b') /\
  bd_w b' <> bd_w b /\ bd_kind b <> bd_kind b' /\ forall sv, sound_solver sv -> finishing_solver sv -> exists b1 s, fit sv b0 = Ok (b1, Some s).
Proof. exact scaled_case. Qed.

(** * C90: asking for the opposite outcome of the opposite classifier changes nothing. *)
Theorem C90_mirrored : forall E sv sv' b b' x b0 b0', ok_env E -> sound_solver sv -> finishing_solver sv -> sound_solver sv' -> finishing_solver sv' ->
  assigned E sv b x b0 -> assigned E sv' b' x b0' -> mirrored b b' -> answers_related (same_answer (bd_cost b)) sv sv' b0 b0'.
Proof. exact mirror_thm. Qed.
Print Assumptions C90_mirrored.
Theorem C90_action_sets : forall X names custom dflt dst,
  alike (fun A A' => A' = with_y A (- as_y A)) (mk_action_set X names 1 custom dflt dst) (mk_action_set X names (-1) custom dflt dst).
Proof. exact aset_mirrored. Qed.
Print Assumptions C90_action_sets.
Theorem C90_created : forall E kd kd' A a a' ct w t, aset_reachable E A -> parse_classifier_args a = Ok (w, t) -> parse_classifier_args a' = Ok (map Qcopp w, - t) ->
  alike mirrored (mk_builder E kd A a ct None) (mk_builder E kd' (with_y A (- as_y A)) a' ct None).
Proof. exact create_mirrored. Qed.
Print Assumptions C90_created.
Theorem C90_assigned : forall E b b' x, mirrored b b' -> snd (set_x E b' x) = snd (set_x E b x).
Proof. exact assign_mirrored. Qed.
Print Assumptions C90_assigned.
Example C90_case : exists b b' x b0 b0', (forall sv, assigned env0 sv b x b0) /\ (forall sv, assigned env0 sv b' x b0') /\ mirrored b b' /\
  forall sv, sound_solver sv -> finishing_solver sv -> exists b1 s, fit sv b0 = Ok (b1, Some s).
Proof. exact mirrored_case. Qed.

(** * C91: a more lenient classifier never takes recourse away or makes it dearer. *)
Theorem C91_lenient : forall E sv sv' b b' x b0 b0', ok_env E -> sound_solver sv -> sound_solver sv' -> finishing_solver sv' ->
  assigned E sv b x b0 -> assigned E sv' b' x b0' -> more_lenient b b' -> answers_related (no_worse (bd_cost b)) sv sv' b0 b0'.
Proof. exact lenient_thm. Qed.
Print Assumptions C91_lenient.
Theorem C91_assigned : forall E b b' x, more_lenient b b' -> snd (set_x E b' x) = snd (set_x E b x).
Proof. intros E b b' x (H1 & (H2 & H3 & _) & _). exact (assign_relaxed E b b' x H1 H2 H3). Qed.
Print Assumptions C91_assigned.
Example C91_case : exists b b' x b0 b0', (forall sv, assigned env0 sv b x b0) /\ (forall sv, assigned env0 sv b' x b0') /\ more_lenient b b' /\
  forall sv, sound_solver sv -> finishing_solver sv -> (exists b1, fit sv b0 = Ok (b1, None)) /\ exists b1 s, fit sv b0' = Ok (b1, Some s).
Proof. exact lenient_case. Qed.

(** * C92: wider item limits never take recourse away or make it dearer. *)
Theorem C92_limits : forall E sv sv' b b' x b0 b0', ok_env E -> sound_solver sv -> sound_solver sv' -> finishing_solver sv' ->
  assigned E sv b x b0 -> assigned E sv' b' x b0' -> wider_limits b b' -> answers_related (no_worse (bd_cost b)) sv sv' b0 b0'.
Proof. exact limits_thm. Qed.
Print Assumptions C92_limits.
Theorem C92_assigned : forall E b b' x, wider_limits b b' -> snd (set_x E b' x) = snd (set_x E b x).
Proof. intros E b b' x (H1 & _ & H2 & H3 & _). exact (assign_relaxed E b b' x H1 H2 H3). Qed.
Print Assumptions C92_assigned.
Example C92_case : exists b b' x b0 b0', (forall sv, assigned env0 sv b x b0) /\ (forall sv, assigned env0 sv b' x b0') /\ wider_limits b b' /\
  forall sv, sound_solver sv -> finishing_solver sv -> (exists b1, fit sv b0 = Ok (b1, None)) /\ exists b1 s, fit sv b0' = Ok (b1, Some s).
Proof. exact limits_case. Qed.

(** * C93: verdict and optimal value do not depend on the solver or the history of the builder. *)
Theorem C93_any_solver : forall E sv sv' b b' x b0 b0', ok_env E -> sound_solver sv -> finishing_solver sv -> sound_solver sv' -> finishing_solver sv' ->
  assigned E sv b x b0 -> assigned E sv' b' x b0' -> same_question b b' -> answers_related (same_answer (bd_cost b)) sv sv' b0 b0'.
Proof. exact solver_thm. Qed.
Print Assumptions C93_any_solver.
Theorem C93_assigned : forall E b b' x, same_question b b' -> snd (set_x E b' x) = snd (set_x E b x).
Proof. intros E b b' x (H1 & _ & H2 & H3 & _). exact (assign_relaxed E b b' x H1 H2 H3). Qed.
Print Assumptions C93_assigned.
Example C93_case : exists b x b0, (forall sv, assigned env0 sv b x b0) /\ same_question b b.
Proof. destruct resume_case as (b & x & b0 & H & _). exists b, x, b0. split; [exact H|]. repeat split. Qed.

(** * C94: an enumeration can be interrupted and resumed. *)
Theorem C94_resume : forall E sv b x b0 l b1 n f1 et b2 l1 f2 total b3 l2, ok_env E -> sound_solver sv -> finishing_solver sv ->
  assigned E sv b x b0 -> enumeration sv b0 l b1 ->
  populate sv f1 (Some n) et b1 = Some (Ok (b2, l1)) -> populate sv f2 total et b2 = Some (Ok (b3, l2)) ->
  exists fuel b4, populate sv fuel (option_map (Nat.add n) total) et b1 = Some (Ok (b4, l1 ++ l2)).
Proof. exact resume_thm. Qed.
Print Assumptions C94_resume.
Example C94_case : exists b x b0, (forall sv, assigned env0 sv b x b0) /\ n_actionable_features (bd_A b) = 2%nat /\
  forall sv, sound_solver sv -> finishing_solver sv -> exists f1 b1 l1 f2 b2 l2, populate sv f1 (Some 1%nat) DistinctSubsets b0 = Some (Ok (b1, l1)) /\ populate sv f2 None DistinctSubsets b1 = Some (Ok (b2, l2)) /\ length l1 = 1%nat.
Proof. exact resume_case. Qed.

(** * C95: a mutually exclusive enumeration changes each actionable feature at most once, so it is short. *)
Theorem C95_each_feature_once : forall E sv b x b0 l b1, ok_env E -> sound_solver sv -> assigned E sv b x b0 -> enumeration sv b0 l b1 ->
  Forall (fun p => fst p = MutuallyExclusive) l -> (list_sum (map (fun p => n_changed (s_actions (snd p))) l) <= n_actionable_features (bd_A b))%nat.
Proof. exact exclusive_thm. Qed.
Print Assumptions C95_each_feature_once.
Theorem C95_short : forall E sv b x b0 fuel total, ok_env E -> sound_solver sv -> assigned E sv b x b0 -> total <> Some 0%nat -> (n_actionable_features (bd_A b) < fuel)%nat ->
  exists b1 l, populate sv fuel total MutuallyExclusive b0 = Some (Ok (b1, l)) /\ (length l <= n_actionable_features (bd_A b))%nat.
Proof. exact exclusive_ends. Qed.
Print Assumptions C95_short.
Example C95_case : exists b x b0, (forall sv, assigned env0 sv b x b0) /\ n_actionable_features (bd_A b) = 2%nat.
Proof. destruct resume_case as (b & x & b0 & H & K & _). eauto. Qed.

(** * C96: the rows of the data table may come in any order, and a feature depends on its own column only. *)
Theorem C96_row_order : forall X X' names y custom dflt dst, Permutation X X' -> mk_action_set X' names y custom dflt dst = mk_action_set X names y custom dflt dst.
Proof. exact rows_thm. Qed.
Print Assumptions C96_row_order.
Theorem C96_own_column : forall X X' names names' y y' custom dflt dst A A' j j' n e e',
  mk_action_set X names y custom dflt dst = Ok A -> mk_action_set X' names' y' custom dflt dst = Ok A' ->
  nth_error names j = Some n -> nth_error names' j' = Some n -> Permutation (Model_actionset.column X j) (Model_actionset.column X' j') ->
  nth_error (as_elems A) j = Some e -> nth_error (as_elems A') j' = Some e' -> e' = e.
Proof. exact own_column. Qed.
Print Assumptions C96_own_column.
Example C96_case : Permutation [[qz 0; qz 1]; [qz 2; qz 3]] [[qz 2; qz 3]; [qz 0; qz 1]] /\ [[qz 0; qz 1]; [qz 2; qz 3]] <> [[qz 2; qz 3]; [qz 0; qz 1]] /\
  match mk_action_set [[qz 0; qz 1]; [qz 2; qz 3]] ["a"%string; "b"%string] 1 [] default_bounds default_step_type with Ok A => length (as_elems A) = 2%nat | Err _ => False end.
Proof. split; [apply perm_swap|]. split; [intro Q; injection Q as Q; discriminate Q|]. vm_compute. reflexivity. Qed.
