(** Specification vocabulary for comparing the answers to two related questions. *)
From Verif Require Export Spec_info.
#[local] Open Scope list_scope.
#[local] Open Scope Qc_scope.

(** [d'] is at least as good an answer as [d]: recourse is not lost, the optimal value reported as upperbound does not
    rise, and neither does the cost when the cost is what is optimised (types 'total' and 'local'). *)
Definition no_worse (ct : cost_type) (d d' : info_dict) : Prop :=
  (d_feasible d = true -> d_feasible d' = true) /\ fle (d_upperbound d') (d_upperbound d) /\ (ct <> CMax -> fle (d_cost d') (d_cost d)).
(** The two answers alike on the verdict and on the optimal value. *)
Definition same_answer (ct : cost_type) (d d' : info_dict) : Prop :=
  d_feasible d' = d_feasible d /\ d_upperbound d' = d_upperbound d /\ (ct <> CMax -> d_cost d' = d_cost d).
(** Both builders answer, and the answers are related by [R]. *)
Definition answers_related (R : info_dict -> info_dict -> Prop) (sv sv' : solver) (b b' : builder) : Prop :=
  forall rp rp' t t', exists b1 d b1' d', fit_dict sv rp t b = Ok (b1, d) /\ fit_dict sv' rp' t' b' = Ok (b1', d') /\ R d d'.

(** Same action set, cost type and item limits. *)
Definition same_terms (b b' : builder) : Prop := bd_A b' = bd_A b /\ bd_cost b' = bd_cost b /\ bd_min b' = bd_min b /\ bd_max b' = bd_max b.
(** The classifier multiplied by [k]. *)
Definition rescaled (k : Qc) (b b' : builder) : Prop :=
  bd_w b' = map (Qcmult k) (bd_w b) /\ bd_t b' = k * bd_t b /\ same_terms b b'.
(** The opposite classifier and the opposite desired outcome. *)
Definition mirrored (b b' : builder) : Prop :=
  bd_w b' = map Qcopp (bd_w b) /\ bd_t b' = - bd_t b /\ bd_A b' = with_y (bd_A b) (- as_y (bd_A b)) /\
  bd_cost b' = bd_cost b /\ bd_min b' = bd_min b /\ bd_max b' = bd_max b.
(** The same question asked of a more lenient classifier. *)
Definition more_lenient (b b' : builder) : Prop :=
  bd_w b' = bd_w b /\ same_terms b b' /\ if (0 <? as_y (bd_A b))%Z then bd_t b <= bd_t b' else bd_t b' <= bd_t b.
(** The same question with wider item limits. *)
Definition wider_limits (b b' : builder) : Prop :=
  bd_w b' = bd_w b /\ bd_t b' = bd_t b /\ bd_A b' = bd_A b /\ bd_cost b' = bd_cost b /\ (bd_min b' <= bd_min b)%Z /\ (bd_max b <= bd_max b')%Z.
(** The same question, on any back end. *)
Definition same_question (b b' : builder) : Prop := bd_w b' = bd_w b /\ bd_t b' = bd_t b /\ same_terms b b'.
(** Two calls fail alike, or both succeed with related results. *)
Definition alike {A B} (R : A -> B -> Prop) (r : res A) (r' : res B) : Prop :=
  match r, r' with Ok a, Ok b => R a b | Err e, Err e' => e = e' | _, _ => False end.
