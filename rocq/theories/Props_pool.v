(** Property theorems for flipsets created with a ready-made builder: C127.  Vocabulary: Model_pool.v (one builder b0, made
    from b by assigning the individual x, and any number of flipsets created with builder = b0; calls on the builder and on
    the flipsets in any order) and Spec_pool.v.
    [one_person b x]: the flipsets are for x and b's classifier; anything may be called on them except adding items by hand;
    the user may call fit and populate on the builder.  [rules_out et a a']: 'mutually_exclusive': a and a' change a common
    feature; 'distinct_subsets': they change the same features. *)
From Verif Require Import Spec_pool Proofs_concrete Proofs_scen Proofs_builder8 Proofs_pool2 Proofs_pool3.
#[local] Open Scope list_scope.
#[local] Open Scope Qc_scope.

(** * C127 *)
(** The English property is false: for every backend, cost type and enumeration type there is a case in which a flipset
    created and populated alone lists something, but two flipsets created with the same builder, populated one after the
    other, give the first the items and the second nothing. *)
Theorem C127_second_refuted : forall k ct et, exists b x b0,
  (forall sv, assigned env0 sv b x b0) /\ bd_kind b = k /\ bd_cost b = ct /\ denied (as_y (bd_A b)) (score (bd_w b) (bd_t b) x) /\ unconstrained (bd_A b) /\
  let new := PNew k (bd_A b) x (coef_args (bd_w b) (bd_t b)) in
  forall sv srt, sound_solver sv -> finishing_solver sv ->
  (exists f f' r, po_f (pool_run env0 sv srt {| po_b := b0; po_f := [] |} [new]) = [f] /\ f_populate env0 sv srt 5 None et ct f = Some (f', r) /\ f_items f' <> []) /\
  exists f g, po_f (pool_run env0 sv srt {| po_b := b0; po_f := [] |} [new; new; PUse 0 (FPopulate 5 None et ct); PUse 1 (FPopulate 5 None et ct)]) = [f; g] /\ f_items f <> [] /\ f_items g = [].
Proof. exact pool_case_second. Qed.
Print Assumptions C127_second_refuted.
(** What holds instead.  After any calls there is one enumeration by the builder, and each flipset holds the part of it
    that it asked for itself, in order. *)
Theorem C127_one_list_partial : forall E sv srt b x b0 ops, ok_env E -> sound_solver sv -> assigned E sv b x b0 -> denied (as_y (bd_A b)) (score (bd_w b) (bd_t b) x) ->
  Forall (one_person b x) ops ->
  exists l : list delivery, enumeration sv b0 (map snd l) (po_b (pool_run E sv srt {| po_b := b0; po_f := [] |} ops)) /\
    (forall i f, nth_error (po_f (pool_run E sv srt {| po_b := b0; po_f := [] |} ops)) i = Some f -> f_items f = map filed (share_of i l)) /\
    forall et, Forall (enumerates et) ops -> Forall (fun d => fst (snd d) = et) l.
Proof. exact pool_one_list. Qed.
Print Assumptions C127_one_list_partial.
(** Every item of every one of the flipsets is permitted and reaches the desired outcome. *)
Theorem C127_permitted_partial : forall E sv srt b x b0 ops, ok_env E -> sound_solver sv -> assigned E sv b x b0 -> denied (as_y (bd_A b)) (score (bd_w b) (bd_t b) x) ->
  Forall (one_person b x) ops -> forall i f v, nth_error (po_f (pool_run E sv srt {| po_b := b0; po_f := [] |} ops)) i = Some f -> In v (f_items f) ->
  permitted_action (bd_A b) x (fi_actions v) /\ on_side (as_y (bd_A b)) (score (bd_w b) (bd_t b) (vadd x (fi_actions v))).
Proof. exact pool_permitted. Qed.
Print Assumptions C127_permitted_partial.
(** Nothing is listed twice, neither in one flipset nor in two of them. *)
Theorem C127_distinct_partial : forall E sv srt b x b0 ops, ok_env E -> sound_solver sv -> assigned E sv b x b0 -> denied (as_y (bd_A b)) (score (bd_w b) (bd_t b) x) ->
  Forall (one_person b x) ops -> forall et i j f g p q v v',
  Forall (enumerates et) ops -> (bd_kind b = CPX -> et = DistinctSubsets -> switches_off E (bd_A b) x) ->
  nth_error (po_f (pool_run E sv srt {| po_b := b0; po_f := [] |} ops)) i = Some f -> nth_error (po_f (pool_run E sv srt {| po_b := b0; po_f := [] |} ops)) j = Some g ->
  nth_error (f_items f) p = Some v -> nth_error (f_items g) q = Some v' -> (i <> j \/ p <> q) ->
  ~ rules_out et (fi_actions v) (fi_actions v').
Proof. exact pool_distinct. Qed.
Print Assumptions C127_distinct_partial.
(** Once a flipset got fewer items than it asked for, all acceptable actions are ruled out by items of the flipsets taken
    together (the builder being used through them only) ... *)
Theorem C127_complete_partial : forall E sv srt b x b0 ops, ok_env E -> sound_solver sv -> assigned E sv b x b0 -> denied (as_y (bd_A b)) (score (bd_w b) (bd_t b) x) ->
  Forall (one_person b x) ops -> finishing_solver sv -> density E -> log_ok E (bd_cost b) ->
  orderly E (bd_A b) (bd_w b) x -> flips_match (bd_A b) (bd_w b) -> regular E (bd_A b) x -> (bd_kind b = CPX -> switches_off E (bd_A b) x) ->
  forall i f fuel total et ct f' a, Forall through_flipsets ops -> Forall (enumerates et) ops ->
  nth_error (po_f (pool_run E sv srt {| po_b := b0; po_f := [] |} ops)) i = Some f -> f_populate E sv srt fuel total et ct f = Some (f', Ok tt) ->
  total <> Some (length (f_items f') - length (f_items f))%nat -> acceptable b x a ->
  exists v, rules_out et (fi_actions v) a /\
    (In v (f_items f') \/ exists j g, j <> i /\ nth_error (po_f (pool_run E sv srt {| po_b := b0; po_f := [] |} ops)) j = Some g /\ In v (f_items g)).
Proof. exact pool_complete. Qed.
Print Assumptions C127_complete_partial.
(** ... and from then on populate adds nothing to any of them, whatever type or number is asked for. *)
Theorem C127_exhausted_partial : forall E sv srt b x b0 ops, ok_env E -> sound_solver sv -> assigned E sv b x b0 -> denied (as_y (bd_A b)) (score (bd_w b) (bd_t b) x) ->
  Forall (one_person b x) ops -> finishing_solver sv -> density E -> log_ok E (bd_cost b) ->
  orderly E (bd_A b) (bd_w b) x -> flips_match (bd_A b) (bd_w b) -> regular E (bd_A b) x -> (bd_kind b = CPX -> switches_off E (bd_A b) x) ->
  forall i f fuel total et ct f', nth_error (po_f (pool_run E sv srt {| po_b := b0; po_f := [] |} ops)) i = Some f -> f_populate E sv srt fuel total et ct f = Some (f', Ok tt) ->
  total <> Some (length (f_items f') - length (f_items f))%nat ->
  forall j g fuel' total' et' ct' g' r,
    nth_error (po_f (pool_step E sv srt (pool_run E sv srt {| po_b := b0; po_f := [] |} ops) (PUse i (FPopulate fuel total et ct)))) j = Some g ->
    f_populate E sv srt fuel' total' et' ct' g = Some (g', r) -> f_items g' = f_items g.
Proof. exact pool_exhausted. Qed.
Print Assumptions C127_exhausted_partial.
(** Hypotheses met, for every backend and cost type, with two flipsets and two different acceptable actions;
    [C127_second_refuted] runs the case. *)
Example C127_nonvacuous : forall k ct, exists b x b0, (forall sv, assigned env0 sv b x b0) /\ bd_kind b = k /\ bd_cost b = ct /\ denied (as_y (bd_A b)) (score (bd_w b) (bd_t b) x) /\ unconstrained (bd_A b) /\ flips_match (bd_A b) (bd_w b) /\ regular env0 (bd_A b) x /\ acceptable b x [z 2; z 0] /\ acceptable b x [z 1; z 1] /\
  Forall (one_person b x) (pair_ops b x) /\ as_len (bd_A b) = 2%nat.
Proof. exact pool_case. Qed.
