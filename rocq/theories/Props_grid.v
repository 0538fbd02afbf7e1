(** Property theorems for ActionSet.feasible_grid: C128.  Vocabulary: Spec_grid.v.  [permitted e xj v]: the value v is on
    the grid of an actionable feature, not against its step_direction, or is the current value xj; [improving e xj v]: not
    against the direction that helps (before alignment: anything); [constrained_at A j]: column j is under a constraint.
    The three flags are those of the call; a result entry is (name, (values, percentiles)), and without return_percentiles
    the second list is empty. *)
From Verif Require Import Spec_grid Proofs_actionset Proofs_concrete Proofs_scen Proofs_scen2 Proofs_constrained Proofs_grid.
#[local] Open Scope string_scope.
#[local] Open Scope list_scope.
#[local] Open Scope Qc_scope.

(** * C128 *)
(** Which features are listed, once each. *)
Theorem C128_features : forall E A x return_actions return_percentiles return_compatible g, ok_env E -> aset_reachable E A ->
  feasible_grid E A x return_actions return_percentiles return_compatible = Ok g ->
  NoDup (map fst g) /\ forall n, In n (map fst g) <-> exists j e xj, feature A x j n e xj /\ listed return_compatible A j e.
Proof. intros E A x ra rp rc g HE HA. exact (grid_features E A x ra rp rc HE (reachable_wf E A HA) g). Qed.
Print Assumptions C128_features.
(** Which values are listed for a feature: all that are permitted and, unless the feature is under a constraint, not against
    the direction that helps; in increasing order; as differences from the current value if actions are asked for; each with
    its percentile if those are asked for. *)
Theorem C128_values : forall E A x return_actions return_percentiles return_compatible g j n e xj vals ps, ok_env E -> aset_reachable E A ->
  feasible_grid E A x return_actions return_percentiles return_compatible = Ok g ->
  feature A x j n e xj -> representable e xj -> In (n, (vals, ps)) g ->
  exists news, vals = (if return_actions then map (fun v => v - xj) news else news) /\ StronglySorted Qclt news /\
    (forall v, In v news <-> permitted e xj v /\ (constrained_at A j \/ improving e xj v)) /\
    (if return_percentiles then Forall2 (fun v p => percentile E e v = Ok p) news ps else ps = []).
Proof. intros E A x ra rp rc g j n e xj vals ps HE HA. exact (grid_values E A x ra rp rc HE (reachable_wf E A HA) g j n e xj vals ps). Qed.
Print Assumptions C128_values.
(** When the call succeeds. *)
Theorem C128_answers : forall E A x return_actions return_percentiles return_compatible, ok_env E -> aset_reachable E A ->
  length x = as_len A -> (return_actions = true -> all_aligned A) -> (return_percentiles = true -> answers E A) ->
  exists g, feasible_grid E A x return_actions return_percentiles return_compatible = Ok g.
Proof. intros E A x ra rp rc HE HA. exact (grid_succeeds E A x ra rp rc HE (reachable_wf E A HA)). Qed.
Print Assumptions C128_answers.
(** When it raises: a point of the wrong dimension; actions asked for before alignment. *)
Theorem C128_dimension : forall E A x return_actions return_percentiles return_compatible,
  length x <> as_len A -> feasible_grid E A x return_actions return_percentiles return_compatible = Err AssertionError.
Proof. exact grid_dimension. Qed.
Print Assumptions C128_dimension.
Theorem C128_unaligned : forall E A x return_actions return_percentiles return_compatible, ok_env E -> aset_reachable E A ->
  return_actions = true -> ~ all_aligned A -> exists err, feasible_grid E A x return_actions return_percentiles return_compatible = Err err.
Proof. intros E A x ra rp rc HE HA. exact (grid_unaligned E A x ra rp rc HE (reachable_wf E A HA)). Qed.
Print Assumptions C128_unaligned.
(** Concrete: three 0/1 features, a constraint on two of them.  Before alignment values are listed for all three and actions
    are refused; after it, for the individual (1, 0, 0) and coefficients 1, 2, 0, both values are listed for the constrained
    features, and the third feature is listed only if incompatible features are asked for. *)
Definition grid_is (r : res (dict gridentry)) (l : list (string * list Qc)) : bool :=
  ok_and r (fun g => forallb2 (fun p q => String.eqb (fst p) (fst q) && forallb2 qeq (fst (snd p)) (snd q)) g l).
Example C128_nonvacuous : exists A A', aset_reachable env0 A /\ aset_reachable env0 A' /\ ~ all_aligned A /\ constrained_at A' 0 /\
  grid_is (feasible_grid env0 A x100 false true true) [("a", [z 0; z 1]); ("b", [z 0; z 1]); ("c", [z 0; z 1])] = true /\
  feasible_grid env0 A x100 true true true = Err AssertionError /\
  grid_is (feasible_grid env0 A' x100 true true true) [("a", [- z 1; z 0]); ("b", [z 0; z 1])] = true /\
  grid_is (feasible_grid env0 A' x100 true false false) [("a", [- z 1; z 0]); ("b", [z 0; z 1]); ("c", [z 0; z 1])] = true.
Proof.
  pose (c := mk env0 tab3 ["a"; "b"; "c"] 1 [OAdd ["a"; "b"] (z 0) (z 1) (Some "one")] PyMIP w121 0 CTotal x100).
  pose (c' := mk env0 tab3 ["a"; "b"; "c"] 1 [OAdd ["a"; "b"] (z 0) (z 1) (Some "one"); OAlign (sc_args [z 1; z 2; z 0] 0)] PyMIP w121 0 CTotal x100).
  assert (T : ok_and (sc_aset c) (fun A => existsb (fun e => negb (e_aligned e)) (firstn 1 (as_elems A)) &&
     grid_is (feasible_grid env0 A x100 false true true) [("a", [z 0; z 1]); ("b", [z 0; z 1]); ("c", [z 0; z 1])] &&
     match feasible_grid env0 A x100 true true true with Err AssertionError => true | _ => false end) = true) by (vm_compute; reflexivity).
  assert (T' : ok_and (sc_aset c') (fun A' => constrainedb A' 0 && grid_is (feasible_grid env0 A' x100 true true true) [("a", [- z 1; z 0]); ("b", [z 0; z 1])] &&
     grid_is (feasible_grid env0 A' x100 true false false) [("a", [- z 1; z 0]); ("b", [z 0; z 1]); ("c", [z 0; z 1])]) = true) by (vm_compute; reflexivity).
  apply ok_and_true in T, T'. destruct T as (A & HA & T). destruct T' as (A' & HA' & T'). do 2 (apply andb_true_iff in T; destruct T as [T ?]). do 2 (apply andb_true_iff in T'; destruct T' as [T' ?]).
  exists A, A'. split; [exact (sc_aset_reach c A HA)|]. split; [exact (sc_aset_reach c' A' HA')|]. split; [|split; [now apply constrainedb_ok|]].
  - intro Q. apply existsb_exists in T. destruct T as (e & Hin & T). destruct (as_elems A) as [|e0 es] eqn:EA; [destruct Hin|]. cbn in Hin. destruct Hin as [->|[]]. unfold e_aligned in T. specialize (Q 0%nat e). rewrite EA in Q. specialize (Q eq_refl). destruct (e_flip e); [discriminate T|now apply Q].
  - split; [assumption|]. split; [|split; assumption]. destruct (feasible_grid env0 A x100 true true true) as [g|[]]; try discriminate; reflexivity.
Qed.
