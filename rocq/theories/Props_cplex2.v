(** Properties of the remaining CPLEX helper functions: C112-C115. *)
From Verif Require Import Proofs_num Spec_cplex2 Proofs_cplex2.
#[local] Open Scope string_scope.
#[local] Open Scope list_scope.
#[local] Open Scope Qc_scope.

(** * C112.  get_stats_cpx reports each of its two groups of statistics completely or not at all, says which, and does
      not raise CplexError. *)
Theorem C112_blocks : forall q i, get_stats_cpx q = Ok i ->
  (st_has_mipstats i = true ->
     q_status q = Ok (st_status i) /\ (exists k, q_code q = Ok k /\ st_code i = Some k) /\ q_iterations q = Ok (st_iterations i) /\
     q_processed q = Ok (st_processed i) /\ q_remaining q = Ok (st_remaining i)) /\
  (st_has_mipstats i = false ->
     (refused (q_status q) \/ refused (q_code q) \/ refused (q_iterations q) \/ refused (q_processed q) \/ refused (q_remaining q)) /\
     st_status i = "no solution exists" /\ st_code i = None /\ st_iterations i = 0%Z /\ st_processed i = 0%Z /\ st_remaining i = 0%Z) /\
  (st_has_solution i = true ->
     (exists v, q_values q = Ok v /\ st_values i = Some v) /\ q_objective q = Ok (st_objval i) /\ q_cutoff q = Ok (st_upper i) /\
     q_best q = Ok (st_lower i) /\ q_gap q = Ok (st_gap i)) /\
  (st_has_solution i = false ->
     (refused (q_values q) \/ refused (q_objective q) \/ refused (q_cutoff q) \/ refused (q_best q) \/ refused (q_gap q)) /\
     st_values i = None /\ st_objval i = NaN /\ st_upper i = NaN /\ st_lower i = NaN /\ st_gap i = NaN).
Proof. exact stats_spec. Qed.
Print Assumptions C112_blocks.
Theorem C112_succeeds : forall q, usual q -> exists i, get_stats_cpx q = Ok i.
Proof. intros q H. unfold usual in H. destruct H as (? & ? & ? & ? & ? & ? & ? & ? & ? & ?). now apply stats_total. Qed.
Print Assumptions C112_succeeds.
Theorem C112_no_cplex_error : forall q, get_stats_cpx q <> Err CplexError.
Proof. exact stats_never. Qed.
Print Assumptions C112_no_cplex_error.
(** An infeasible problem: progress information, but the values cannot be read. *)
Definition infeasible_run : queries :=
  {| q_status := Ok "integer infeasible"; q_code := Ok 103%Z; q_iterations := Ok 7%Z; q_processed := Ok 2%Z; q_remaining := Ok 0%Z;
     q_values := Err CplexError; q_objective := Err CplexError; q_cutoff := Ok (Fin 1); q_best := Err CplexError; q_gap := Err CplexError |}.
Example C112_nonvacuous : usual infeasible_run /\ exists i, get_stats_cpx infeasible_run = Ok i /\ st_has_mipstats i = true /\ st_has_solution i = false /\ st_upper i = NaN.
Proof. split; [unfold usual, answers_or_refuses; cbn; repeat split; eauto|eexists; repeat split]. Qed.

(** * C113.  set_mip_cutoff_values never costs optimality: if different objective values differ by at least the
      increment, then every solution a run may end with is optimal, and a run that ends without one shows that no solution
      has a value of at most objval.  Only the three parameters change; negative numbers and NaN are rejected. *)
Theorem C113_optimal : forall o i c c' (attains : Qc -> Prop), set_mip_cutoff_values o (Fin i) c = Ok c' ->
  (forall u v, attains u -> attains v -> u < v -> i <= v - u) ->
  (forall v, may_end_with c' attains v -> forall u, attains u -> v <= u) /\
  (may_end_without c' attains -> forall v, attains v -> ~ below o v).
Proof. exact cutoff_optimal. Qed.
Print Assumptions C113_optimal.
Theorem C113_parameters : forall o i c c', set_mip_cutoff_values o i c = Ok c' ->
  c_streams c' = c_streams c /\ c_vars c' = c_vars c /\
  forall p, ~ In p ["mip.tolerances.uppercutoff"; "mip.tolerances.objdifference"; "mip.tolerances.absmipgap"] -> c_param c' p = c_param c p.
Proof.
  intros o i c c' H. destruct (cutoff_spec o i c) as (HF & HT). destruct (fl_leb (Fin 0) o && fl_leb (Fin 0) i); [|rewrite (HF eq_refl) in H; discriminate H].
  destruct (HT eq_refl) as (c2 & H2 & H3 & H4 & _ & _ & _ & H5). rewrite H in H2. injection H2 as <-. auto.
Qed.
Print Assumptions C113_parameters.
Definition at_least_0 (f : fl) : Prop := f = PosInf \/ exists q, f = Fin q /\ 0 <= q.
Theorem C113_rejects : forall o i c,
  (at_least_0 o /\ at_least_0 i -> exists c', set_mip_cutoff_values o i c = Ok c') /\
  (~ (at_least_0 o /\ at_least_0 i) -> set_mip_cutoff_values o i c = Err AssertionError).
Proof.
  intros o i c. destruct (cutoff_spec o i c) as (HF & HT). unfold at_least_0. rewrite <- !leb_0. split; intro H.
  - destruct H as (H1 & H2). destruct HT as (c' & H' & _); [now rewrite H1, H2|eauto].
  - apply HF. destruct (fl_leb (Fin 0) o), (fl_leb (Fin 0) i); try reflexivity. exfalso. auto.
Qed.
Print Assumptions C113_rejects.
Example C113_nonvacuous : forall L, exists c', set_mip_cutoff_values (Fin (qz 5)) (Fin 1) (new_cplex L) = Ok c' /\
  let attains v := v = qz 2 \/ v = qz 4 \/ v = qz 7 in
  (forall u v, attains u -> attains v -> u < v -> 1 <= v - u) /\ may_end_with c' attains (qz 2) /\ ~ may_end_with c' attains (qz 4) /\ ~ may_end_without c' attains.
Proof.
  intro L. eexists. split; [reflexivity|]. cbv zeta.
  assert (A : qz 2 <= qz 5) by (apply qz_le; lia).
  split; [intros u v [->|[->| ->]] [->|[->| ->]] H; try (apply qle_iff; reflexivity); exfalso; apply qlt_iff in H; discriminate H|].
  split; [split; [auto|]; split; [exact A|]; intros u [->|[->| ->]] H; exfalso; apply qlt_iff in H; discriminate H|].
  split.
  - intros (_ & _ & H). destruct (H (qz 2)) as [HC|HC]; [auto|apply qz_lt; lia|apply qlt_iff in HC; discriminate HC|apply qle_iff in HC; discriminate HC].
  - intro H. apply (H (qz 2)); [auto|exact A].
Qed.

(** * C114.  add_mip_start_cpx adds one start at the end, in which variable number j has the j-th value, lists and arrays
      alike, with the effort level and name given (default: 1, none); solutions with more values than variables are
      rejected. *)
Theorem C114_start : forall a x e n,
  ((length (vec_list x) <= sa_vars a)%nat -> exists s, add_mip_start_cpx a x e n = Ok {| sa_vars := sa_vars a; sa_list := sa_list a ++ [s] |} /\
     (forall j v, start_value s j v <-> nth_error (vec_list x) j = Some v) /\ ms_effort s = match e with Some k => k | None => 1%Z end /\ ms_name s = n) /\
  ((sa_vars a < length (vec_list x))%nat -> add_mip_start_cpx a x e n = Err CplexError).
Proof. exact start_spec. Qed.
Print Assumptions C114_start.
Example C114_nonvacuous : (length (vec_list (VArr [1%Qc; 0%Qc])) <= sa_vars {| sa_vars := 3; sa_list := [] |})%nat.
Proof. cbn. lia. Qed.

(** * C115.  The full property: get_cpx_parameters returns the values that set_cpx_parameters has set.  False of the code:
      it raises AttributeError for every object. *)
Theorem C115_reads_back_refuted : forall L c, real_parameters L -> get_cpx_parameters L c = Err AttributeError.
Proof. exact parameters_raise. Qed.
Print Assumptions C115_reads_back_refuted.
Example C115_nonvacuous : real_parameters {| cl_paths := ["mip.display"; "randomseed"; "threads"; "timelimit"; "mip.limits.nodes"]; cl_default := fun _ => Fin 0; cl_max := fun _ => Fin 1 |}.
Proof. unfold real_parameters. cbn. repeat split; auto; intro H; repeat (destruct H as [H|H]; [discriminate H|]); exact H. Qed.
(** Proved: should the call ever return (with a CPLEX that also knows threads.set, mip.timelimit and parameters.emphasis.numerical), these entries are the values in force. *)
Theorem C115_values_partial : forall L c d, get_cpx_parameters L c = Ok d ->
  (forall k p, In (k, p) told -> dget k d = Some (PFloat (c_param c p))) /\ dget "display_cplex_progress" d = Some (PBool (fl_ltb (Fin 0) (c_param c "mip.display"))).
Proof. intros L c d H. exact (conj (parameters_told L c d H) (parameters_display L c d H)). Qed.
Print Assumptions C115_values_partial.
Definition generous : cpxlib := {| cl_paths := map snd reading_table; cl_default := fun _ => Fin 0; cl_max := fun _ => Fin 1 |}.
Example C115_values_nonvacuous : exists d, get_cpx_parameters generous (c_set "mip.limits.nodes" (Fin 1) (new_cplex generous)) = Ok d /\ dget "node_limit" d = Some (PFloat (Fin 1)) /\ dget "randomseed" d = Some (PFloat (Fin 0)).
Proof. eexists. split; [vm_compute; reflexivity|]. split; vm_compute; reflexivity. Qed.
