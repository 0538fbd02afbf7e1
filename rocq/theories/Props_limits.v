(** Properties of solver limits: C43. *)
From Verif Require Import Proofs_num Spec_limits Spec_flags Proofs_limits Proofs_limits2.
#[local] Open Scope list_scope.
#[local] Open Scope Qc_scope.

(** * C43.  The full property: a call without a limit runs without it, whatever limits were set before, and what the
      builder reports is what is in force.  False of the code: with Python-MIP a node limit stays in force for later
      calls on the same problem that have none, and the builder reports that there is none. *)
Theorem C43_stale_node_limit_refuted : forall L, exists ops s m, s = fold_left (limit_step PyMIP L) ops new_limits /\
  ops = [LAssign; LCall PNone (PInt 5) (PBool false); LCall PNone PNone (PBool false)] /\
  li_mip s = Some m /\ sl_nodes m = 5%Z /\ get_node_limit s = Ok (PFloat PosInf).
Proof. exact c43_stale_refuted. Qed.
Print Assumptions C43_stale_node_limit_refuted.
(** A node limit below 1 is accepted and reported but runs with 0 nodes. *)
Theorem C43_fractional_limit_refuted : forall k L, (0 < lib_max_nodes L)%Z -> exists s m, limits_reachable k L s /\ li_mip s = Some m /\
  get_node_limit s = Ok (PFloat (Fin (qfrac 1 2))) /\ sl_nodes m = 0%Z.
Proof. exact c43_fraction_refuted. Qed.
Print Assumptions C43_fractional_limit_refuted.
(** After a call rejected for its time limit the builder reports the display flag as its node limit. *)
Theorem C43_flag_as_limit_refuted : forall k L, exists s m, limits_reachable k L s /\ li_mip s = Some m /\ get_node_limit s = Ok (PBool false).
Proof. exact c43_flag_refuted. Qed.
Print Assumptions C43_flag_as_limit_refuted.
(** Before the first call no limit can be read. *)
Theorem C43_unreadable_refuted : forall k L ops, (forall o, In o ops -> o = LAssign) ->
  get_time_limit (fold_left (limit_step k L) ops new_limits) = Err AttributeError /\
  get_node_limit (fold_left (limit_step k L) ops new_limits) = Err AttributeError.
Proof. exact c43_unreported. Qed.
Print Assumptions C43_unreadable_refuted.
(** What holds.  Time limits, whatever happened before: no limit means none; a positive number is in force and
    reported (CPLEX: up to the largest limit it knows). *)
Theorem C43_time_limit_partial : forall k L s t n d s', limits_reachable k L s -> apply_limits k L s t n d = (s', Ok tt) ->
  exists m, li_mip s' = Some m /\
    (no_limit t -> runs_unlimited_time k L m /\ get_time_limit s' = Ok PosInf) /\
    (forall q, number t q -> 0 < q -> get_time_limit s' = Ok (Fin q) /\
       (sl_time m = Fin q \/ (k = CPX /\ lib_max_time L < q /\ runs_unlimited_time k L m))).
Proof. intros k L s t n d s' _. exact (c43_time k L s t n d s'). Qed.
Print Assumptions C43_time_limit_partial.
(** Node limits: a positive number is reported and its integer part is in force; CPLEX runs without limit when none is
    given, whatever happened before. *)
Theorem C43_node_limit_partial : forall k L s t n d s', limits_reachable k L s -> apply_limits k L s t n d = (s', Ok tt) ->
  exists m, li_mip s' = Some m /\
    (no_limit n -> get_node_limit s' = Ok (PFloat PosInf) /\ (k = CPX -> runs_unlimited_nodes k L m)) /\
    (forall q, number n q -> 0 < q -> get_node_limit s' = Ok (PFloat (Fin q)) /\
       sl_nodes m = match k with CPX => Z.min (qfloor q) (lib_max_nodes L) | PyMIP => qfloor q end).
Proof. intros k L s t n d s' _. exact (c43_nodes k L s t n d s'). Qed.
Print Assumptions C43_node_limit_partial.
(** Python-MIP runs without a node limit as long as none was given since the individual was assigned. *)
Theorem C43_python_mip_nodes_partial : forall L s ops t n d s', limits_reachable PyMIP L s -> Forall nodes_untouched ops -> no_limit n ->
  apply_limits PyMIP L (fold_left (limit_step PyMIP L) (LAssign :: ops) s) t n d = (s', Ok tt) ->
  exists m, li_mip s' = Some m /\ runs_unlimited_nodes PyMIP L m.
Proof. intros L s ops t n d s' _. exact (c43_nodes_assign L s ops t n d s'). Qed.
Print Assumptions C43_python_mip_nodes_partial.
(** Limits that are not positive are rejected, whatever happened before; all others are accepted. *)
Theorem C43_reject : forall k L s m t n d, limits_reachable k L s -> li_mip s = Some m -> (d = PNone \/ exists b, d = PBool b) ->
  not_a_limit t \/ not_a_limit n -> exists s', apply_limits k L s t n d = (s', Err ValueError).
Proof.
  intros k L s m t n d _ Hm Hd H. destruct (c43_reject k L s t n d H) as (s' & e & HA & He). exists s'. rewrite HA, (He m Hm Hd). reflexivity.
Qed.
Print Assumptions C43_reject.
Theorem C43_accept : forall k L s m t n d, limits_reachable k L s -> li_mip s = Some m -> (d = PNone \/ exists b, d = PBool b) ->
  ~ not_a_limit t -> ~ not_a_limit n -> exists s', apply_limits k L s t n d = (s', Ok tt).
Proof. intros k L s m t n d _ Hm Hd Ht Hn. exact (c43_accept k L s m t n d Hm Ht Hn Hd). Qed.
Print Assumptions C43_accept.
(** A non-trivial history that meets the hypotheses. *)
Example C43_nonvacuous : forall k L, exists s s', limits_reachable k L s /\ li_mip s <> None /\
  apply_limits k L s (PFloat (Fin (qfrac 5 2))) (PInt 7) (PBool true) = (s', Ok tt) /\ number (PInt 7) (qz 7) /\ get_node_limit s' = Ok (PFloat (Fin (qz 7))) /\ get_time_limit s' = Ok (Fin (qfrac 5 2)).
Proof.
  intros k L. eexists _, _. split; [exists [LAssign; call5; plain_call; LAssign]; reflexivity|]. split; [intro H; discriminate H|].
  split; [destruct k; reflexivity|]. split; [right; left; exists 7%Z; split; reflexivity|]. split; destruct k; reflexivity.
Qed.
(** A rejected call: the limit that was wrong keeps its value; but the display flag (the one given, or the one stored by
    default) is from then on reported as the node limit. *)
Theorem C43_rejected_partial : forall k L s m t n d b, limits_reachable k L s -> li_mip s = Some m -> in_force True (Some d) b ->
  not_a_limit t \/ not_a_limit n -> exists s', apply_limits k L s t n d = (s', Err ValueError) /\ get_node_limit s' = Ok (PBool b) /\
    (not_a_limit t -> get_time_limit s' = get_time_limit s /\ li_mip s' = Some m).
Proof. intros k L s m t n d b _. exact (rejected_call k L s m t n d b). Qed.
Print Assumptions C43_rejected_partial.
Example C43_rejected_nonvacuous : forall k L, let s := fold_left (limit_step k L) [LAssign; plain_call] new_limits in
  limits_reachable k L s /\ (exists m, li_mip s = Some m) /\ not_a_limit (PInt 0) /\ in_force True (Some (PBool true)) true.
Proof.
  intros k L s. split; [eexists; reflexivity|]. split; [destruct k; eexists; reflexivity|]. split; [|constructor].
  cbn. lia.
Qed.
