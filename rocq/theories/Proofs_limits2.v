(** C43: what a rejected call leaves behind. *)
From Verif Require Import Proofs_num Spec_limits Spec_flags Proofs_limits.
#[local] Open Scope Qc_scope.

Lemma rejected_call k L s m t n d b : li_mip s = Some m -> in_force True (Some d) b -> not_a_limit t \/ not_a_limit n ->
  exists s', apply_limits k L s t n d = (s', Err ValueError) /\ get_node_limit s' = Ok (PBool b) /\ (not_a_limit t -> get_time_limit s' = get_time_limit s /\ li_mip s' = Some m).
Proof.
  intros Hm HI H. assert (ED : set_display s d = (with_lnode s (Some (PBool b)), Ok tt)) by (unfold set_display; rewrite Hm; inversion HI; subst; reflexivity).
  unfold apply_limits. rewrite Hm, ED. unfold set_time_limit. destruct (parse_limit t) as [f|e] eqn:Pt.
  - destruct H as [H|H]; [apply bad_limit in H; congruence|]. cbn [li_mip with_lnode]. rewrite Hm. unfold set_node_limit. rewrite (bad_limit n H).
    eexists. split; [reflexivity|]. split; [reflexivity|]. intro K. apply bad_limit in K. congruence.
  - assert (e = ValueError) as ->. { destruct t as [| [] |z|[q| | |]|z|s0|l|l|l|ty]; cbn in Pt; try congruence; [destruct (0 <? z)%Z; congruence|destruct (0 <? q); congruence]. }
    eexists. split; [reflexivity|]. split; [reflexivity|]. intros _. split; [reflexivity|exact Hm].
Qed.
