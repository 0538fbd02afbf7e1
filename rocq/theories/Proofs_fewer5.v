(** C137: acceptance, a case. *)
From Verif Require Import Proofs_props_element Proofs_props_actionset Spec_fewer Spec_settable Proofs_actionset Proofs_session Proofs_builder Proofs_builder2 Proofs_builder8 Proofs_assign3 Proofs_columns Proofs_columns3 Proofs_columns4 Proofs_concrete Proofs_scen Proofs_scen2 Proofs_compare4 Proofs_constrained Proofs_fewer Proofs_fewer3.
#[local] Open Scope string_scope.
#[local] Open Scope list_scope.
#[local] Open Scope Qc_scope.

Definition accept_pre (b b' : builder) (x x' : list Qc) : bool :=
  narrowedb [0; 1]%nat b x b' x' && unconstrainedb (bd_A b) && unconstrainedb (bd_A b') && flipsb (bd_A b) (bd_w b) && answers0b (bd_A b) && strictb env0 (bd_A b) x && resolvableb (bd_A b) x.
Lemma accepted_case k k' ct : exists b b' b0, (forall sv, assigned env0 sv b x012 b0) /\ (forall sv, builder_reachable env0 sv b') /\ narrowed [0; 1]%nat b x012 b' [z 0; z 1] /\
  unconstrained (bd_A b) /\ unconstrained (bd_A b') /\ flips_match (bd_A b) (bd_w b) /\ answers env0 (bd_A b) /\ regular env0 (bd_A b) x012 /\ bd_kind b = k /\ bd_kind b' = k' /\ bd_cost b = ct.
Proof.
  destruct (pairb_ok (sc2d k ct) (sc2c k' ct) (fun b b0 b' b0' => accept_pre b b' x012 [z 0; z 1] && match bd_kind b, k with PyMIP, PyMIP | CPX, CPX => true | _, _ => false end && match bd_kind b', k' with PyMIP, PyMIP | CPX, CPX => true | _, _ => false end && match bd_cost b, ct with CTotal, CTotal | CLocal, CLocal | CMax, CMax => true | _, _ => false end)) as (b & b0 & b' & b0' & H & H' & HT); [destruct k, k', ct; vm_compute; reflexivity|].
  unfold accept_pre in HT. do 9 (apply andb_true_iff in HT; destruct HT as [HT ?]).
  exists b, b', b0. split; [exact (sc_assigned _ _ _ H)|]. split; [intro sv; exact (proj1 (sc_assigned _ _ _ H' sv))|]. split; [apply narrowedb_ok; [now apply nodup_nat|exact HT]|].
  split; [now apply unconstrainedb_ok|]. split; [now apply unconstrainedb_ok|]. split; [now apply flipsb_ok|]. split; [now apply answers0b_ok|]. split; [split; [now apply strictb_ok|now apply resolvableb_ok]|].
  split; [destruct (bd_kind b), k; congruence|]. split; [destruct (bd_kind b'), k'; congruence|]. destruct (bd_cost b), ct; congruence.
Qed.
