(** A sound solver that always finishes exists (classically), so the hypotheses about solvers can be met.
    This is the only file that uses axioms: Coq.Logic.ClassicalEpsilon. *)
From Coq Require Import ClassicalEpsilon.
From Verif Require Import Model_mip.
Lemma ideal_solver_exists : exists sv, sound_solver sv /\ finishing_solver sv.
Proof.
  set (good := fun m o => conclusive o /\ valid_outcome m o).
  exists (fun _ m => match excluded_middle_informative (exists o, good m o) with
                     | left H => proj1_sig (constructive_indefinite_description _ H)
                     | right _ => SUnknown end). split.
  - intros n m. destruct (excluded_middle_informative (exists o, good m o)) as [H|H]; [|exact I].
    destruct (constructive_indefinite_description _ H) as [o [H1 H2]]. exact H2.
  - intros n m Hex. destruct (excluded_middle_informative (exists o, good m o)) as [H|H]; [|contradiction].
    destruct (constructive_indefinite_description _ H) as [o [H1 H2]]. exact H1.
Qed.
