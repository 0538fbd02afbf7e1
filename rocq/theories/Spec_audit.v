(** Specification vocabulary for audits. *)
From Verif Require Export Spec_recourse Model_audit.
#[local] Open Scope list_scope.
#[local] Open Scope Qc_scope.

(** The individual already has the outcome [y], the outcome being positive from score 0 on. *)
Definition has_outcome (y : Z) (s : Qc) : Prop := if (0 <? y)%Z then 0 <= s else s < 0.
(** An auditor created for action set [A] and classifier (w, t). *)
Definition auditor_created (E : env) (k : backend) (A : action_set) (w : list Qc) (t : Qc) (b : builder) : Prop :=
  exists args, parse_classifier_args args = Ok (w, t) /\ mk_auditor E k A args = Ok b.
(** What may happen to it afterwards: audits of arbitrary tables (whether they succeed or raise), and changes of
    the action set it shares with the caller. *)
Inductive auditor_op := AAudit (X : list (nat * list fl)) (y : Z) | AAset (o : aset_op).
Definition auditor_step (E : env) (sv : solver) (b : builder) (o : auditor_op) : builder :=
  match o with
  | AAudit X y => fst (audit E sv b X y)
  | AAset o => with_aset b (aset_step E (bd_A b) o)
  end.
Definition auditor_run (E : env) (sv : solver) (b : builder) (ops : list auditor_op) : builder :=
  fold_left (auditor_step E sv) ops b.
Definition auditor_reachable (E : env) (sv : solver) (k : backend) (A : action_set) (w : list Qc) (t : Qc) (b : builder) : Prop :=
  exists b0 ops, auditor_created E k A w t b0 /\ b = auditor_run E sv b0 ops.
(** ... with the action set left alone. *)
Definition only_audits (ops : list auditor_op) : Prop := forall o, ~ In (AAset o) ops.
Definition auditor_used (E : env) (sv : solver) (k : backend) (A : action_set) (w : list Qc) (t : Qc) (b : builder) : Prop :=
  exists b0 ops, auditor_created E k A w t b0 /\ only_audits ops /\ b = auditor_run E sv b0 ops.
(** A table of finite numbers, with index labels. *)
Definition table_of {I} (X : list (I * list Qc)) : list (I * list fl) := map (fun p => (fst p, map Fin (snd p))) X.
(** y_desired arguments that audit accepts. *)
Definition label (y : Z) : Prop := y = 1%Z \/ y = (-1)%Z \/ y = 0%Z.
