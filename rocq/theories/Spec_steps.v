(** Specification vocabulary for C131: carrying out an action in steps. *)
From Verif Require Export Spec_minimal Spec_audit.
#[local] Open Scope list_scope.
#[local] Open Scope Qc_scope.

(** When every feature's change costs what [cs] says, the changes that [done] makes (its non-zero entries) cost [p] in sum. *)
Definition paid (done cs : list Qc) (p : Qc) : Prop := p = qsum (map (fun q => if fst q =? 0 then 0 else snd q) (combine done cs)).
