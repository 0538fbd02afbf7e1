(** Properties of audit reports: C56.  [report eqi eql set_of X out labels]: the lines printed, and how the call ends.
    [eqi], [eql]: == on index labels and outcomes; [set_of]: list(set(..)) of the runtime. *)
From Verif Require Import Spec_report Proofs_concrete Proofs_scen Proofs_audit4 Proofs_report.
#[local] Open Scope list_scope.
#[local] Open Scope Qc_scope.

(** * C56.  The full property: two correct counts for every outcome group.  False of the code:
      the number of individuals certified to have no recourse is printed as 0, whatever it is. *)
Theorem C56_no_recourse_count_refuted : exists A b, aset_reachable env0 A /\ auditor_created env0 PyMIP A [z 1; z 1] (- z 7) b /\
  forall sv, sound_solver sv -> finishing_solver sv -> exists b' out, audit env0 sv b (table_of X_case) 1 = (b', Ok out) /\
    count (fun p => snd p = Some (false, PosInf) /\ In (fst p, 1%Z) labels56) out 2 /\
    forall set_of, ok_set set_of -> exists g n, report Nat.eqb Z.eqb set_of X_case out labels56 = ([LSize 3; LDesired g n; LNoRecourse g 0], Err NameError).
Proof. exact c56_refuted. Qed.
Print Assumptions C56_no_recourse_count_refuted.
(** Every report raises after the first group, so that the other groups are missing. *)
Theorem C56_one_group_refuted : forall (I R L : Type) (eqi : I -> I -> bool) (eql : L -> L -> bool) set_of (X : list (I * R)) a (y : list (I * L)),
  ok_set set_of -> y <> [] ->
  exists g n1 n2 n3, In g (map snd y) /\ report eqi eql set_of X a y = ([LSize n1; LDesired g n2; LNoRecourse g n3], Err NameError).
Proof. intros I R L eqi eql set_of X a y Hs. exact (c56_shape eqi eql set_of Hs X a y). Qed.
Print Assumptions C56_one_group_refuted.
(** With an index label that occurs several times the number of rows is the product of its multiplicities. *)
Theorem C56_duplicate_index_refuted : forall (I R L : Type) (eqi : I -> I -> bool) (eql : L -> L -> bool) set_of (X : list (I * R)) a (y : list (I * L)) i, decides eqi ->
  (forall p, In p X -> fst p = i) -> (forall p, In p a -> fst p = i) -> (forall p, In p y -> fst p = i) ->
  exists ls o, report eqi eql set_of X a y = (LSize (length a * (length X * length y)) :: ls, o).
Proof. exact @c56_duplicates. Qed.
Print Assumptions C56_duplicate_index_refuted.
(** What holds, for every audit of a table with a unique index: the number of (labelled) individuals, and for the one
    group that is reported the number of those who already have the desired outcome. *)
Theorem C56_first_group_partial : forall (I L : Type) (eqi : I -> I -> bool) (eql : L -> L -> bool) set_of E sv k A w t b (X : list (I * list Qc)) y b' out (labels : list (I * L)),
  decides eqi -> decides eql -> ok_set set_of -> auditor_reachable E sv k A w t b -> audit E sv b (table_of X) y = (b', Ok out) ->
  NoDup (map fst X) -> NoDup (map fst labels) -> labels <> [] ->
  exists g n1 n2, report eqi eql set_of X out labels = ([LSize n1; LDesired g n2; LNoRecourse g 0], Err NameError) /\ In g (map snd labels) /\
    count (fun p => In (fst p) (map fst labels)) X n1 /\ count (fun p => In (fst p, g) labels /\ has_outcome y (score w t (snd p))) X n2.
Proof. exact @c56_audit. Qed.
Print Assumptions C56_first_group_partial.
Example C56_nonvacuous : decides Nat.eqb /\ decides Z.eqb /\ ok_set zset /\ NoDup (map fst X_case) /\ NoDup (map fst labels56) /\
  exists A b, aset_reachable env0 A /\ auditor_created env0 PyMIP A [z 1; z 1] (- z 7) b /\
  forall sv, sound_solver sv -> finishing_solver sv -> exists b' out, audit env0 sv b (table_of X_case) 1 = (b', Ok out).
Proof.
  split; [exact nat_decides|]. split; [exact z_decides|]. split; [exact zset_ok|]. split; [cbn; repeat constructor; cbn; intuition discriminate|]. split; [cbn; repeat constructor; cbn; intuition discriminate|].
  destruct c56_refuted as (A & b & HA & HC & H). exists A, b. split; [exact HA|]. split; [exact HC|]. intros sv H1 H2. destruct (H sv H1 H2) as (b' & out & HB & _). eauto.
Qed.
