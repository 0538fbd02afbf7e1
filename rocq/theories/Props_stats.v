(** Theorem C111: the statistics in audit reports. *)
From Verif Require Import Spec_stats Proofs_concrete Proofs_scen Proofs_audit4 Proofs_report Proofs_stats Proofs_stats2.
#[local] Open Scope list_scope.
#[local] Open Scope Qc_scope.

(** * C111: the tables printed for a group describe its members with recourse.
      [costs]: the reported costs of those members, in the order of the table.  No line is printed if there are none.  [texts] is the text of
      the report (C56); it names the group. *)
Theorem C111_statistics : forall (I L : Type) (eqi : I -> I -> bool) (eql : L -> L -> bool) set_of E sv k A w t b (X : list (I * list Qc)) y b' out (labels : list (I * L)),
  decides eqi -> decides eql -> ok_set set_of -> auditor_reachable E sv k A w t b -> audit E sv b (table_of X) y = (b', Ok out) ->
  NoDup (map fst X) -> NoDup (map fst labels) -> labels <> [] ->
  exists g texts costs t1 t2, full_report eqi eql set_of X out labels = (map Text texts ++ [CostTable t1; CountTable t2], Err NameError) /\
    fst (report eqi eql set_of X out labels) = texts /\ In g (map snd labels) /\ (exists n1 n2 n3, texts = [LSize n1; LDesired g n2; LNoRecourse g n3]) /\
    collects (fun q c => In (fst q, g) labels /\ snd q = Some (true, Fin c)) out costs /\
    ((costs = [] /\ t1 = None /\ t2 = None) \/
     exists mean median, t1 = Some (Fin mean, Fin median, length costs) /\ t2 = Some (length costs) /\ average costs mean /\ is_median costs median).
Proof. exact @stats_audit. Qed.
Print Assumptions C111_statistics.
Example C111_case : exists A b, aset_reachable env0 A /\ auditor_created env0 PyMIP A [z 1; z 1] (- z 3) b /\ NoDup (map fst X_case) /\ NoDup (map fst labels56) /\ ok_set first_one /\
  forall sv, sound_solver sv -> finishing_solver sv -> exists b' out v m, audit env0 sv b (table_of X_case) 1 = (b', Ok out) /\ collects (fun q c => In (fst q, 1%Z) labels56 /\ snd q = Some (true, Fin c)) out [v; v] /\
    full_report Nat.eqb Z.eqb first_one X_case out labels56 = ([Text (LSize 3); Text (LDesired 1%Z 0); Text (LNoRecourse 1%Z 0); CostTable (Some (Fin m, Fin m, 2%nat)); CountTable (Some 2%nat)], Err NameError).
Proof. destruct stats_case as (A & b & H1 & H2 & H3 & H4 & H5). exists A, b. repeat (split; [assumption || exact first_one_ok|]). exact H5. Qed.
(** The same for any table with the audited index, such as an audit edited by the caller: an infinite cost or nan is left out of the mean, the median
    and the first count, but its row is in the second count; mean and median of nothing are nan. *)
Theorem C111_any_table : forall (I R L : Type) (eqi : I -> I -> bool) (eql : L -> L -> bool) set_of, decides eqi -> decides eql -> ok_set set_of ->
  forall (X : list (I * R)) (a : list (I * audit_entry)) (labels : list (I * L)), map fst a = map fst X -> NoDup (map fst X) -> NoDup (map fst labels) -> labels <> [] ->
  exists g texts raw costs t1 t2, full_report eqi eql set_of X a labels = (map Text texts ++ [CostTable t1; CountTable t2], Err NameError) /\ In g (map snd labels) /\
    (exists n1 n2 n3, texts = [LSize n1; LDesired g n2; LNoRecourse g n3]) /\
    collects (fun q c => In (fst q, g) labels /\ snd q = Some (true, c)) a raw /\ collects (fun c q => c = Fin q) raw costs /\
    ((raw = [] /\ t1 = None /\ t2 = None) \/
     (raw <> [] /\ t2 = Some (length raw) /\ exists mean median, t1 = Some (mean, median, length costs) /\
       ((costs = [] /\ mean = NaN /\ median = NaN) \/ exists m d, mean = Fin m /\ median = Fin d /\ average costs m /\ is_median costs d))).
Proof. exact @stats_any. Qed.
Print Assumptions C111_any_table.
Example C111_any_table_case : map fst rows_any = map fst X_any /\ NoDup (map fst X_any) /\ NoDup (map fst labels_any) /\ labels_any <> [] /\
  exists texts m d, full_report Nat.eqb Z.eqb first_one X_any rows_any labels_any = (map Text texts ++ [CostTable (Some (Fin m, Fin d, 2%nat)); CountTable (Some 3%nat)], Err NameError).
Proof. exact stats_any_case. Qed.
