(** Model of the tables of statistics in recourse/print_recourse_audit_report.py (59-65), and of the whole text of a report.
    Not modelled: the plots.  pandas' mean and median skip NaN; groupby on no rows gives a table without lines. *)
From Verif Require Export Model_report Model_flipset.
#[local] Open Scope list_scope.
#[local] Open Scope Qc_scope.

Fixpoint insert_q (a : Qc) (l : list Qc) : list Qc := match l with [] => [a] | b :: r => if a <=? b then a :: l else b :: insert_q a r end.
Definition sort_q (l : list Qc) : list Qc := fold_right insert_q [] l.
(** Series.mean / median / count: NaN entries are skipped; of no entries the mean and the median are NaN. *)
Definition finite_part (l : list fl) : list Qc := flat_map (fun c => match c with Fin q => [q] | _ => [] end) l.
Definition series_mean (l : list Qc) : fl := match l with [] => NaN | _ => Fin (qsum l / qz (Z.of_nat (length l))) end.
Definition series_median (l : list Qc) : fl :=
  match l with
  | [] => NaN
  | _ => let s := sort_q l in let n := length l in
         if Nat.even n then Fin ((nth (n / 2 - 1) s 0 + nth (n / 2) s 0) / qz 2) else Fin (nth (n / 2) s 0)
  end.

Section Stats.
Context {I R L : Type}.
Context (eqi : I -> I -> bool) (eql : L -> L -> bool).
Context (set_of : list L -> list L).

(** 60-61 *)
Definition recourse_row (g : L) (r : audit_entry * L) : bool :=
  eql (snd r) g && match fst r with Some (f, _) => f | None => false end.
Definition row_cost (r : audit_entry * L) : fl := match fst r with Some (_, c) => c | None => NaN end.
(** 63-65: groupby('y').agg: the selected rows form one group or none. *)
Inductive printed := Text (l : line L) | CostTable (line : option (fl * fl * nat)) | CountTable (line : option nat).
Definition cost_table (rows : list (audit_entry * L)) : option (fl * fl * nat) :=
  match rows with
  | [] => None
  | _ => let cs := finite_part (map row_cost rows) in Some (series_mean cs, series_median cs, length cs)
  end.
Definition count_table (rows : list (audit_entry * L)) : option nat := match rows with [] => None | _ => Some (length rows) end.
(** 40-88 *)
Definition full_group (g : L) (data : list (audit_entry * L)) : list printed * res unit :=
  let df3 := filter (recourse_row g) data in
  let '(ls, o) := print_group eql g data in
  (map Text ls ++ [CostTable (cost_table df3); CountTable (count_table df3)], o).
Fixpoint full_groups (gs : list L) (data : list (audit_entry * L)) : list printed * res unit :=
  match gs with
  | [] => ([], Ok tt)
  | g :: r => match full_group g data with
              | (ls, Err e) => (ls, Err e)
              | (ls, Ok _) => let '(ls', o) := full_groups r data in (ls ++ ls', o)
              end
  end.
(** 5-38 *)
Definition full_report (X : list (I * R)) (a : list (I * audit_entry)) (y : list (I * L)) : list printed * res unit :=
  let data := map (fun r => (no_inf (fst r), snd r)) (merged eqi a X y) in
  let '(ls, o) := full_groups (set_of (map snd y)) data in
  (Text (LSize (length data)) :: ls, o).
End Stats.
Arguments printed L : clear implicits.
