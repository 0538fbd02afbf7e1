(** Model of recourse/print_recourse_audit_report.py.  Modelled: the merged table and the three counts printed as text.
    Not modelled here: the printed tables of statistics (63-65; see Model_stats.v), the plots, and columns of X named 'feasible', 'cost' or 'y'
    (which pandas renames, so that 43-61 fail).  [group_by] plays no role: see [report]. *)
From Verif Require Export Model_audit.
#[local] Open Scope list_scope.

Section Report.
Context {I R L : Type}.                  (* index labels, rows of X, outcomes *)
Context (eqi : I -> I -> bool) (eql : L -> L -> bool).
(** list(set(y)): the distinct outcomes in an order chosen by the runtime (29) *)
Context (set_of : list L -> list L).

Inductive line := LSize (n : nat) | LDesired (g : L) (n : nat) | LNoRecourse (g : L) (n : nat).

(** 7-9: the two merges on the index (inner joins; the order of the rows does not matter here). *)
Definition merged (a : list (I * audit_entry)) (X : list (I * R)) (y : list (I * L)) : list (audit_entry * L) :=
  flat_map (fun r => flat_map (fun x => if eqi (fst r) (fst x)
    then flat_map (fun l => if eqi (fst r) (fst l) then [(snd r, snd l)] else []) y else []) X) a.
(** 10: replace([np.inf, -np.inf], np.nan) *)
Definition no_inf (e : audit_entry) : audit_entry :=
  option_map (fun p => (fst p, match snd p with PosInf | NegInf => NaN | c => c end)) e.
Definition isfinite (c : fl) : bool := match c with Fin _ => true | _ => false end.
(** 43-48 *)
Definition desired_row (g : L) (r : audit_entry * L) : bool :=
  eql (snd r) g && match fst r with None => true | Some _ => false end.
(** 51-57 *)
Definition no_recourse_row (g : L) (r : audit_entry * L) : bool :=
  eql (snd r) g && match fst r with Some (f, c) => negb f && isfinite c | None => false end.
(** 40-88 subset_data_and_plot: what it prints, and how it ends.  88: plt is not defined in the module. *)
Definition print_group (g : L) (data : list (audit_entry * L)) : list line * res unit :=
  ([LDesired g (length (filter (desired_row g) data)); LNoRecourse g (length (filter (no_recourse_row g) data))], Err NameError).
(** 30-31 *)
Fixpoint print_groups (gs : list L) (data : list (audit_entry * L)) : list line * res unit :=
  match gs with
  | [] => ([], Ok tt)
  | g :: r => match print_group g data with
              | (ls, Err e) => (ls, Err e)
              | (ls, Ok _) => let '(ls', o) := print_groups r data in (ls ++ ls', o)
              end
  end.
(** 5-38: 34-38 repeat the loop over the same outcomes and are reached only if there are none. *)
Definition report (X : list (I * R)) (a : list (I * audit_entry)) (y : list (I * L)) : list line * res unit :=
  let data := map (fun r => (no_inf (fst r), snd r)) (merged a X y) in
  let '(ls, o) := print_groups (set_of (map snd y)) data in
  (LSize (length data) :: ls, o).
End Report.
Arguments line L : clear implicits.
