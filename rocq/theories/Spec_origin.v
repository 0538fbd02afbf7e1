(** Specification vocabulary for C134: where zero lies. *)
From Verif Require Export Spec_units.
#[local] Open Scope string_scope.
#[local] Open Scope list_scope.
#[local] Open Scope Qc_scope.

(** Entry by entry: [x] measured from other zeros, [ds] below the old ones (273.15 for degrees Celsius to kelvin). *)
Definition moved (ds x : list Qc) : list Qc := map (fun p => snd p + fst p) (combine ds x).
(** A change of zeros: one shift per column; a shifted column is real-valued before and after (some entry is not a whole number), or it
    holds whole numbers not all 0 or 1, before and after. *)
Definition origin_change (X : list (list Qc)) (names : list string) (ds : list Qc) : Prop :=
  length ds = length names /\
  forall j d, nth_error ds j = Some d -> d <> 0 ->
    ((exists v, In v (column X j) /\ ~ is_int v) /\ (exists v, In v (column X j) /\ ~ is_int (v + d))) \/
    (is_int d /\ (forall v, In v (column X j) -> is_int v) /\ (exists v, In v (column X j) /\ v <> 0 /\ v <> 1) /\ (exists v, In v (column X j) /\ v + d <> 0 /\ v + d <> 1)).
(** Edits that mention no position of a feature: as [unit_free]; step sizes may be amounts, and the set may be aligned. *)
Definition position_free (o : aset_op) : Prop :=
  match o with
  | OSetAttr n _ => In n ["actionable"; "step_direction"; "flip_direction"; "step_type"; "step_size"; "lb"; "ub"]
  | OIndexSet i n v => In n ["actionable"; "step_direction"; "flip_direction"; "step_type"; "step_size"; "lb"; "ub"] \/
                       (n = "bounds" /\ by_percentile v /\ ((exists s, i = IStr s) \/ exists p, i = IInt p))
  | OUpdateGrid _ | ODesire _ | OAlign _ => True
  | OQuery _ | OReplace _ _ _ _ _ _ _ _ _ | OAdd _ _ _ _ | ORemove _ => False
  end.
(** [A] and [A'] are set up alike from the same data measured from different zeros. *)
Definition other_zeros (E : env) (X : list (list Qc)) (ds : list Qc) (A A' : action_set) : Prop :=
  exists names y custom dflt dst A0 A0' edits,
    origin_change X names ds /\ by_percentile dflt /\ (forall n v, dget n custom = Some v -> by_percentile v) /\ Forall position_free edits /\
    mk_action_set X names y custom dflt dst = Ok A0 /\ A = aset_run E A0 edits /\
    mk_action_set (map (moved ds) X) names y custom dflt dst = Ok A0' /\ A' = aset_run E A0' edits.
(** Density estimates of shifted data are shifted estimates. *)
Definition moves_along (E : env) : Prop :=
  forall values d, match kde E values, kde E (map (fun v => v + d) values) with
                   | Some f, Some f' => forall v, f' (v + d) = f v
                   | None, None => True
                   | _, _ => False
                   end.
(** What a call returns, apart from the object it leaves behind. *)
Definition returned {B C} (r : res (B * C)) : res C := match r with Ok p => Ok (snd p) | Err e => Err e end.
(** What an auditor answers to one table after the other. *)
Fixpoint audits {I} (E : env) (sv : solver) (b : builder) (l : list (list (I * list fl) * Z)) : list (res (list (I * audit_entry))) :=
  match l with [] => [] | (X, y) :: r => let '(b', o) := audit E sv b X y in o :: audits E sv b' r end.
