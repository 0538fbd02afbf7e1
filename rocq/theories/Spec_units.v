(** Specification vocabulary for C133: units of measure. *)
From Verif Require Export Spec_audit Spec_recourse.
#[local] Open Scope string_scope.
#[local] Open Scope list_scope.
#[local] Open Scope Qc_scope.

(** Entry by entry: [x] in the other units, when one old unit is [c] new ones ([cs]: one factor per feature); coefficients per new unit. *)
Definition in_units (cs x : list Qc) : list Qc := map (fun p => fst p * snd p) (combine cs x).
Definition per_unit (cs w : list Qc) : list Qc := map (fun p => snd p / fst p) (combine cs w).
(** A change of units: positive factors, one per column; features measured in other units are real-valued, before and after
    (some entry is not a whole number). *)
Definition unit_change (X : list (list Qc)) (names : list string) (cs : list Qc) : Prop :=
  length cs = length names /\
  forall j c, nth_error cs j = Some c -> 0 < c /\ (c <> 1 -> (exists v, In v (column X j) /\ ~ is_int v) /\ (exists v, In v (column X j) /\ ~ is_int (c * v))).
(** Bounds given as percentiles of the data. *)
Definition by_percentile (v : pyval) : Prop :=
  exists lo hi t, (v = PTuple [lo; hi; PStr t] \/ v = PList [lo; hi; PStr t]) /\ (t = "percentile" \/ t = "p").
(** Edits that mention no amounts in units of a feature: actionable, directions, relative step sizes, percentile bounds, grids, the outcome. *)
Definition unit_free (o : aset_op) : Prop :=
  match o with
  | OSetAttr n _ => In n ["actionable"; "step_direction"; "flip_direction"; "step_size"; "lb"; "ub"]
  | OIndexSet i n v => In n ["actionable"; "step_direction"; "flip_direction"; "step_size"; "lb"; "ub"] \/
                       (n = "bounds" /\ by_percentile v /\ ((exists s, i = IStr s) \/ exists p, i = IInt p))
  | OUpdateGrid _ | ODesire _ => True
  | OQuery _ | OReplace _ _ _ _ _ _ _ _ _ | OAlign _ | OAdd _ _ _ _ | ORemove _ => False
  end.
(** [A] and [A'] are set up alike from the same data in different units. *)
Definition other_units (E : env) (X : list (list Qc)) (cs : list Qc) (A A' : action_set) : Prop :=
  exists names y custom dflt A0 A0' edits,
    unit_change X names cs /\ by_percentile dflt /\ (forall n v, dget n custom = Some v -> by_percentile v) /\ Forall unit_free edits /\
    mk_action_set X names y custom dflt (PStr "relative") = Ok A0 /\ A = aset_run E A0 edits /\
    mk_action_set (map (in_units cs) X) names y custom dflt (PStr "relative") = Ok A0' /\ A' = aset_run E A0' edits.
(** Total density the percentile scale of a feature rests on: the estimated density, summed over the grid. *)
Definition mass (E : env) (e : element) (m : Qc) : Prop := exists f, kde E (e_values e) = Some f /\ (forall v, 0 <= f v) /\ m = qsum (map f (e_grid e)).
(** Density estimates of rescaled data are rescaled estimates (with [k] = 1/c for estimates that integrate to one). *)
Definition unit_density (E : env) (c k : Qc) (values : list Qc) : Prop :=
  forall f, kde E values = Some f -> exists f', kde E (map (Qcmult c) values) = Some f' /\ forall v, f' (c * v) = k * f v.
