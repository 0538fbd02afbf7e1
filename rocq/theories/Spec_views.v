(** Specification vocabulary for selections, reading attributes, and rendered tables. *)
From Verif Require Export Spec_flipset Model_views.
#[local] Open Scope string_scope.
#[local] Open Scope list_scope.
#[local] Open Scope Qc_scope.

(** ** Selections *)
(** Python's position z in a sequence of n: from the front, or from the back if negative. *)
Definition position (n : nat) (z : Z) (p : nat) : Prop :=
  (p < n)%nat /\ ((0 <= z)%Z -> Z.of_nat p = z) /\ ((z < 0)%Z -> Z.of_nat p = (z + Z.of_nat n)%Z).
(** p lies in the slice a:b of a sequence of n. *)
Definition from_end (n : nat) (z : Z) : Z := if (z <? 0)%Z then (z + Z.of_nat n)%Z else z.
Definition in_slice (n : nat) (a b : option Z) (p : nat) : Prop :=
  (p < n)%nat /\ (forall z, a = Some z -> (from_end n z <= Z.of_nat p)%Z) /\ (forall z, b = Some z -> (Z.of_nat p < from_end n z)%Z).
(** The features an index names, in order.  (For lists of booleans see C18.) *)
Definition names_features (A : action_set) (i : Model_actionset.index) (ps : list nat) : Prop :=
  match i with
  | IStr s => exists p, ps = [p] /\ nth_error (as_names A) p = Some s
  | IInt z => exists p, ps = [p] /\ position (as_len A) z p
  | IIdx l => Forall2 (position (as_len A)) l ps
  | IMask m => length m = as_len A /\ StronglySorted lt ps /\ forall p, In p ps <-> nth_error m p = Some true
  | ISlice a b => StronglySorted lt ps /\ forall p, In p ps <-> in_slice (as_len A) a b p
  | IList l =>
      match l with
      | PStr _ :: _ => Forall2 (fun v p => exists s, v = PStr s /\ nth_error (as_names A) p = Some s) l ps
      | _ => Forall2 (fun v p => exists z, (v = PInt z \/ v = PNpInt z \/ exists b : bool, v = PBool b /\ z = if b then 1%Z else 0%Z) /\
                                           position (as_len A) z p) l ps
      end
  end.

(** ** Reading *)
(** What reading attribute [n] of feature [e] shows. *)
Inductive shows : string -> element -> pyval -> Prop :=
| sh_name e : shows "name" e (PStr (e_name e))
| sh_values e : shows "values" e (PArr (map Fin (e_values e)))
| sh_actionable e : shows "actionable" e (PBool (e_actionable e))
| sh_compat0 e : e_flip e = None -> shows "compatible" e (PFloat NaN)
| sh_compat e f b : e_flip e = Some f ->
    (b = true <-> e_actionable e = true /\ f <> 0%Z /\ ~ (0 < f /\ e_step_dir e < 0)%Z /\ ~ (f < 0 /\ 0 < e_step_dir e)%Z) ->
    shows "compatible" e (PBool b)
| sh_type e : shows "variable_type" e (PType (e_vtype e))
| sh_size e : shows "size" e (PInt (Z.of_nat (length (e_grid e))))
| sh_absolute e : b_type (e_bounds e) = Absolute -> shows "bound_type" e (PStr "absolute")
| sh_percentile e : b_type (e_bounds e) = Percentile -> shows "bound_type" e (PStr "percentile")
| sh_lb e : shows "lb" e (PFloat (Fin (e_lb e)))
| sh_ub e : shows "ub" e (PFloat (Fin (e_ub e)))
| sh_aligned e b : (b = true <-> exists f, e_flip e = Some f) -> shows "aligned" e (PBool b)
| sh_flip0 e : e_flip e = None -> shows "flip_direction" e (PFloat NaN)
| sh_flip e f : e_flip e = Some f -> shows "flip_direction" e (PInt f)
| sh_rel e : e_step_type e = Relative -> shows "step_type" e (PStr "relative")
| sh_abs e : e_step_type e = AbsoluteStep -> shows "step_type" e (PStr "absolute")
| sh_dir e : shows "step_direction" e (PNpInt (e_step_dir e))
| sh_step e : shows "step_size" e (PFloat (Fin (e_step_size e)))
| sh_grid e : shows "grid" e (PArr (map Fin (e_grid e))).
Definition readable : list string :=
  ["name"; "values"; "actionable"; "compatible"; "variable_type"; "size"; "bound_type"; "lb"; "ub"; "aligned"; "flip_direction";
   "step_type"; "step_direction"; "step_size"; "grid"].
(** Attributes, and features, for which assigning the value read is meant to change nothing. *)
Definition plain_attribute (n : string) (e : element) : Prop :=
  n = "actionable" \/ n = "variable_type" \/ n = "step_type" \/ n = "step_direction" \/
  (n = "step_size" /\ (e_step_type e = Relative -> e_step_size e <= 1)) \/
  (n = "flip_direction" /\ e_flip e <> None) \/
  ((n = "lb" \/ n = "ub") /\ b_type (e_bounds e) = Absolute).

(** ** to_latex of an action set *)
(** What the mutability column is meant to say. *)
Definition truthful_mutability (e : element) (m : mutability) : Prop :=
  m = if e_actionable e then (if (0 <? e_step_dir e)%Z then MutUp else if (e_step_dir e <? 0)%Z then MutDown else MutYes) else MutNo.

(** ** Text *)
Definition occurs (v s : string) : Prop := exists a b, s = (a ++ v ++ b)%string.
