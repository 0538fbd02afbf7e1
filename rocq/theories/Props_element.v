(** Property theorems for single features: C01-C06, C08-C14, C16. *)
From Verif Require Import Proofs_props_element.

(** * C01 *)
Theorem C01_bounds_ordered_integral : forall values lb ub t b,
  mk_bound values lb ub t = Ok b ->
  b_lb b <= b_ub b /\
  exists l u, requests values lb ub (b_type b) l u /\ rounded_down values l (b_lb b) /\ rounded_up values u (b_ub b).
Proof. exact c01_bound. Qed.
Print Assumptions C01_bounds_ordered_integral.

Theorem C01_every_history : forall E e, elem_reachable E e ->
  e_lb e <= e_ub e /\ (int_column (e_values e) -> is_int (e_lb e) /\ is_int (e_ub e)).
Proof. exact c01_history. Qed.
Print Assumptions C01_every_history.

Example C01_nonvacuous : (* integer column, fractional request: rounded outwards *)
  ok_and (mk_bound [qz 1; qz 2; qz 7] (PFloat (Fin (qfrac 5 2))) (PFloat (Fin (qfrac 13 2))) (PStr "a"))
         (fun b => (b_lb b =? qz 2) && (b_ub b =? qz 7)) = true.
Proof. vm_compute. reflexivity. Qed.

(** * C02 *)
Theorem C02_percentile_bounds : forall values lb ub t b p q,
  mk_bound values lb ub t = Ok b -> b_type b = Percentile -> py_number lb p -> py_number ub q ->
  exists l u, is_percentile values p l /\ is_percentile values q u /\
              rounded_down values l (b_lb b) /\ rounded_up values u (b_ub b).
Proof. exact c02_bounds. Qed.
Print Assumptions C02_percentile_bounds.

Theorem C02_percentile_laws : forall values,
  (forall p v mn mx, is_percentile values p v -> is_minimum values mn -> is_maximum values mx -> mn <= v /\ v <= mx) /\
  (forall v, is_percentile values 0 v -> is_minimum values v) /\
  (forall v, is_percentile values (qz 100) v -> is_maximum values v) /\
  (forall p q v w, p <= q -> is_percentile values p v -> is_percentile values q w -> v <= w) /\
  (forall p, values <> [] -> 0 <= p -> p <= qz 100 -> exists v, is_percentile values p v).
Proof. exact c02_laws. Qed.
Print Assumptions C02_percentile_laws.

Theorem C02_monotone_bounds : forall values lb ub lb' ub' t t' b b' p q p' q',
  mk_bound values lb ub t = Ok b -> mk_bound values lb' ub' t' = Ok b' ->
  b_type b = Percentile -> b_type b' = Percentile ->
  py_number lb p -> py_number ub q -> py_number lb' p' -> py_number ub' q' ->
  (p <= p' -> b_lb b <= b_lb b') /\ (q <= q' -> b_ub b <= b_ub b').
Proof. exact c02_monotone. Qed.
Print Assumptions C02_monotone_bounds.

Example C02_nonvacuous : (* the 25th and 80th percentiles of 1.5, 2, 4, 10 *)
  ok_and (mk_bound [qz 10; qz 2; qfrac 3 2; qz 4] (num 25) (num 80) (PStr "percentile"))
         (fun b => (b_lb b =? qfrac 15 8) && (b_ub b =? qfrac 64 10)) = true.
Proof. vm_compute. reflexivity. Qed.

(** * C03 *)
Theorem C03_variable_type_inference : forall values,
  (determine_variable_type values = TBool <-> Forall is_bit values) /\
  (determine_variable_type values = TInt <-> Forall is_int values /\ ~ Forall is_bit values) /\
  (determine_variable_type values = TFloat <-> ~ Forall is_bit values /\ ~ (Forall is_int values /\ ~ Forall is_bit values)).
Proof. exact c03. Qed.
Print Assumptions C03_variable_type_inference.
Example C03_nonvacuous :
  (determine_variable_type [0; 1; 1], determine_variable_type [0; 1; qz 3], determine_variable_type [qfrac 1 2; 1])
  = (TBool, TInt, TFloat).
Proof. vm_compute. reflexivity. Qed.

(** * C04 *)
Theorem C04_grid_shape : forall E e e',
  elem_created e' \/ (elem_reachable E e /\ update_grid e = Ok e') ->
  is_grid_of e' (e_grid e') /\ StronglySorted Qclt (e_grid e') /\ (e_vtype e' = TInt -> Forall is_int (e_grid e')).
Proof. exact c04. Qed.
Print Assumptions C04_grid_shape.
Example C04_nonvacuous :
  ok_and (mk_element "age" [qz 20; qz 33; qz 60] (PTuple [num 20; num 60]) PNone (PBool true) (PStr "relative") (num 0) (PFloat (Fin (qfrac 1 4))))
    (fun e => forallb2 qeq (e_grid e) (map qz [20; 30; 40; 50; 60]%Z)) = true.
Proof. vm_compute. reflexivity. Qed.

(** * C05: false of the code; the grid may end above the upper bound. *)
Theorem C05_grid_inside_bounds_refuted :
  exists e v, elem_created e /\ In v (e_grid e) /\ e_ub e < v.
Proof. exact c05_refuted. Qed.
Print Assumptions C05_grid_inside_bounds_refuted.

(** What holds: no value below the lower bound, none one full step or more above the upper bound, and
    none outside at all when the step divides the range ([hi - lo] is a multiple of the step). *)
Theorem C05_grid_inside_bounds_partial : forall E e e' n,
  elem_created e' \/ (elem_reachable E e /\ update_grid e = Ok e') ->
  (exists lo hi s, grid_from e' lo /\ grid_to e' hi /\ grid_step_is e' lo hi s /\ hi - lo = qz (Z.of_nat n) * s) ->
  forall v, In v (e_grid e') -> exists lo hi, grid_from e' lo /\ grid_to e' hi /\ lo <= v /\ v <= hi.
Proof. exact c05_partial. Qed.
Print Assumptions C05_grid_inside_bounds_partial.
Theorem C05_integral_bounds_partial : forall E e e' n,
  elem_created e' \/ (elem_reachable E e /\ update_grid e = Ok e') ->
  (e_vtype e' = TInt -> is_int (e_lb e') /\ is_int (e_ub e')) ->
  (exists s, grid_step_is e' (e_lb e') (e_ub e') s /\ e_ub e' - e_lb e' = qz (Z.of_nat n) * s) ->
  forall v, In v (e_grid e') -> e_lb e' <= v /\ v <= e_ub e'.
Proof. exact c05_partial_int. Qed.
Print Assumptions C05_integral_bounds_partial.
Example C05_partial_nonvacuous :
  ok_and (mk_element "age" [qz 20; qz 33; qz 60] (PTuple [num 20; num 60]) PNone (PBool true) (PStr "relative") (num 0) (PFloat (Fin (qfrac 1 4))))
    (fun e => (e_lb e =? qz 20) && (e_ub e =? qz 60) && (e_ub e - e_lb e =? qz 4 * (e_step_size e * (e_ub e - e_lb e)))) = true.
Proof. vm_compute. reflexivity. Qed.

(** * C06: false of the code; the setters do not recompute the grid. *)
Theorem C06_setters_take_effect_refuted :
  exists e e', elem_created e /\ elem_setattr "ub" (num 40) e = Ok e' /\
    ~ is_grid_of e' (e_grid e') /\ e_ub e' = qz 40 /\ In (qz 60) (feasible_x e' (qz 20) false).
Proof. exact c06_refuted. Qed.
Print Assumptions C06_setters_take_effect_refuted.

(** What holds: no assignment ever changes the grid, and after a successful update_grid the grid is the
    one determined by the settings in force, whatever happened before. *)
Theorem C06_setters_take_effect_partial : forall E e,
  elem_reachable E e ->
  (forall attr v e', elem_setattr attr v e = Ok e' -> e_grid e' = e_grid e) /\
  (forall e', update_grid e = Ok e' -> is_grid_of e' (e_grid e') /\
     e_bounds e' = e_bounds e /\ e_step_type e' = e_step_type e /\ e_step_size e' = e_step_size e /\ e_vtype e' = e_vtype e).
Proof. exact c06_partial. Qed.
Print Assumptions C06_setters_take_effect_partial.
Theorem C06_grid_determined_by_settings : forall e g1 g2, is_grid_of e g1 -> is_grid_of e g2 -> g1 = g2.
Proof. exact is_grid_unique. Qed.
Print Assumptions C06_grid_determined_by_settings.

(** * C08: false of the code for integer features at fractional values. *)
Theorem C08_current_value_offered_refuted :
  exists e x vals, elem_created e /\ feasible_values env0 e x false false false = Ok (vals, []) /\ ~ In x vals.
Proof. exact c08_refuted. Qed.
Print Assumptions C08_current_value_offered_refuted.
Theorem C08_current_value_offered_partial : forall E e x ra rp d vals ps,
  elem_reachable E e -> representable e x -> feasible_values E e x ra rp d = Ok (vals, ps) ->
  In (if ra then 0 else x) vals.
Proof. exact c08_partial. Qed.
Print Assumptions C08_current_value_offered_partial.
(** The offending case is exactly an integer grid and a fractional value: then x itself is never offered. *)
Theorem C08_fractional_value_never_offered : forall E e x rp d vals ps,
  elem_reachable E e -> e_actionable e = true -> ~ representable e x ->
  feasible_values E e x false rp d = Ok (vals, ps) -> ~ In x vals.
Proof. exact c08_exact. Qed.
Print Assumptions C08_fractional_value_never_offered.

(** * C09, C10 *)
Theorem C09_only_permitted_values_offered : forall E e x rp d vals ps v,
  elem_reachable E e -> representable e x -> feasible_values E e x false rp d = Ok (vals, ps) ->
  In v vals -> permitted e x v /\ (d = true -> improving e x v).
Proof. exact c09. Qed.
Print Assumptions C09_only_permitted_values_offered.
Theorem C09_not_actionable_not_offered : forall E e x rp d vals ps,
  elem_reachable E e -> e_actionable e = false -> feasible_values E e x false rp d = Ok (vals, ps) -> vals = [x].
Proof. exact c09_fixed. Qed.
Print Assumptions C09_not_actionable_not_offered.
Theorem C10_all_permitted_values_offered : forall E e x rp d vals ps,
  elem_reachable E e -> representable e x -> feasible_values E e x false rp d = Ok (vals, ps) ->
  StronglySorted Qclt vals /\
  (forall v, permitted e x v -> (d = true -> improving e x v) -> In v vals) /\
  (forall acts ps', feasible_values E e x true rp d = Ok (acts, ps') -> acts = map (fun v => v - x) vals /\ ps' = ps) /\
  (rp = true -> Forall2 (fun v p => percentile E e v = Ok p) vals ps).
Proof. exact c10. Qed.
Print Assumptions C10_all_permitted_values_offered.
Example C08_C10_nonvacuous : (* one-directional feature, current value off the grid *)
  ok_and (let! e := mk_element "age" [qz 20; qz 33; qz 60] (PTuple [num 20; num 60]) PNone (PBool true) (PStr "relative") (num 1) (PFloat (Fin (qfrac 1 4))) in
          feasible_values env0 e (qz 33) false true true)
    (fun r => forallb2 qeq (fst r) (map qz [33; 40; 50; 60]%Z) && Nat.eqb (length (snd r)) 4) = true.
Proof. vm_compute. reflexivity. Qed.

(** * C11 *)
Theorem C11_lb_setter : forall E e v e',
  elem_reachable E e -> elem_setattr "lb" v e = Ok e' ->
  e_ub e' = e_ub e /\ b_type (e_bounds e') = b_type (e_bounds e) /\ e' = with_bounds e (e_bounds e') /\
  (b_type (e_bounds e) = Absolute -> forall q, py_number v q -> rounded_down (e_values e) q (e_lb e')) /\
  (b_type (e_bounds e) = Percentile -> forall q, py_number v q ->
     exists p, is_percentile (e_values e) q p /\ rounded_down (e_values e) p (e_lb e')).
Proof. exact c11_lb. Qed.
Print Assumptions C11_lb_setter.
Theorem C11_ub_setter : forall E e v e',
  elem_reachable E e -> elem_setattr "ub" v e = Ok e' ->
  e_lb e' = e_lb e /\ b_type (e_bounds e') = b_type (e_bounds e) /\ e' = with_bounds e (e_bounds e') /\
  (b_type (e_bounds e) = Absolute -> forall q, py_number v q -> rounded_up (e_values e) q (e_ub e')) /\
  (b_type (e_bounds e) = Percentile -> forall q, py_number v q ->
     exists p, is_percentile (e_values e) q p /\ rounded_up (e_values e) p (e_ub e')).
Proof. exact c11_ub. Qed.
Print Assumptions C11_ub_setter.
Example C11_nonvacuous :
  ok_and (let! e := mk_element "age" [qz 20; qz 33; qz 60] (PTuple [num 20; num 60]) PNone (PBool true) (PStr "relative") (num 0) (PFloat (Fin (qfrac 1 4))) in
          elem_setattr "lb" (PFloat (Fin (qfrac 51 2))) e)
    (fun e => (e_lb e =? qz 25) && (e_ub e =? qz 60)) = true.
Proof. vm_compute. reflexivity. Qed.

(** * C12: false of the code after switching the step type. *)
Theorem C12_relative_step_at_most_one_refuted :
  exists e, elem_reachable env0 e /\ e_step_type e = Relative /\ 1 < e_step_size e.
Proof. exact c12_refuted. Qed.
Print Assumptions C12_relative_step_at_most_one_refuted.
(** What holds: the step size is always positive, and stays in (0,1] for relative steps along every
    history that does not assign step_type = 'relative'. *)
Theorem C12_relative_step_at_most_one_partial : forall E e ops,
  elem_created e -> 
  0 < e_step_size (elem_run E e ops) /\
  (Forall never_relative ops -> e_step_type (elem_run E e ops) = Relative -> e_step_size (elem_run E e ops) <= 1).
Proof. exact c12_partial. Qed.
Print Assumptions C12_relative_step_at_most_one_partial.

(** * C13 *)
(** [percentile_grid e g]: percentile queries on [e] are currently answered from grid [g]. *)
Theorem C13_percentile_in_unit_interval : forall E e x p,
  elem_reachable E e -> (forall pdf v, kde E (e_values e) = Some pdf -> 0 <= pdf v) ->
  percentile E e x = Ok p -> 0 < p /\ p < 1.
Proof. exact c13_range. Qed.
Print Assumptions C13_percentile_in_unit_interval.
Theorem C13_percentile_monotone : forall E e g x y p q,
  elem_reachable E e -> percentile_grid e g -> (forall pdf v, kde E (e_values e) = Some pdf -> 0 <= pdf v) ->
  within g x -> within g y -> percentile E e x = Ok p -> percentile E e y = Ok q -> x <= y -> p <= q.
Proof. exact c13_mono. Qed.
Print Assumptions C13_percentile_monotone.
Theorem C13_percentile_strict : forall E e g x y p q,
  elem_reachable E e -> percentile_grid e g ->
  (forall pdf v, kde E (e_values e) = Some pdf -> In v g -> 0 < pdf v) ->
  within g x -> within g y -> percentile E e x = Ok p -> percentile E e y = Ok q -> x < y -> p < q.
Proof. exact c13_strict. Qed.
Print Assumptions C13_percentile_strict.
(** The scale in numbers: at a grid point the cumulative density up to it, rescaled by 1e-6 at either end ... *)
Theorem C13_percentile_at_grid_points : forall E e g v p,
  elem_reachable E e -> percentile_grid e g -> In v g -> percentile E e v = Ok p ->
  exists pdf, kde E (e_values e) = Some pdf /\
    p = (qfrac 1 1000000 + qsum (map pdf (filter (fun u => u <=? v) g))) / (qsum (map pdf g) + qfrac 2 1000000).
Proof. exact c13_value. Qed.
Print Assumptions C13_percentile_at_grid_points.
(** ... and constant beyond the grid. *)
Theorem C13_percentile_beyond_grid : forall E e g v p,
  elem_reachable E e -> percentile_grid e g -> percentile E e v = Ok p ->
  ((forall u, In u g -> v < u) -> p = qfrac 1 1000000) /\ ((forall u, In u g -> u < v) -> p = 1 - qfrac 1 1000000).
Proof. exact c13_beyond. Qed.
Print Assumptions C13_percentile_beyond_grid.
Example C13_nonvacuous :
  ok_and (let! e := mk_element "age" [qz 20; qz 33; qz 60] (PTuple [num 20; num 60]) PNone (PBool true) (PStr "relative") (num 1) (PFloat (Fin (qfrac 1 4))) in
          let! p := percentile env0 e (qz 25) in let! q := percentile env0 e (qz 41) in Ok (p, q))
    (fun r => (0 <? fst r) && (fst r <? snd r) && (snd r <? 1)) = true.
Proof. vm_compute. reflexivity. Qed.

(** * C14: false of the code; a cached interpolator survives update_grid. *)
Theorem C14_percentiles_follow_grid_refuted :
  exists e e1 p q, elem_reachable env0 e /\ update_grid e = Ok e1 /\
    percentile env0 e1 (qz 30) = Ok p /\ percentile env0 (with_interp e1 None) (qz 30) = Ok q /\ p <> q.
Proof. exact c14_refuted. Qed.
Print Assumptions C14_percentiles_follow_grid_refuted.
(** What holds: if percentiles were never queried before, they are those of the recomputed grid; and
    querying never changes the answer of later queries. *)
Theorem C14_percentiles_follow_grid_partial : forall E e e1 x,
  elem_reachable E e -> e_interp e = None -> update_grid e = Ok e1 ->
  percentile E e1 x = (match kde E (e_values e) with
                       | Some pdf => Ok (interp (e_grid e1) (cdf_of pdf (e_grid e1)) x)
                       | None => Err LinAlgError end).
Proof. exact c14_partial. Qed.
Print Assumptions C14_percentiles_follow_grid_partial.
Theorem C14_queries_do_not_disturb : forall E e x, percentile E (touch_interp E e) x = percentile E e x.
Proof. exact c14_touch. Qed.
Print Assumptions C14_queries_do_not_disturb.

(** * C16 *)
Theorem C16_compatible_meaning : forall E e, elem_reachable E e ->
  match e_flip e with
  | None => compatible e = None
  | Some fd => compatible e = Some true <-> (e_actionable e = true /\ fd <> 0%Z /\ e_step_dir e <> (- fd)%Z)
  end.
Proof. exact c16. Qed.
Print Assumptions C16_compatible_meaning.
Theorem C16_compatible_decided : forall e, e_flip e <> None -> compatible e = Some true \/ compatible e = Some false.
Proof. exact c16_decided. Qed.
Print Assumptions C16_compatible_decided.
Example C16_nonvacuous :
  ok_and (let! e := mk_element "age" [qz 20; qz 33; qz 60] (PTuple [num 20; num 60]) PNone (PBool true) (PStr "relative") (num 1) (PFloat (Fin (qfrac 1 4))) in
          let! e1 := elem_setattr "flip_direction" (num 1) e in let! e2 := elem_setattr "flip_direction" (num (-1)) e in Ok (e1, e2))
    (fun r => match compatible (fst r), compatible (snd r) with Some true, Some false => true | _, _ => false end) = true.
Proof. vm_compute. reflexivity. Qed.
