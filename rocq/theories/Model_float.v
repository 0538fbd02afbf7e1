(** The computations of Model_element.v and Model_backend.v in floating-point arithmetic: every operation is the exact one followed
    by the rounding [rnd] (for numpy: [rnd64] of Model_rounding.v).  Fused multiply-adds and extended precision are not modelled,
    except in scores, where any of the usual evaluation orders is allowed. *)
From Coq Require Export Permutation.
From Verif Require Export Model_element Model_rounding.
#[local] Open Scope list_scope.
#[local] Open Scope Qc_scope.

(** ** recourse/action_set.py 765-790 update_grid *)
(** 769-775; 777 self.step_size, 952-953 float(lb), float(ub): the numbers of the element are doubles.  np.floor and np.ceil are exact. *)
Definition f_start (rnd : Qc -> Qc) (e : element) : Qc := match e_vtype e with TInt => qz (qfloor (rnd (e_lb e))) | _ => rnd (e_lb e) end.
Definition f_stop (rnd : Qc -> Qc) (e : element) : Qc := match e_vtype e with TInt => qz (qceil (rnd (e_ub e))) | _ => rnd (e_ub e) end.
(** 777-781 *)
Definition f_step (rnd : Qc -> Qc) (e : element) : Qc :=
  let s := rnd (e_step_size e) in
  let st := match e_step_type e with Relative => rnd (s * rnd (f_stop rnd e - f_start rnd e)) | AbsoluteStep => s end in
  match e_vtype e with TInt => qz (qceil st) | _ => st end.
(** np.arange of doubles (numpy: PyArray_ArangeObj and DOUBLE_fill): the length is ceil((stop - start)/step); the first two entries
    are start and start + step; the others continue with their difference. *)
Definition f_arange (rnd : Qc -> Qc) (start stop step : Qc) : list Qc :=
  let next := rnd (start + step) in
  let delta := rnd (next - start) in
  map (fun i => match i with O => start | 1%nat => next | _ => rnd (start + rnd (qz (Z.of_nat i) * delta)) end)
      (seq 0 (Z.to_nat (qceil (rnd (rnd (stop - start) / step))))).
(** 784-788 *)
Definition f_grid (rnd : Qc -> Qc) (e : element) : res (list Qc) :=
  let step := f_step rnd e in
  if step =? 0 then Err ValueError
  else let g := f_arange rnd (f_start rnd e) (rnd (f_stop rnd e + step)) step in
       Ok (if vtype_eqb (e_vtype e) TInt then map (fun v => qz (qtrunc v)) g else g).
(** The same without rounding: 765-790 as in Model_element.v, and 790 the resulting grid. *)
Definition exact_grid (e : element) : res (list Qc) := let! e' := update_grid e in Ok (e_grid e').

(** ** 801-821 update_interpolator, percentile *)
(** np.cumsum adds from left to right *)
Fixpoint f_cumsum_from (rnd : Qc -> Qc) (acc : Qc) (l : list Qc) : list Qc :=
  match l with [] => [] | x :: r => let a := rnd (acc + x) in a :: f_cumsum_from rnd a r end.
Definition f_cumsum (rnd : Qc -> Qc) (l : list Qc) : list Qc := match l with [] => [] | x :: r => x :: f_cumsum_from rnd x r end.
(** 813-816, given the densities at the grid points *)
Definition f_cdf (rnd : Qc -> Qc) (pdf : list Qc) : list Qc :=
  let b := rnd buffer in
  let raw := f_cumsum rnd pdf in
  let total := rnd (rnd (last raw 0 + b) + b) in
  map (fun r => rnd (rnd (b + r) / total)) raw.
(** interp1d with linear interpolation of a one-dimensional array is np.interp (scipy: _call_linear_np): with the largest grid point that is
    not above x, its value plus slope times distance; outside the grid the fill values. *)
Fixpoint f_interp_seg (rnd : Qc -> Qc) (xs ys : list Qc) (x : Qc) : Qc :=
  match xs, ys with
  | x1 :: ((x2 :: _) as xs'), y1 :: ((y2 :: _) as ys') =>
      if x <? x2 then rnd (rnd (rnd (rnd (y2 - y1) / rnd (x2 - x1)) * rnd (x - x1)) + y1) else f_interp_seg rnd xs' ys' x
  | _, y1 :: _ => y1
  | _, [] => 0
  end.
Definition f_interp (rnd : Qc -> Qc) (xs ys : list Qc) (x : Qc) : Qc :=
  match xs with
  | [] => 0
  | x0 :: _ => if x <? x0 then rnd buffer else if last xs x0 <? x then rnd (1 - rnd buffer) else f_interp_seg rnd xs ys x
  end.
(** 820-821, given the densities at the grid points *)
Definition f_percentile (rnd : Qc -> Qc) (g pdf : list Qc) (x : Qc) : Qc := f_interp rnd g (f_cdf rnd pdf) x.

(** ** recourse/builder.py 195-205 score: coefficients.dot(x) + intercept *)
(** What adding up terms may yield: the order of additions is up to the library. *)
Inductive f_sum (rnd : Qc -> Qc) : list Qc -> Qc -> Prop :=
| FS_one t : f_sum rnd [t] t
| FS_add l1 l2 a b : f_sum rnd l1 a -> f_sum rnd l2 b -> f_sum rnd (l1 ++ l2) (rnd (a + b))
| FS_perm l l' a : Permutation l l' -> f_sum rnd l a -> f_sum rnd l' a.
(** A product is rounded, or exact inside a fused multiply-add. *)
Definition f_term (rnd : Qc -> Qc) (w x t : Qc) : Prop := t = rnd (w * x) \/ t = w * x.
Inductive f_terms (rnd : Qc -> Qc) : list Qc -> list Qc -> list Qc -> Prop :=
| FT_nil : f_terms rnd [] [] []
| FT_cons w x t ws xs ts : f_term rnd w x t -> f_terms rnd ws xs ts -> f_terms rnd (w :: ws) (x :: xs) (t :: ts).
Definition float_score (rnd : Qc -> Qc) (w : list Qc) (t : Qc) (x : list Qc) (s : Qc) : Prop :=
  exists ts d, f_terms rnd w x ts /\ (ts = [] /\ d = 0 \/ f_sum rnd ts d) /\ s = rnd (d + t).
