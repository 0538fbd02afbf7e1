(** Model of examples/paper/initialize.py: undo_coefficient_scaling, the helper with which classifiers
    trained on standardised data are handed to the package. *)
From Verif Require Export Model_helpers.
Open Scope list_scope. Open Scope Qc_scope.

(** IEEE arithmetic of numpy where a division by zero can occur; finite results are exact (no rounding,
    no overflow).  x/0 is +-inf or nan with a RuntimeWarning, not an exception. *)
Definition fl_div0 (q : Qc) : fl := match (q ?= 0) with Gt => PosInf | Lt => NegInf | Eq => NaN end.
Definition fl_over (a b : Qc) : fl := if b =? 0 then fl_div0 a else Fin (a / b).
Definition fl_opp (f : fl) : fl := match f with Fin q => Fin (- q) | PosInf => NegInf | NegInf => PosInf | NaN => NaN end.
Definition fl_scale (f : fl) (q : Qc) : fl := (* f * q *)
  match f with
  | Fin p => Fin (p * q)
  | NaN => NaN
  | PosInf => match (q ?= 0) with Gt => PosInf | Lt => NegInf | Eq => NaN end
  | NegInf => match (q ?= 0) with Gt => NegInf | Lt => PosInf | Eq => NaN end
  end.
Definition fl_plus (a b : fl) : fl :=
  match a, b with
  | Fin p, Fin q => Fin (p + q)
  | NaN, _ | _, NaN | PosInf, NegInf | NegInf, PosInf => NaN
  | PosInf, _ | _, PosInf => PosInf
  | NegInf, _ | _, NegInf => NegInf
  end.
Fixpoint fl_dot (w : list fl) (m : list Qc) : fl :=
  match w, m with
  | f :: w, q :: m => fl_plus (fl_scale f q) (fl_dot w m)
  | _, _ => Fin 0
  end.

(** What the code reads of a fitted sklearn StandardScaler (with_mean and with_std): mean_ and var_. *)
Record scaler := { sc_mean : list Qc; sc_var : list Qc }.

Fixpoint fl_overs (w s : list Qc) : list fl :=
  match w, s with a :: w, b :: s => fl_over a b :: fl_overs w s | _, _ => [] end.
(** numpy broadcasting of coefficients / x_scale (one row of coefficients). *)
Definition divide (w s : list Qc) : res (list fl) :=
  if Nat.eqb (length w) (length s) then Ok (fl_overs w s)
  else match w, s with
       | [a], _ => Ok (map (fl_over a) s)
       | _, [b] => Ok (map (fun a => fl_over a b) w)
       | _, _ => Err ValueError
       end.

(** What the code reads of the argument clf: coef_ (one row) and intercept_, if present. *)
Record linear_model := { lm_coef : option (list Qc); lm_intercept : option Qc }.

(** initialize.py:133-171 undo_coefficient_scaling.  [sq] is np.sqrt.  An intercept that was not passed is 0.0. *)
Definition undo_coefficient_scaling (sq : Qc -> Qc) (clf : option linear_model) (coefficients : option (list Qc))
    (intercept : Qc) (sc : option scaler) : res (list fl * fl) :=
  let! (w0, b0) :=
    match coefficients with
    | Some w => Ok (w, intercept)
    | None =>
        match clf with
        | None => Err AssertionError                                               (* 151 *)
        | Some c =>
            let! _ := passert (intercept =? 0) in                                  (* 152 *)
            match lm_coef c with
            | None => Err AssertionError                                           (* 153 *)
            | Some w => Ok (w, match lm_intercept c with Some b => b | None => 0 end)
            end
        end
    end in
  match sc with
  | None => Ok (map Fin w0, Fin b0)                                                (* 157-160 *)
  | Some s =>                                                                      (* 162-168 *)
      let! w := divide w0 (map sq (sc_var s)) in
      if Nat.eqb (length w) (length (sc_mean s))
      then Ok (w, fl_plus (Fin b0) (fl_opp (fl_dot w (sc_mean s))))
      else Err ValueError                                                          (* np.dot *)
  end.
