(** Model of recourse/helper_functions.py: parsing of classifier arguments. *)
From Verif Require Export Py.

(** An object passed as a classifier: number of classes_ entries if the attribute exists, flattened
    coef_ and intercept_ if they exist. *)
Record clf := { clf_classes : option nat; clf_coef : option (list fl); clf_intercept : option (list fl) }.
(** helper_functions.py:4-11 is_sklearn_linear_classifier *)
Definition is_sklearn_linear_classifier (c : clf) : bool :=
  (match clf_classes c with Some n => Nat.eqb n 2 | None => false end)
  && (match clf_coef c, clf_intercept c with Some _, Some _ => true | _, _ => false end).

(** Arguments: a classifier-like object, a (flattened) vector/list, a number, or anything else. *)
Inductive clarg := AClf (c : clf) | AVec (l : list fl) | ANum (f : fl) | AOther.
Record cargs := { k_clf : option clarg; k_classifier : option clarg; k_coefs : option clarg;
                  k_intercept : option clarg; a_pos : list clarg }.
Definition no_args : cargs := {| k_clf := None; k_classifier := None; k_coefs := None; k_intercept := None; a_pos := [] |}.

(** float(t) (72 and 66): arrays of one element convert, others raise TypeError. *)
Definition to_float (a : clarg) : res fl :=
  match a with ANum f | AVec [f] => Ok f | _ => Err TypeError end.
(** np.array(w).flatten() followed by np.isfinite (71, 73): objects give a TypeError. *)
Definition to_vec (a : clarg) : res (list fl) :=
  match a with AVec l => Ok l | ANum f => Ok [f] | _ => Err TypeError end.
Fixpoint finite_all (l : list fl) : res (list Qc) :=
  match l with
  | [] => Ok []
  | Fin q :: r => let! qs := finite_all r in Ok (q :: qs)
  | _ :: _ => Err AssertionError
  end.
Definition finite_one (f : fl) : res Qc := match f with Fin q => Ok q | _ => Err AssertionError end.

Definition from_clf (a : clarg) : res (clarg * clarg) :=
  match a with
  | AClf c => if is_sklearn_linear_classifier c then
                match clf_coef c, clf_intercept c with
                | Some w, Some t => Ok (AVec w, AVec t)
                | _, _ => Err AssertionError
                end
              else Err AssertionError
  | _ => Err AssertionError
  end.

(** helper_functions.py:14-75 parse_classifier_args *)
Definition parse_classifier_args (a : cargs) : res (list Qc * Qc) :=
  let! (w, t) :=
    match k_clf a, k_classifier a, k_coefs a, a_pos a with
    | Some c, _, _, _ => from_clf c
    | None, Some c, _, _ => from_clf c
    | None, None, Some w, _ => Ok (w, match k_intercept a with Some t => t | None => ANum (Fin 0) end)
    | None, None, None, [AClf c] =>
        if is_sklearn_linear_classifier c then from_clf (AClf c) else Err TypeError (* float(None) at 72 *)
    | None, None, None, [AVec w] => Ok (AVec w, ANum (Fin 0))
    | None, None, None, [_] => Err TypeError                                        (* float(None) at 72 *)
    | None, None, None, [w; t] => let! f := to_float t in Ok (w, ANum f)
    | None, None, None, _ => Err ValueError
    end in
  let! t' := to_float t in
  let! w' := to_vec w in
  let! wq := finite_all w' in
  let! tq := finite_one t' in
  Ok (wq, tq).
