(** Model of recourse/auditor.py: RecourseAuditor.  print_flag (50) is added in Model_flags.v; the progress bar is not modelled. *)
From Verif Require Export Model_builder.
#[local] Open Scope list_scope.
#[local] Open Scope Qc_scope.

(** 22-50 __init__.  The auditor is represented by its builder, which holds the same coefficients, intercept and
    action set.  The action set is always aligned with the coefficients (39) and the builder uses its default
    cost type 'max' (45-48). *)
Definition mk_auditor (E : env) (k : backend) (A : action_set) (a : cargs) : res builder :=
  let! (w, t) := parse_classifier_args a in
  let! A1 := set_alignment A {| k_clf := None; k_classifier := None; k_coefs := None; k_intercept := None;
                                a_pos := [AVec (map Fin w)] |} in
  mk_builder E k A1 (coef_args w t) CMax None.

(** 93: np.unique(X, axis = 0, return_inverse = True): the distinct rows in lexicographic order, and the position
    of each row of X among them. *)
Fixpoint lex (a b : list Qc) : comparison :=
  match a, b with
  | [], [] => Eq | [], _ => Lt | _, [] => Gt
  | u :: a', v :: b' => if u <? v then Lt else if v <? u then Gt else lex a' b'
  end.
Fixpoint uniq_insert (r : list Qc) (U : list (list Qc)) : list (list Qc) :=
  match U with
  | [] => [r]
  | u :: U' => match lex r u with Lt => r :: u :: U' | Eq => u :: U' | Gt => u :: uniq_insert r U' end
  end.
Definition unique_rows (X : list (list Qc)) : list (list Qc) := fold_right uniq_insert [] X.
Fixpoint row_pos (r : list Qc) (U : list (list Qc)) : nat :=
  match U with [] => 0%nat | u :: U' => match lex r u with Eq => 0%nat | _ => S (row_pos r U') end end.

(** 94-99: the distinct rows without the outcome y_desired *)
Definition to_audit (w : list Qc) (t : Qc) (y : Z) (u : list Qc) : bool :=
  if (0 <? y)%Z then dot w u <? - t else - t <=? dot w u.
(** The fields 'feasible' and 'cost' of the dict returned by fit (108). *)
Definition verdict_of (s : solinfo) : bool * fl :=
  match s with Some i => (true, Fin (s_cost i)) | None => (false, PosInf) end.
(** 102-109 *)
Fixpoint audit_loop (E : env) (sv : solver) (b : builder) (l : list (nat * list Qc)) : builder * res (list (nat * (bool * fl))) :=
  match l with
  | [] => (b, Ok [])
  | (i, u) :: r =>
      match set_x E b u with
      | (b1, Err e) => (b1, Err e)
      | (b1, Ok _) =>
          match fit sv b1 with
          | Err e => (b1, Err e)
          | Ok (b2, s) =>
              match audit_loop E sv b2 r with
              | (b3, Err e) => (b3, Err e)
              | (b3, Ok out) => (b3, Ok ((i, verdict_of s) :: out))
              end
          end
      end
  end.
(** One line of the result: None is feasible = NaN, cost = NaN. *)
Definition audit_entry := option (bool * fl).
Fixpoint lookup_idx (i : nat) (out : list (nat * (bool * fl))) : audit_entry :=
  match out with [] => None | (j, v) :: r => if Nat.eqb i j then Some v else lookup_idx i r end.

(** 68-123 audit.  X: rows with their index labels (any type; 0, 1, ... for an array).  All rows of a matrix have
    the same length; rows of other lengths fail the assertion of line 89.  y_desired other than 1, -1, 0 fails
    the assertion of line 91.  113-114: a frame without rows has no column 'idx'. *)
Definition audit {I : Type} (E : env) (sv : solver) (b : builder) (X : list (I * list fl)) (y : Z)
  : builder * res (list (I * audit_entry)) :=
  let pre :=
    let! _ := passert (match X with [] => false | _ => true end) in
    let! _ := passert (forallb (fun r => Nat.eqb (length (snd r)) (length (bd_w b))) X) in
    let! rows := mapM (fun r => finite_all (snd r)) X in
    let! _ := passert ((y =? 1)%Z || (y =? -1)%Z || (y =? 0)%Z) in
    Ok rows in
  match pre with
  | Err e => (b, Err e)
  | Ok rows =>
      let U := unique_rows rows in
      let todo := filter (fun p => to_audit (bd_w b) (bd_t b) y (snd p)) (combine (seq 0 (length U)) U) in
      match audit_loop E sv b todo with
      | (b', Err e) => (b', Err e)
      | (b', Ok []) => (b', Err KeyError)
      | (b', Ok out) => (b', Ok (combine (map fst X) (map (fun r => lookup_idx (row_pos r U) out) rows)))
      end
  end.
