(** Python values, exceptions and small pieces of Python semantics used by the model. *)
From Coq Require Export String.
From Verif Require Export Num.
#[global] Open Scope list_scope.
#[global] Open Scope string_scope.
#[global] Open Scope Qc_scope.

(** Exceptions that the modelled code can raise. [Unmodelled] is not a Python exception: it marks
    inputs outside the model (infinite absolute bounds, overwriting methods, ...); no theorem
    treats it as an error raised by the code. *)
Inductive exn :=
  AssertionError | ValueError | IndexError | KeyError | TypeError | AttributeError
| UnboundLocalError | LinAlgError | NameError | ModuleNotFoundError | CplexError | Unmodelled.

Inductive res (A : Type) := Ok (a : A) | Err (e : exn).
Arguments Ok {A} a.
Arguments Err {A} e.
Definition bind {A B} (r : res A) (f : A -> res B) : res B :=
  match r with Ok a => f a | Err e => Err e end.
Notation "'let!' x ':=' r 'in' k" := (bind r (fun x => k)) (at level 200, x pattern, right associativity).
(** Python's assert statement. *)
Definition passert (b : bool) : res unit := if b then Ok tt else Err AssertionError.
Definition of_option {A} (e : exn) (o : option A) : res A :=
  match o with Some a => Ok a | None => Err e end.
(** List comprehension whose body may raise; stops at the first exception. *)
Fixpoint mapM {A B} (f : A -> res B) (l : list A) : res (list B) :=
  match l with
  | [] => Ok []
  | x :: r => let! y := f x in let! ys := mapM f r in Ok (y :: ys)
  end.

(** IEEE-style extended numbers (finite values are exact rationals). *)
Inductive fl := Fin (q : Qc) | PosInf | NegInf | NaN.
Definition fl_finite (f : fl) : bool := match f with Fin _ => true | _ => false end.

(** Feature types of the code: bool / int / float. *)
Inductive vtype := TBool | TInt | TFloat.
Definition vtype_eqb (a b : vtype) : bool :=
  match a, b with TBool, TBool | TInt, TInt | TFloat, TFloat => true | _, _ => false end.

(** Dynamic values passed by users to setters. [PFloat] also stands for np.float64 (a float
    subclass); [PNpInt] is np.int64 (not a Python int); [PArr] a 1-d float64 array. *)
Inductive pyval :=
| PNone | PBool (b : bool) | PInt (z : Z) | PFloat (f : fl) | PNpInt (z : Z)
| PStr (s : string) | PList (l : list pyval) | PTuple (l : list pyval) | PArr (l : list fl)
| PType (t : vtype).

(** Numeric reading of a scalar value (numpy conversion). *)
Definition pynum (v : pyval) : option fl :=
  match v with
  | PBool b => Some (Fin (if b then 1 else 0))
  | PInt z | PNpInt z => Some (Fin (qz z))
  | PFloat f => Some f
  | _ => None
  end.

(** Position of the first occurrence: list.index. *)
Fixpoint index_of (s : string) (l : list string) : option nat :=
  match l with
  | [] => None
  | t :: r => if String.eqb s t then Some 0%nat else option_map S (index_of s r)
  end.
Definition smem (s : string) (l : list string) : bool := existsb (String.eqb s) l.
Fixpoint snodup (l : list string) : bool :=
  match l with [] => true | s :: r => negb (smem s r) && snodup r end.
(** Distinct elements, first occurrences (contents of a Python set). *)
Fixpoint sdedup (l : list string) : list string :=
  match l with [] => [] | s :: r => s :: filter (fun t => negb (String.eqb s t)) (sdedup r) end.

(** Python dict (insertion ordered): lookup, assignment (keeps the position of an existing key), pop. *)
Definition dict V := list (string * V).
Fixpoint dget {V} (k : string) (d : dict V) : option V :=
  match d with [] => None | (k', v) :: r => if String.eqb k k' then Some v else dget k r end.
Fixpoint dset {V} (k : string) (v : V) (d : dict V) : dict V :=
  match d with
  | [] => [(k, v)]
  | (k', v') :: r => if String.eqb k k' then (k', v) :: r else (k', v') :: dset k v r
  end.
Definition dpop {V} (k : string) (d : dict V) : dict V := filter (fun p => negb (String.eqb k (fst p))) d.

(** Replace position [n] of a list. *)
Fixpoint list_set {A} (n : nat) (x : A) (l : list A) : list A :=
  match l, n with [], _ => [] | _ :: r, O => x :: r | y :: r, S m => y :: list_set m x r end.

(** l[i] with Python's negative indexing; None: IndexError. *)
Definition py_index {A} (l : list A) (i : Z) : option A :=
  let n := Z.of_nat (length l) in
  if ((0 <=? i) && (i <? n))%Z then nth_error l (Z.to_nat i)
  else if ((- n <=? i) && (i <? 0))%Z then nth_error l (Z.to_nat (n + i))
  else None.
(** l[a:b] (step 1, non-extended). *)
Definition py_slice_bounds (n : nat) (a b : option Z) : nat * nat :=
  let n' := Z.of_nat n in
  let clip := fun z => Z.max 0 (Z.min n' (if (z <? 0)%Z then z + n' else z))%Z in
  (Z.to_nat (match a with Some z => clip z | None => 0%Z end),
   Z.to_nat (match b with Some z => clip z | None => n' end)).
Definition py_slice {A} (l : list A) (a b : option Z) : list A :=
  let '(i, j) := py_slice_bounds (length l) a b in firstn (j - i) (skipn i l).
