(** Exact rational arithmetic used by the model: canonical rationals [Qc] (Leibniz equality,
    computable comparisons), plus list helpers mirroring the numpy functions used by the code.
    Nothing in this file is specific to the repository. *)
From Coq Require Export QArith Qcanon Qround Lqa List Lia ZArith Bool Arith.
Export ListNotations.
#[global] Open Scope Qc_scope.

(** ** Comparisons *)
Definition qle (x y : Qc) : bool := Qle_bool x y.
Definition qlt (x y : Qc) : bool := negb (Qle_bool y x).
Definition qeq (x y : Qc) : bool := Qeq_bool x y.
Infix "<=?" := qle (at level 70) : Qc_scope.
Infix "<?" := qlt (at level 70) : Qc_scope.
Infix "=?" := qeq (at level 70) : Qc_scope.

(** n/d as a canonical rational. *)
Definition qz (z : Z) : Qc := Q2Qc (inject_Z z).
Definition qfrac (n : Z) (d : positive) : Qc := Q2Qc (n # d).

Definition qfloor (x : Qc) : Z := Qfloor x.
Definition qceil (x : Qc) : Z := Qceiling x.
(** Python's int() / C cast: truncation towards zero. *)
Definition qtrunc (x : Qc) : Z := if 0 <=? x then qfloor x else qceil x.
Definition qsign (x : Qc) : Z := if 0 <? x then 1%Z else if x <? 0 then (-1)%Z else 0%Z.
Definition qabs (x : Qc) : Qc := if 0 <=? x then x else - x.
Definition qmin (x y : Qc) : Qc := if x <=? y then x else y.
Definition qmax (x y : Qc) : Qc := if x <=? y then y else x.
Definition is_integer (x : Qc) : bool := x =? qz (qfloor x).

(** ** Reflection of the comparisons *)
Lemma qle_iff x y : qle x y = true <-> x <= y.
Proof. apply Qle_bool_iff. Qed.
Lemma qlt_iff x y : qlt x y = true <-> x < y.
Proof.
  unfold qlt. rewrite negb_true_iff. split; intro H.
  - apply Qcnot_le_lt. intro H'. apply qle_iff in H'. unfold qle in H'. congruence.
  - apply not_true_is_false. intro H'. apply Qle_bool_iff in H'.
    apply Qclt_not_le in H. apply H. exact H'.
Qed.
Lemma qeq_iff x y : qeq x y = true <-> x = y.
Proof.
  unfold qeq. rewrite Qeq_bool_iff. split; intro H.
  - apply Qc_is_canon, H.
  - subst; reflexivity.
Qed.
Lemma qle_false x y : qle x y = false <-> y < x.
Proof.
  split; intro H.
  - apply Qcnot_le_lt. intro H'. apply qle_iff in H'. congruence.
  - apply not_true_is_false. intro H'. apply qle_iff in H'. apply Qclt_not_le in H. tauto.
Qed.
Lemma qlt_false x y : qlt x y = false <-> y <= x.
Proof.
  split; intro H.
  - apply Qcnot_lt_le. intro H'. apply qlt_iff in H'. congruence.
  - apply not_true_is_false. intro H'. apply qlt_iff in H'. apply Qclt_not_le in H'. tauto.
Qed.
Lemma qeq_false x y : qeq x y = false <-> x <> y.
Proof.
  split; intro H.
  - intro H'. apply qeq_iff in H'. congruence.
  - apply not_true_is_false. intro H'. apply qeq_iff in H'. tauto.
Qed.
Lemma qle_spec x y : BoolSpec (x <= y) (y < x) (qle x y).
Proof. destruct (qle x y) eqn:E; constructor; [apply qle_iff|apply qle_false]; exact E. Qed.
Lemma qlt_spec x y : BoolSpec (x < y) (y <= x) (qlt x y).
Proof. destruct (qlt x y) eqn:E; constructor; [apply qlt_iff|apply qlt_false]; exact E. Qed.
Lemma qeq_spec x y : BoolSpec (x = y) (x <> y) (qeq x y).
Proof. destruct (qeq x y) eqn:E; constructor; [apply qeq_iff|apply qeq_false]; exact E. Qed.

(** ** Linear arithmetic on Qc by translation to Q *)
Lemma this_plus (x y : Qc) : (this (x + y) == this x + this y)%Q.
Proof. apply Qred_correct. Qed.
Lemma this_mult (x y : Qc) : (this (x * y) == this x * this y)%Q.
Proof. apply Qred_correct. Qed.
Lemma this_opp (x : Qc) : (this (- x) == - this x)%Q.
Proof. apply Qred_correct. Qed.
Lemma this_minus (x y : Qc) : (this (x - y) == this x - this y)%Q.
Proof. unfold Qcminus. rewrite this_plus, this_opp. reflexivity. Qed.
Lemma this_inv (x : Qc) : (this (/ x) == / this x)%Q.
Proof. apply Qred_correct. Qed.
Lemma this_div (x y : Qc) : (this (x / y) == this x / this y)%Q.
Proof. unfold Qcdiv, Qdiv. rewrite this_mult, this_inv. reflexivity. Qed.
Lemma this_Q2Qc (q : Q) : (this (Q2Qc q) == q)%Q.
Proof. apply Qred_correct. Qed.
Lemma this_qz (z : Z) : (this (qz z) == inject_Z z)%Q.
Proof. apply Qred_correct. Qed.
Lemma this_qfrac n d : (this (qfrac n d) == n # d)%Q.
Proof. apply Qred_correct. Qed.
Lemma Qc_eq_this x y : x = y <-> (this x == this y)%Q.
Proof. split; intro H; [subst; reflexivity|apply Qc_is_canon, H]. Qed.
Lemma Qc_neq_this x y : x <> y <-> ~ (this x == this y)%Q.
Proof. rewrite Qc_eq_this. reflexivity. Qed.

Ltac q_push_hyp H :=
  repeat progress (rewrite ?this_plus, ?this_mult, ?this_opp, ?this_minus, ?this_qz, ?this_qfrac, ?this_Q2Qc in H).
Ltac q_push :=
  repeat progress (rewrite ?this_plus, ?this_mult, ?this_opp, ?this_minus, ?this_qz, ?this_qfrac, ?this_Q2Qc).

(** Bring boolean comparisons to propositions. *)
Ltac qbool :=
  repeat match goal with
  | H : qle _ _ = true |- _ => apply qle_iff in H
  | H : qle _ _ = false |- _ => apply qle_false in H
  | H : qlt _ _ = true |- _ => apply qlt_iff in H
  | H : qlt _ _ = false |- _ => apply qlt_false in H
  | H : qeq _ _ = true |- _ => apply qeq_iff in H
  | H : qeq _ _ = false |- _ => apply qeq_false in H
  | |- qle _ _ = true => apply qle_iff
  | |- qle _ _ = false => apply qle_false
  | |- qlt _ _ = true => apply qlt_iff
  | |- qlt _ _ = false => apply qlt_false
  | |- qeq _ _ = true => apply qeq_iff
  | |- qeq _ _ = false => apply qeq_false
  end.

Ltac q_lower :=
  repeat match goal with
  | H : @eq Qc _ _ |- _ => apply Qc_eq_this in H; q_push_hyp H
  | H : Qcle ?a ?b |- _ => change (Qle (this a) (this b)) in H; q_push_hyp H
  | H : Qclt ?a ?b |- _ => change (Qlt (this a) (this b)) in H; q_push_hyp H
  end;
  match goal with
  | |- @eq Qc _ _ => apply Qc_eq_this; q_push
  | |- Qcle ?a ?b => change (Qle (this a) (this b)); q_push
  | |- Qclt ?a ?b => change (Qlt (this a) (this b)); q_push
  | |- _ => idtac
  end.
(** Linear arithmetic over Qc: keeps only relevant hypotheses. *)
Ltac qlra :=
  qbool;
  try match goal with |- not _ => intro end;
  q_lower;
  repeat match goal with
  | H : context [this (Q2Qc ?q)] |- _ => progress q_push_hyp H
  end;
  change (this 0) with 0%Q in *; change (this 1) with 1%Q in *;
  unfold inject_Z in *; lra.

(** ** Sums *)
Fixpoint qsum (l : list Qc) : Qc := match l with [] => 0 | x :: r => x + qsum r end.
Fixpoint dot (a b : list Qc) : Qc :=
  match a, b with x :: r, y :: s => x * y + dot r s | _, _ => 0 end.
Fixpoint vadd (a b : list Qc) : list Qc :=
  match a, b with x :: r, y :: s => (x + y) :: vadd r s | _, _ => [] end.
Fixpoint qmaxl (l : list Qc) (d : Qc) : Qc := match l with [] => d | x :: r => qmax x (qmaxl r d) end.
Fixpoint qminl (l : list Qc) (d : Qc) : Qc := match l with [] => d | x :: r => qmin x (qminl r d) end.
(** np.min / np.max of a non-empty array (None: ValueError on an empty one). *)
Definition np_min (l : list Qc) : option Qc := match l with [] => None | x :: r => Some (qminl r x) end.
Definition np_max (l : list Qc) : option Qc := match l with [] => None | x :: r => Some (qmaxl r x) end.

(** np.diff *)
Fixpoint np_diff (l : list Qc) : list Qc :=
  match l with x :: ((y :: _) as r) => (y - x) :: np_diff r | _ => [] end.
(** np.cumsum *)
Fixpoint cumsum_from (acc : Qc) (l : list Qc) : list Qc :=
  match l with [] => [] | x :: r => (acc + x) :: cumsum_from (acc + x) r end.
Definition np_cumsum := cumsum_from 0.

(** np.sort *)
Fixpoint qinsert (x : Qc) (l : list Qc) : list Qc :=
  match l with [] => [x] | y :: r => if x <=? y then x :: l else y :: qinsert x r end.
Fixpoint qsort (l : list Qc) : list Qc := match l with [] => [] | x :: r => qinsert x (qsort r) end.

Definition qmem (x : Qc) (l : list Qc) : bool := existsb (fun y => x =? y) l.
(** len(l) == len(np.unique(l)) *)
Fixpoint all_distinct (l : list Qc) : bool :=
  match l with [] => true | x :: r => negb (qmem x r) && all_distinct r end.
(** np.all(g[:-1] <= g[1:]) *)
Fixpoint nondecr (l : list Qc) : bool :=
  match l with x :: ((y :: _) as r) => (x <=? y) && nondecr r | _ => true end.

(** np.searchsorted(l, x), side = 'left', on a sorted array. *)
Definition searchsorted (l : list Qc) (x : Qc) : nat := length (filter (fun y => y <? x) l).
(** np.insert(l, pos, x) for one scalar. *)
Definition np_insert {A} (l : list A) (pos : nat) (x : A) : list A := firstn pos l ++ x :: skipn pos l.

(** np.arange(start, stop, step) for step > 0: ceil((stop - start)/step) points. *)
Definition np_arange (start stop step : Qc) : list Qc :=
  map (fun i => start + qz (Z.of_nat i) * step) (seq 0 (Z.to_nat (qceil ((stop - start) / step)))).

(** np.isclose(a, 0.0) with numpy's default atol = 1e-8 (rtol is multiplied by |0.0|). *)
Definition atol : Qc := qfrac 1 100000000.
Definition isclose0 (a : Qc) : bool := qabs a <=? atol.
