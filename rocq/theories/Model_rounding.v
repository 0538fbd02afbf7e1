(** Rounding to binary64 as the hardware does it: to nearest, ties to even, with 53 significant bits.  The exponent is unbounded:
    overflow to inf and gradual underflow are not modelled.  Nothing here is specific to the repository. *)
From Verif Require Import Num.
#[local] Open Scope Qc_scope.

Definition pow2 (e : Z) : Qc := Q2Qc (2 ^ e)%Q.
(** The exponent of the leading bit of a non-zero number. *)
Definition mag (x : Qc) : Z :=
  let l := (Z.log2 (Z.abs (Qnum (this x))) - Z.log2 (Zpos (Qden (this x))))%Z in
  if pow2 l <=? qabs x then l else (l - 1)%Z.
(** The nearest integer, ties to even. *)
Definition half_even (x : Qc) : Z :=
  let f := qfloor x in
  let r := x - qz f in
  if r <? qfrac 1 2 then f else if qfrac 1 2 <? r then (f + 1)%Z else if Z.even f then f else (f + 1)%Z.
Definition round_pos (x : Qc) : Qc :=
  if x =? 0 then 0 else let e := (mag x - 52)%Z in qz (half_even (x * pow2 (- e))) * pow2 e.
Definition rnd64 (x : Qc) : Qc := if x <? 0 then - round_pos (- x) else round_pos x.
