(** The builder's check of its own answers: recourse/builder.py 480-521 (_check_mip_solution; not called by the package). *)
From Verif Require Export Model_builder.
#[local] Open Scope list_scope.
#[local] Open Scope Qc_scope.

(** np.isclose(a, b, rtol, atol) *)
Definition close (rtol at' a b : Qc) : bool := qabs (a - b) <=? at' + rtol * qabs b.
(** 198-199 prediction *)
Definition bd_prediction (b : builder) (x : list Qc) : Z := qsign (bd_score b x).
(** Positions at which a test holds / the entries at some positions. *)
Definition positions (p : Qc -> bool) (l : list Qc) : list nat := map fst (filter (fun q => p (snd q)) (combine (seq 0 (length l)) l)).
Definition entries (l : list Qc) (js : list nat) : list Qc := map (fun j => nth j l 0) js.

(** The warnings (501, 509, 517, 522). *)
Inductive warning := WNotActionable | WNearZeroScore | WMaxCost | WIssue.
(** 512-513: changed features cost something, the others nothing. *)
Definition costs_agree (s : sol) (moved still : list nat) : bool :=
  forallb (fun c => 0 <? c) (entries (s_costs s) moved) && forallb isclose0 (entries (s_costs s) still).
(** 516-520: for 'local' there is no check *)
Definition total_warning (ct : cost_type) (s : sol) : list warning :=
  match ct with
  | CMax => if close (qfrac 1 10000) atol (s_cost s) (match s_costs s with [] => 0 | c :: r => qmaxl r c end) then [] else [WMaxCost]
  | CTotal => if close (qfrac 1 100000) atol (s_cost s) (qsum (s_costs s)) then [] else [WIssue]
  | CLocal => []
  end.
(** 480-521.  The result: an exception, or the warnings given before True is returned.  x + a: vectors of different lengths raise
    ValueError (broadcasting of a vector of length one is not modelled); TypeError: x was never set. *)
Definition check_solution (b : builder) (i : solinfo) : res (list warning) :=
  match i with
  | None => Ok []
  | Some s =>
      let a := s_actions s in
      let still := positions isclose0 a in                                    (* 487 *)
      let moved := positions (fun v => negb (isclose0 v)) a in                (* 488 *)
      let n := Z.of_nat (length moved) in
      let! _ := passert (1 <=? n)%Z in
      let! _ := passert ((bd_min b <=? n) && (n <=? bd_max b))%Z in
      let w1 := if forallb (fun j => existsb (Nat.eqb j) (bd_actionable b)) moved then [] else [WNotActionable] in
      let! x := of_option TypeError (bd_x b) in
      let! _ := if Nat.eqb (length x) (length a) then Ok tt else Err ValueError in
      let x' := vadd x a in
      let! w2 := if negb (bd_prediction b x =? bd_prediction b x')%Z then Ok []
                 else let! _ := passert (negb (close 0 (qfrac 1 10000) (bd_score b x') 0)) in Ok [WNearZeroScore] in
      let w3 := if costs_agree s moved still then total_warning (bd_cost b) s else [WIssue] in
      Ok (w1 ++ w2 ++ w3)
  end.
