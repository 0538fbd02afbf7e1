(** Specification vocabulary for the names in a recourse program. *)
From Verif Require Export Model_names Spec_recourse.
(** Variables, in the order in which they are registered with the solver. *)
Definition registered (m : mip) : list mvar := map v_var (m_vars m).
(** [v] occurs in a row, in a special ordered set or in the objective of the program. *)
Definition refers_to (m : mip) (v : mvar) : Prop :=
  (exists r c, In r (m_rows m) /\ In (c, v) (r_terms r)) \/ (exists l, In l (m_sos m) /\ In v l) \/ (exists c, In (c, v) (m_obj m)).
(** The textual names given to rows. *)
Definition given_row_names (b : backend) (m : mip) : list string :=
  flat_map (fun r => match row_name b (r_name r) with Some s => [s] | None => [] end) (m_rows m).
