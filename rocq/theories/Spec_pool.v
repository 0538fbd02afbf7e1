(** Specification vocabulary for flipsets that share a builder. *)
From Verif Require Export Model_pool.
#[local] Open Scope list_scope.
#[local] Open Scope Qc_scope.

(** Flipsets for the individual x and the classifier and number of features of builder b, calls of their methods (except
    adding items by hand), and calls of fit and populate on the builder. *)
Definition one_person (b : builder) (x : list Qc) (o : pool_op) : Prop :=
  match o with
  | PBuilder BFit | PBuilder (BPopulate _ _ _) => True
  | PBuilder _ => False
  | PNew k A x' a => x' = x /\ parse_classifier_args a = Ok (bd_w b, bd_t b) /\ as_len A = as_len (bd_A b)
  | PUse _ (FAdd _) => False
  | PUse _ _ => True
  end.
(** ... in which every call of populate is of this type. *)
Definition enumerates (et : enum_type) (o : pool_op) : Prop :=
  match o with
  | PBuilder (BPopulate _ _ et') | PUse _ (FPopulate _ _ et' _) => et' = et
  | _ => True
  end.
(** What populate returned: by which flipset it was called (None: by the user, on the builder), the type, the solution. *)
Definition delivery := (option nat * (enum_type * sol))%type.
(** What the i-th flipset received. *)
Definition share_of (i : nat) (l : list delivery) : list sol :=
  flat_map (fun d => match fst d with Some j => if Nat.eqb i j then [snd (snd d)] else [] | None => [] end) l.
(** The builder is used through the flipsets only. *)
Definition through_flipsets (o : pool_op) : Prop := match o with PBuilder _ => False | _ => True end.
