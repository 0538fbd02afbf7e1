(** Model of several objects that share one action set with the caller.  The code stores a reference to the action set
    and never copies it (builder.py:65, auditor.py:33 and 47, flipset.py:34 and 174): what one of them, or the caller,
    does to the action set the others see at once.
    Flipsets created with a builder that is used elsewhere too (flipset.py:46) are in Model_pool.v. *)
From Verif Require Export Model_audit Model_flipset Spec_recourse Spec_audit Spec_flipset.
#[local] Open Scope list_scope.
#[local] Open Scope Qc_scope.

(** What a user may hold. *)
Inductive thing := TBuilder (b : builder) | TAuditor (b : builder) | TFlipset (f : flipset).
(** The same flipset after its action set (flipset.py:34), which its builder has too (174), has changed; the number and
    the names of the features are copies (35-36). *)
Definition f_shared (f : flipset) (A : action_set) : flipset :=
  {| f_A := A; f_n := f_n f; f_names := f_names f; f_kind := f_kind f; f_x := f_x f; f_w := f_w f; f_t := f_t f;
     f_builder := option_map (fun b => with_aset b A) (f_builder f); f_items := f_items f; f_df := f_df f; f_by := f_by f; f_inplace := f_inplace f |}.
Definition share (A : action_set) (o : thing) : thing :=
  match o with TBuilder b => TBuilder (with_aset b A) | TAuditor b => TAuditor (with_aset b A) | TFlipset f => TFlipset (f_shared f A) end.

(** One action set and the objects created with it, in order of creation. *)
Record workspace := { ws_A : action_set; ws_things : list thing }.
Definition settle (A : action_set) (l : list thing) : workspace := {| ws_A := A; ws_things := map (share A) l |}.

(** builder.py:57-63: the action set as it is left behind by creating a builder, whether or not the creation succeeds
    (flips are set before the individual is looked at, 63 and 89). *)
Definition left_by_builder (E : env) (k : backend) (A : action_set) (a : cargs) (ct : cost_type) : action_set :=
  match mk_builder E k A a ct None with Ok b => bd_A b | Err _ => A end.
(** auditor.py:39: ... by creating an auditor. *)
Definition left_by_auditor (A : action_set) (a : cargs) : action_set :=
  match parse_classifier_args a with
  | Ok (w, t) => match set_alignment A {| k_clf := None; k_classifier := None; k_coefs := None; k_intercept := None;
                                          a_pos := [AVec (map Fin w)] |} with Ok A1 => A1 | Err _ => A end
  | Err _ => A
  end.

(** Calls of methods. *)
Inductive request := RBuilder (o : builder_op) | RAudit (X : list (nat * list fl)) (y : Z) | RFlipset (o : flipset_op).
(** The action set and the object after a call.  The first populate of a flipset creates its builder (flipset.py:173-174). *)
Definition respond (E : env) (sv : solver) (srt : sorter) (A : action_set) (o : thing) (r : request) : action_set * thing :=
  match o, r with
  | TBuilder b, RBuilder op => (bd_A (builder_step E sv b op), TBuilder (builder_step E sv b op))
  | TAuditor b, RAudit X y => (A, TAuditor (fst (audit E sv b X y)))
  | TFlipset f, RFlipset op =>
      (match f_builder f, op with
       | None, FPopulate _ _ _ ct => left_by_builder E (f_kind f) A (coef_args (f_w f) (f_t f)) ct
       | _, _ => A
       end, TFlipset (flipset_step E sv srt f op))
  | _, _ => (A, o)
  end.

Inductive ws_op :=
| WAset (o : aset_op)                                                                  (* the caller edits the action set *)
| WBuilder (k : backend) (a : cargs) (ct : cost_type) (x : option (list Qc))           (* RecourseBuilder(action_set = A, ...) *)
| WAuditor (k : backend) (a : cargs) | WFlipset (k : backend) (x : list Qc) (a : cargs) (* RecourseAuditor(A, ...), Flipset(x, A, ...) *)
| WUse (i : nat) (r : request).                                                        (* a call on the i-th object *)
Definition add_thing {X} (f : X -> thing) (r : res X) (l : list thing) : list thing := match r with Ok v => l ++ [f v] | Err _ => l end.
(** [svs i] is the solver behind the i-th object. *)
Definition ws_step (E : env) (svs : nat -> solver) (srt : sorter) (s : workspace) (o : ws_op) : workspace :=
  let A := ws_A s in
  match o with
  | WAset op => settle (aset_step E A op) (ws_things s)
  | WBuilder k a ct x => settle (left_by_builder E k A a ct) (add_thing TBuilder (mk_builder E k A a ct x) (ws_things s))
  | WAuditor k a => settle (left_by_auditor A a) (add_thing TAuditor (mk_auditor E k A a) (ws_things s))
  | WFlipset k x a => settle A (add_thing TFlipset (mk_flipset k A x a None) (ws_things s))
  | WUse i r =>
      match nth_error (ws_things s) i with
      | Some t => let '(A', t') := respond E (svs i) srt A t r in settle A' (list_set i t' (ws_things s))
      | None => s
      end
  end.
Definition ws_run E svs srt s ops := fold_left (ws_step E svs srt) ops s.
