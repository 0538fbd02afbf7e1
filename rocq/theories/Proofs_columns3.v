(** Cases for C119. *)
From Verif Require Import Proofs_props_element Proofs_props_actionset Spec_columns Proofs_num Proofs_mip Proofs_info Proofs_vec Proofs_build Proofs_enum Proofs_session Proofs_recourse Proofs_subset Proofs_exchange Proofs_far Proofs_concrete Proofs_builder Proofs_builder2 Proofs_builder4 Proofs_builder5 Proofs_scen Proofs_scen2 Proofs_builder6 Proofs_builder7 Proofs_builder8 Proofs_dict Proofs_compare Proofs_compare4 Proofs_compare5 Proofs_flipset Proofs_flipset3 Proofs_columns Proofs_columns2.
#[local] Open Scope string_scope.
#[local] Open Scope list_scope.
#[local] Open Scope Qc_scope.

(** ** Comparing features *)
Definition opteqb {T} (f : T -> T -> bool) (a b : option T) : bool := match a, b with None, None => true | Some u, Some v => f u v | _, _ => false end.
Definition pairlb (a b : list Qc * list Qc) : bool := listeqb (fst a) (fst b) && listeqb (snd a) (snd b).
Definition boundb (a b : bound) : bool := match b_type a, b_type b with Percentile, Percentile | Absolute, Absolute => true | _, _ => false end && (b_lb a =? b_lb b) && (b_ub a =? b_ub b) && (b_qlb a =? b_qlb b) && (b_qub a =? b_qub b).
Definition stypeb (a b : stype) : bool := match a, b with Relative, Relative | AbsoluteStep, AbsoluteStep => true | _, _ => false end.
Definition elemb (a b : element) : bool :=
  String.eqb (e_name a) (e_name b) && listeqb (e_values a) (e_values b) && vtype_eqb (e_vtype a) (e_vtype b) && opteqb Z.eqb (e_flip a) (e_flip b) && Bool.eqb (e_actionable a) (e_actionable b) &&
  boundb (e_bounds a) (e_bounds b) && stypeb (e_step_type a) (e_step_type b) && (e_step_size a =? e_step_size b) && (e_step_dir a =? e_step_dir b)%Z && listeqb (e_grid a) (e_grid b) && Bool.eqb (e_gint a) (e_gint b) &&
  opteqb pairlb (e_interp a) (e_interp b) && match e_extra a, e_extra b with [], [] => true | _, _ => false end.
Lemma opteqb_ok {T} (f : T -> T -> bool) (Hf : forall u v, f u v = true -> u = v) a b : opteqb f a b = true -> a = b.
Proof. destruct a, b; cbn; intro H; try discriminate H; [f_equal; auto|reflexivity]. Qed.
Lemma pairlb_ok a b : pairlb a b = true -> a = b.
Proof. destruct a, b. unfold pairlb. cbn [fst snd]. intro H. apply andb_true_iff in H. destruct H as [H1 H2]. apply listeqb_ok in H1, H2. congruence. Qed.
Lemma qeqb_ok (a b : Qc) : (a =? b) = true -> a = b.
Proof. intro H. now qbool. Qed.
Lemma boundb_ok a b : boundb a b = true -> a = b.
Proof.
  destruct a as [t1 l1 u1 p1 r1], b as [t2 l2 u2 p2 r2]. unfold boundb. cbn [b_type b_lb b_ub b_qlb b_qub]. intro H. do 4 (apply andb_true_iff in H; destruct H as [H ?]).
  repeat match goal with K : (_ =? _)%Qc = true |- _ => apply qeqb_ok in K end. destruct t1, t2; try discriminate H; congruence.
Qed.
Lemma stypeb_ok a b : stypeb a b = true -> a = b.
Proof. destruct a, b; cbn; intro H; try discriminate H; reflexivity. Qed.
Lemma vtypeb_ok a b : vtype_eqb a b = true -> a = b.
Proof. destruct a, b; cbn; intro H; try discriminate H; reflexivity. Qed.
Lemma elemb_ok a b : elemb a b = true -> a = b.
Proof.
  destruct a, b. unfold elemb. cbn. intro H. do 12 (apply andb_true_iff in H; destruct H as [H ?]).
  repeat match goal with
  | K : listeqb _ _ = true |- _ => apply listeqb_ok in K
  | K : (_ =? _)%Qc = true |- _ => apply qeqb_ok in K
  | K : (_ =? _)%Z = true |- _ => apply Z.eqb_eq in K
  | K : String.eqb _ _ = true |- _ => apply String.eqb_eq in K
  | K : Bool.eqb _ _ = true |- _ => apply Bool.eqb_prop in K
  | K : vtype_eqb _ _ = true |- _ => apply vtypeb_ok in K
  | K : stypeb _ _ = true |- _ => apply stypeb_ok in K
  | K : boundb _ _ = true |- _ => apply boundb_ok in K
  | K : opteqb Z.eqb _ _ = true |- _ => apply (opteqb_ok Z.eqb (fun u v => proj1 (Z.eqb_eq u v))) in K
  | K : opteqb pairlb _ _ = true |- _ => apply (opteqb_ok pairlb pairlb_ok) in K
  | K : match ?a with _ => _ end = true |- _ => destruct a as [|? ?]; [|discriminate K]
  end.
  congruence.
Qed.
Fixpoint rearrangedb {T} (f : T -> T -> bool) (p : list nat) (l l' : list T) : bool :=
  match p, l' with
  | [], [] => true
  | j :: p', v :: l'' => match nth_error l j with Some u => f u v | None => false end && rearrangedb f p' l l''
  | _, _ => false
  end.
Lemma rearrangedb_ok {T} (f : T -> T -> bool) (Hf : forall u v, f u v = true -> u = v) p l l' : rearrangedb f p l l' = true -> rearranged p l l'.
Proof.
  revert l'. induction p as [|j p IH]; intros [|v l'] H; cbn in H; try discriminate H; [constructor|]. apply andb_true_iff in H. destruct H as [H1 H2]. constructor; [|now apply IH].
  destruct (nth_error l j) as [u|]; [|discriminate H1]. f_equal. now apply Hf.
Qed.
Lemma str_ok (u v : string) : String.eqb u v = true -> u = v.
Proof. intro H. now apply String.eqb_eq in H. Qed.
(** One constraint in each of them. *)
Definition one_limitb (p : list nat) (A A' : action_set) : bool :=
  match r_cons (as_cons A), r_cons (as_cons A') with
  | [(id, c)], [(id', c')] => String.eqb id id' && (c_lb c' =? c_lb c)%Z && (c_ub c' =? c_ub c)%Z &&
      forallb (fun kj => Bool.eqb (existsb (Nat.eqb (fst kj)) (c_indices c')) (existsb (Nat.eqb (snd kj)) (c_indices c))) (combine (seq 0 (length p)) p)
  | _, _ => false
  end.
Lemma exb k l : existsb (Nat.eqb k) l = true <-> In k l.
Proof. rewrite existsb_exists. split; [intros (y & H1 & H2); apply Nat.eqb_eq in H2; now subst|intro H; exists k; split; [exact H|apply Nat.eqb_refl]]. Qed.
Lemma one_limitb_ok p A A' : one_limitb p A A' = true -> same_limits p A A'.
Proof.
  unfold one_limitb, same_limits, stored. destruct (r_cons (as_cons A)) as [|(id, c) [|? ?]]; try discriminate. destruct (r_cons (as_cons A')) as [|(id', c') [|? ?]]; try discriminate.
  intro H. do 3 (apply andb_true_iff in H; destruct H as [H ?]). apply str_ok in H. subst id'. apply Z.eqb_eq in H1, H2. cbn [dget]. split; intros i d Hd; destruct (String.eqb i id) eqn:Q; try discriminate Hd; injection Hd as <-.
  - exists c'. split; [reflexivity|]. split; [exact H2|]. split; [exact H1|]. intros k j Hk. rewrite forallb_forall in H0. specialize (H0 (k, j)). cbn [fst snd] in H0. rewrite <- !exb.
    rewrite (Bool.eqb_prop _ _ (H0 ltac:(apply nth_error_In with k; rewrite combine_seq_nth, Hk; reflexivity))). reflexivity.
  - exists c. reflexivity.
Qed.
Definition reorderedb (p : list nat) (b : builder) (x : list Qc) (b' : builder) (x' : list Qc) : bool :=
  rearrangedb String.eqb p (as_names (bd_A b)) (as_names (bd_A b')) && rearrangedb elemb p (as_elems (bd_A b)) (as_elems (bd_A b')) &&
  rearrangedb (fun u v : Qc => u =? v) p (bd_w b) (bd_w b') && rearrangedb (fun u v : Qc => u =? v) p x x' && (as_y (bd_A b') =? as_y (bd_A b))%Z && (bd_t b' =? bd_t b) &&
  match bd_cost b', bd_cost b with CTotal, CTotal | CLocal, CLocal | CMax, CMax => true | _, _ => false end && (bd_min b' =? bd_min b)%Z && (bd_max b' =? bd_max b)%Z &&
  one_limitb p (bd_A b) (bd_A b').
Lemma reorderedb_ok p b x b' x' : Permutation p (seq 0 (length (bd_w b))) -> reorderedb p b x b' x' = true -> reordered p b x b' x'.
Proof.
  intros HP H. unfold reorderedb in H. do 9 (apply andb_true_iff in H; destruct H as [H ?]). split; [exact HP|].
  split; [exact (rearrangedb_ok _ str_ok _ _ _ H)|]. split; [exact (rearrangedb_ok _ elemb_ok _ _ _ H8)|]. split; [exact (rearrangedb_ok _ qeqb_ok _ _ _ H7)|]. split; [exact (rearrangedb_ok _ qeqb_ok _ _ _ H6)|].
  split; [now apply Z.eqb_eq|]. split; [now apply qeqb_ok|]. split; [destruct (bd_cost b'), (bd_cost b); try discriminate H3; reflexivity|]. split; [now apply Z.eqb_eq|]. split; [now apply Z.eqb_eq|]. now apply one_limitb_ok.
Qed.

(** ** With constraints: the limit on b and c is misapplied only if the feature that cannot act comes first. *)
Definition tab4r : list (list Qc) := [[z 0; z 0; z 0; z 0]; [z 1; z 0; z 1; z 1]; [z 0; z 1; z 0; z 0]; [z 0; z 0; z 0; z 1]].
Definition sc34r k := mk env0 tab4r ["b"; "c"; "d"; "a"] 1 [OIndexSet (IStr "a") "actionable" (PBool false); OAdd ["b"; "c"] (z 0) (z 1) (Some "one")] k
  [z 2; z 2; z 1; z 1] (- z 4) CTotal [z 0; z 0; z 0; z 0].
Definition p1230 : list nat := [1; 2; 3; 0]%nat.
Lemma p1230_ok : Permutation p1230 (seq 0 4).
Proof. change (seq 0 4) with ([0] ++ [1; 2; 3])%nat. change p1230 with ([1; 2; 3] ++ [0])%nat. apply Permutation_app_comm. Qed.
Definition pairb (c c' : scenario) (t : builder -> builder -> builder -> builder -> bool) : bool :=
  match sc_run c, sc_run c' with Ok (b, b0), Ok (b', b0') => t b b0 b' b0' | _, _ => false end.
Lemma pairb_ok c c' t : pairb c c' t = true -> exists b b0 b' b0', sc_run c = Ok (b, b0) /\ sc_run c' = Ok (b', b0') /\ t b b0 b' b0' = true.
Proof. unfold pairb. destruct (sc_run c) as [[b b0]|]; [|discriminate]. destruct (sc_run c') as [[b' b0']|]; [|discriminate]. eauto 10. Qed.
Lemma columns_refuted : exists p b x b' x' b0 b0', (forall sv, assigned env0 sv b x b0) /\ (forall sv, assigned env0 sv b' x' b0') /\ reordered p b x b' x' /\
  forall sv, sound_solver sv -> finishing_solver sv -> (exists b1 s, fit sv b0 = Ok (b1, Some s)) /\ exists b1, fit sv b0' = Ok (b1, None).
Proof.
  destruct (pairb_ok (sc34 PyMIP) (sc34r PyMIP) (fun b b0 b' b0' => Nat.eqb (length (bd_w b)) 4 && reorderedb p1230 b (sc_x (sc34 PyMIP)) b' (sc_x (sc34r PyMIP)) && fit_test b0 some_b && fit_test b0' none_b)) as (b & b0 & b' & b0' & H & H' & HT); [vm_compute; reflexivity|].
  do 3 (apply andb_true_iff in HT; destruct HT as [HT ?]). apply Nat.eqb_eq in HT.
  exists p1230, b, (sc_x (sc34 PyMIP)), b', (sc_x (sc34r PyMIP)), b0, b0'. split; [exact (sc_assigned _ _ _ H)|]. split; [exact (sc_assigned _ _ _ H')|]. split; [apply reorderedb_ok; [rewrite HT; exact p1230_ok|assumption]|].
  intros sv S F. split.
  - destruct (sc_fit _ _ _ some_b H env0_ok H1 sv S F) as (b1 & [s|] & Hf & Ht); [eauto|discriminate Ht].
  - destruct (sc_fit _ _ _ none_b H' env0_ok H0 sv S F) as (b1 & [s|] & Hf & Ht); [discriminate Ht|eauto].
Qed.
(** ** Without: two features with different coefficients and values change places. *)
Definition tab2r : list (list Qc) := [[z 0; z 0]; [z 2; z 1]; [z 1; z 2]; [z 3; z 3]].
Definition sc2c k ct := mk env0 tab2 ["a"; "b"] 1 [] k [z 1; z 2] (- z 7) ct [z 0; z 1].
Definition sc2r k ct := mk env0 tab2r ["b"; "a"] 1 [] k [z 2; z 1] (- z 7) ct [z 1; z 0].
Definition p10 : list nat := [1; 0]%nat.
Lemma p10_ok : Permutation p10 (seq 0 2).
Proof. apply perm_swap. Qed.
Lemma columns_case k k' ct : exists A b A' b' b0 b0', mk_action_set tab2 ["a"; "b"] 1 [] default_bounds default_step_type = Ok A /\ mk_builder env0 k A (coef_args [z 1; z 2] (- z 7)) ct None = Ok b /\
  mk_action_set tab2r ["b"; "a"] 1 [] default_bounds default_step_type = Ok A' /\ mk_builder env0 k' A' (coef_args [z 2; z 1] (- z 7)) ct None = Ok b' /\
  reordered p10 b [z 0; z 1] b' [z 1; z 0] /\ unconstrained (bd_A b) /\ (forall sv, assigned env0 sv b [z 0; z 1] b0) /\ (forall sv, assigned env0 sv b' [z 1; z 0] b0') /\
  (forall sv, sound_solver sv -> finishing_solver sv -> exists b1 s, fit sv b0 = Ok (b1, Some s)).
Proof.
  destruct (pairb_ok (sc2c k ct) (sc2r k' ct) (fun b b0 b' b0' => fit_test b0 some_b)) as (b & b0 & b' & b0' & H & H' & HT); [destruct k, k', ct; vm_compute; reflexivity|].
  pose proof (sc_run_builder _ _ _ H) as HB. pose proof (sc_run_builder _ _ _ H') as HB'. unfold sc2c in HB. unfold sc2r in HB'. rewrite sc_builder_mk, sc_aset_mk in HB, HB'.
  assert (RX : Forall2 (rearranged p10) tab2 tab2r) by (repeat (constructor; [repeat (constructor; [reflexivity|]); constructor|]); constructor).
  assert (RN : rearranged p10 ["a"; "b"] ["b"; "a"]) by (repeat (constructor; [reflexivity|]); constructor).
  destruct (mk_action_set tab2 ["a"; "b"] 1 [] default_bounds default_step_type) as [A|] eqn:QA; [|discriminate HB]. cbn [bind aset_run fold_left] in HB.
  destruct (columns_created p10 tab2 tab2r ["a"; "b"] ["b"; "a"] 1%Z [] default_bounds default_step_type A p10_ok RX RN QA) as (A' & QA' & HC). rewrite QA' in HB'. cbn [bind aset_run fold_left] in HB'.
  assert (RW : rearranged p10 [z 1; z 2] [z 2; z 1]) by (repeat (constructor; [reflexivity|]); constructor).
  assert (RV : rearranged p10 [z 0; z 1] [z 1; z 0]) by (repeat (constructor; [reflexivity|]); constructor).
  destruct (HC env0 k k' [z 1; z 2] [z 2; z 1] (- z 7) ct b [z 0; z 1] [z 1; z 0] RW RV HB) as (b2 & HB2 & HR). rewrite HB' in HB2. injection HB2 as <-.
  exists A, b, A', b', b0, b0'. split; [reflexivity|]. split; [exact HB|]. split; [exact QA'|]. split; [exact HB'|]. split; [apply strict_reordered; exact HR|]. split; [apply HR|].
  split; [exact (sc_assigned _ _ _ H)|]. split; [exact (sc_assigned _ _ _ H')|]. intros sv S F. destruct (sc_fit _ _ _ some_b H env0_ok HT sv S F) as (b1 & [s|] & Hf & Ht); [eauto|discriminate Ht].
Qed.

(** ** The theorems *)
Lemma columns_thm E sv sv' p b x b' x' b0 b0' : ok_env E -> sound_solver sv -> finishing_solver sv -> sound_solver sv' -> finishing_solver sv' ->
  assigned E sv b x b0 -> assigned E sv' b' x' b0' -> reordered p b x b' x' -> unconstrained (bd_A b) -> answers_related (same_answer (bd_cost b)) sv sv' b0 b0'.
Proof. intros HE S1 F1 S2 F2 A1 A2 R U. exact (columns_same E sv sv' p b x b' x' b0 b0' HE S1 F1 S2 F2 A1 A2 (reordered_strict _ _ _ _ _ R U)). Qed.
Lemma columns_assigned E sv sv' p b x b' x' : ok_env E -> builder_reachable E sv b -> builder_reachable E sv' b' -> reordered p b x b' x' -> unconstrained (bd_A b) -> length x = length (bd_w b) ->
  snd (set_x E b x) = Ok tt <-> snd (set_x E b' x') = Ok tt.
Proof. intros HE B1 B2 R U L. exact (assign_both E sv sv' p b x b' x' HE B1 B2 (reordered_strict _ _ _ _ _ R U) L). Qed.
Lemma columns_builders p X X' names names' y custom dflt dst A : Permutation p (seq 0 (length names)) -> Forall2 (rearranged p) X X' -> rearranged p names names' ->
  mk_action_set X names y custom dflt dst = Ok A -> exists A', mk_action_set X' names' y custom dflt dst = Ok A' /\
    forall E k k' w w' t ct b x x', rearranged p w w' -> rearranged p x x' -> mk_builder E k A (coef_args w t) ct None = Ok b ->
      exists b', mk_builder E k' A' (coef_args w' t) ct None = Ok b' /\ reordered p b x b' x'.
Proof.
  intros HP HX HN H. destruct (columns_created p X X' names names' y custom dflt dst A HP HX HN H) as (A' & H' & HC). exists A'. split; [exact H'|]. intros E k k' w w' t ct b x x' RW RX HB.
  destruct (HC E k k' w w' t ct b x x' RW RX HB) as (b' & HB' & R). exists b'. split; [exact HB'|now apply strict_reordered].
Qed.
