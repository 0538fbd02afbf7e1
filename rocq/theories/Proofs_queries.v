(** C14: percentile queries (which fill interpolator caches) do not change what builders and auditors answer. *)
From Verif Require Import Spec_element Spec_actionset Model_builder Model_audit Proofs_props_element Proofs_actionset.
Import ListNotations. Open Scope list_scope. Open Scope Qc_scope.

Definition as_if (E : env) (e e' : element) : Prop :=
  (forall x a p d, feasible_values E e' x a p d = feasible_values E e x a p d) /\ compatible e' = compatible e.
Lemma as_if_refl E e : as_if E e e. Proof. split; reflexivity. Qed.
Lemma as_if_touch E e : as_if E e (touch_interp E e).
Proof.
  assert (HP : forall x, percentile E (touch_interp E e) x = percentile E e x) by (intro; apply c14_touch).
  split.
  - intros x a p d. unfold feasible_values.
    assert (HX : feasible_x (touch_interp E e) x d = feasible_x e x d)
      by (unfold touch_interp; destruct (get_interp E e); reflexivity).
    assert (HA : e_aligned (touch_interp E e) = e_aligned e)
      by (unfold touch_interp; destruct (get_interp E e); reflexivity).
    rewrite HX, HA. destruct p; [|reflexivity].
    assert (HM : mapM (percentile E (touch_interp E e)) (feasible_x e x d) = mapM (percentile E e) (feasible_x e x d)).
    { clear HX. generalize (feasible_x e x d) as l. induction l as [|u l IH]; [reflexivity|]. cbn [mapM]. rewrite HP, IH. reflexivity. }
    now rewrite HM.
  - unfold touch_interp; destruct (get_interp E e); reflexivity.
Qed.

Lemma as_if_output E ra rp rc : forall l l' (names : list string) (x : list Qc), Forall2 (as_if E) l l' ->
  mapM (fun q : string * (element * Qc) => let '(n, (e, xj)) := q in let! v := feasible_values E e xj ra rp true in Ok (n, v))
       (filter (fun q => grid_included rc (fst (snd q))) (combine names (combine l' x))) =
  mapM (fun q : string * (element * Qc) => let '(n, (e, xj)) := q in let! v := feasible_values E e xj ra rp true in Ok (n, v))
       (filter (fun q => grid_included rc (fst (snd q))) (combine names (combine l x))).
Proof.
  intros l l' names x H. revert names x. induction H as [|e e' l l' He _ IH]; intros names x; [reflexivity|].
  destruct x as [|u x]; [reflexivity|]. destruct names as [|n names]; [reflexivity|].
  cbn [combine filter fst snd]. destruct He as [HF HC].
  assert (HG : grid_included rc e' = grid_included rc e) by (unfold grid_included; now rewrite HC).
  rewrite HG. destruct (grid_included rc e); [|apply IH]. cbn [mapM]. now rewrite HF, IH.
Qed.
Lemma Forall2_nth_error {X Y} (R : X -> Y -> Prop) l l' j : Forall2 R l l' ->
  match nth_error l j, nth_error l' j with Some a, Some b => R a b | None, None => True | _, _ => False end.
Proof. intro H. revert j. induction H; intros [|j]; cbn; auto. apply IHForall2. Qed.
Lemma fold_left_ext_local {X Y} (f g : X -> Y -> X) : (forall a b, f a b = g a b) -> forall l a, fold_left f l a = fold_left g l a.
Proof. intros H l. induction l as [|b l IH]; intro a; [reflexivity|]. cbn. now rewrite H, IH. Qed.
Lemma as_if_grid E A A' x a p c : as_names A' = as_names A -> as_cons A' = as_cons A ->
  Forall2 (as_if E) (as_elems A) (as_elems A') -> feasible_grid E A' x a p c = feasible_grid E A x a p c.
Proof.
  intros HN HC HE. unfold feasible_grid, as_len. rewrite HN, HC.
  destruct (passert _); [|reflexivity]. cbn [bind].
  rewrite (as_if_output E a p c _ _ (as_names A) x HE).
  match goal with |- bind ?l _ = bind ?l _ => destruct l as [out|]; [|reflexivity] end. cbn [bind].
  destruct (r_cons (as_cons A)); [reflexivity|].
  apply fold_left_ext_local. intros acc n. destruct acc as [o|]; [|reflexivity]. cbn [bind].
  destruct (of_option ValueError (index_of n (as_names A))) as [j|]; [|reflexivity]. cbn [bind].
  pose proof (Forall2_nth_error _ _ _ j HE) as HJ.
  destruct (nth_error (as_elems A) j), (nth_error (as_elems A') j); try contradiction; [|reflexivity].
  destruct (nth_error x j); [|reflexivity]. now rewrite (proj1 HJ).
Qed.

Lemma as_if_refl_list E l : Forall2 (as_if E) l l. Proof. induction l; constructor; auto. apply as_if_refl. Qed.
Lemma as_if_set E : forall l j e, nth_error l j = Some e -> Forall2 (as_if E) l (list_set j (touch_interp E e) l).
Proof.
  induction l as [|u l IH]; intros [|j] e H; try discriminate H; cbn in *.
  - injection H as ->. constructor; [apply as_if_touch|apply as_if_refl_list].
  - constructor; [apply as_if_refl|auto].
Qed.
Lemma as_if_trans E l1 l2 l3 : Forall2 (as_if E) l1 l2 -> Forall2 (as_if E) l2 l3 -> Forall2 (as_if E) l1 l3.
Proof.
  intro H. revert l3. induction H as [|a b l l' Hab _ IH]; intros l3 H3; inversion H3; subst; constructor; auto.
  destruct Hab as [F1 C1], H1 as [F2 C2]. split; [intros; now rewrite F2, F1|now rewrite C2, C1].
Qed.
Definition only_queries (E : env) (A A' : action_set) : Prop :=
  as_names A' = as_names A /\ as_cons A' = as_cons A /\ as_y A' = as_y A /\ Forall2 (as_if E) (as_elems A) (as_elems A').
Lemma query_step E A j : only_queries E A (aset_step E A (OQuery j)).
Proof.
  cbn [aset_step]. unfold on_elem. destruct (nth_error (as_elems A) j) as [e|] eqn:He.
  - split; [reflexivity|]. split; [reflexivity|]. split; [reflexivity|]. apply as_if_set, He.
  - repeat split. apply as_if_refl_list.
Qed.
Lemma query_run E js : forall A, only_queries E A (aset_run E A (map OQuery js)).
Proof.
  induction js as [|j js IH]; intro A; [repeat split; apply as_if_refl_list|].
  change (aset_run E A (map OQuery (j :: js))) with (aset_run E (aset_step E A (OQuery j)) (map OQuery js)).
  destruct (query_step E A j) as (N1 & C1 & Y1 & F1), (IH (aset_step E A (OQuery j))) as (N2 & C2 & Y2 & F2).
  split; [congruence|]. split; [congruence|]. split; [congruence|]. eapply as_if_trans; eassumption.
Qed.
Lemma query_build E k A A' ct w t lo hi x : only_queries E A A' -> build E k A' ct w t lo hi x = build E k A ct w t lo hi x.
Proof.
  intros (HN & HC & HY & HE). unfold build, get_build_info. rewrite (as_if_grid E A A' x true true true HN HC HE), HN, HC, HY. reflexivity.
Qed.
Lemma query_set_x E b A' x : only_queries E (bd_A b) A' ->
  set_x E (with_aset b A') x = (with_aset (fst (set_x E b x)) A', snd (set_x E b x)).
Proof.
  intro H. unfold set_x. cbn [bd_w bd_kind bd_A bd_cost bd_t bd_min bd_max with_aset].
  rewrite (query_build E _ _ _ _ _ _ _ _ _ H).
  destruct (Nat.eqb (length x) (length (bd_w b))); [|reflexivity].
  destruct (build E (bd_kind b) (bd_A b) (bd_cost b) (bd_w b) (bd_t b) (bd_min b) (bd_max b) x); reflexivity.
Qed.
Lemma query_fit sv b A' : fit sv (with_aset b A') = match fit sv b with Ok (b1, r) => Ok (with_aset b1 A', r) | Err e => Err e end.
Proof. unfold fit, solve_mip. cbn [bd_mip with_aset]. destruct (bd_mip b); reflexivity. Qed.
Lemma set_x_aset E b x : bd_A (fst (set_x E b x)) = bd_A b.
Proof. unfold set_x. destruct (Nat.eqb _ _); [|reflexivity]. destruct (build _ _ _ _ _ _ _ _); reflexivity. Qed.
Lemma fit_aset sv b b1 r : fit sv b = Ok (b1, r) -> bd_A b1 = bd_A b.
Proof. unfold fit, solve_mip. destruct (bd_mip b); [|discriminate]. cbn. intro H. now injection H as <- _. Qed.
Lemma query_loop E sv A' : forall l b, only_queries E (bd_A b) A' ->
  audit_loop E sv (with_aset b A') l = (with_aset (fst (audit_loop E sv b l)) A', snd (audit_loop E sv b l)).
Proof.
  induction l as [|[i u] l IH]; intros b H; [reflexivity|]. cbn [audit_loop].
  rewrite (query_set_x E b A' u H). pose proof (set_x_aset E b u) as HA.
  destruct (set_x E b u) as [b1 [q|er]]; cbn [fst snd] in *; [|reflexivity].
  rewrite query_fit. destruct (fit sv b1) as [[b2 s]|er] eqn:HF; [|reflexivity].
  rewrite IH by (rewrite (fit_aset _ _ _ _ HF), HA; exact H).
  destruct (audit_loop E sv b2 l) as [b3 [o|er]]; reflexivity.
Qed.
Lemma query_populate sv et A' : forall fuel total b, populate sv fuel total et (with_aset b A') =
  match populate sv fuel total et b with Some (Ok (b1, l)) => Some (Ok (with_aset b1 A', l)) | Some (Err e) => Some (Err e) | None => None end.
Proof.
  assert (HL : forall fuel total b, populate_loop sv fuel total et (with_aset b A') =
    match populate_loop sv fuel total et b with Some (Ok (b1, l)) => Some (Ok (with_aset b1 A', l)) | Some (Err e) => Some (Err e) | None => None end).
  { induction fuel as [|fuel IH]; intros total b.
    - cbn. destruct total as [[|n]|]; reflexivity.
    - cbn [populate_loop]. destruct (match total with Some 0%nat => true | _ => false end); [reflexivity|].
      rewrite query_fit. destruct (fit sv b) as [[b1 [i|]]|]; try reflexivity.
      assert (HR : remove_solution et (with_aset b1 A') = match remove_solution et b1 with Ok b2 => Ok (with_aset b2 A') | Err e => Err e end).
      { unfold remove_solution, remove_all_features, remove_feature_combination, with_solution. cbn [bd_mip bd_sol bd_kind with_aset].
        destruct et, (bd_mip b1), (bd_sol b1) as [[]|]; reflexivity. }
      rewrite HR. destruct (remove_solution et b1); [|reflexivity]. rewrite IH.
      destruct (populate_loop sv fuel (option_map pred total) et a) as [[[b3 l]|]|]; reflexivity. }
  intros fuel total b. unfold populate. cbn [bd_mip with_aset]. destruct (bd_mip b); [|reflexivity].
  destruct total as [[|n]|]; [reflexivity| |]; apply HL.
Qed.
Lemma query_audit {I} E sv b A' (X : list (I * list fl)) y : only_queries E (bd_A b) A' ->
  audit E sv (with_aset b A') X y = (with_aset (fst (audit E sv b X y)) A', snd (audit E sv b X y)).
Proof.
  intro H. unfold audit. cbn [bd_w bd_t with_aset].
  match goal with |- context [match ?p with Ok _ => _ | Err _ => _ end] => destruct p as [rows|er]; [|reflexivity] end.
  rewrite (query_loop E sv A' _ b H).
  match goal with |- context [audit_loop E sv b ?l] => destruct (audit_loop E sv b l) as [b3 [[|o out]|er]]; reflexivity end.
Qed.

Lemma c14_builders : forall E sv b js, let A' := aset_run E (bd_A b) (map OQuery js) in
  (forall x, set_x E (with_aset b A') x = (with_aset (fst (set_x E b x)) A', snd (set_x E b x))) /\
  fit sv (with_aset b A') = (match fit sv b with Ok (b1, r) => Ok (with_aset b1 A', r) | Err e => Err e end) /\
  (forall fuel total et, populate sv fuel total et (with_aset b A') =
     match populate sv fuel total et b with Some (Ok (b1, l)) => Some (Ok (with_aset b1 A', l)) | Some (Err e) => Some (Err e) | None => None end) /\
  (forall I (X : list (I * list fl)) y, audit E sv (with_aset b A') X y = (with_aset (fst (audit E sv b X y)) A', snd (audit E sv b X y))).
Proof.
  intros E sv b js A'. pose proof (query_run E js (bd_A b)) as H. split; [|split; [|split]].
  - intro x. apply query_set_x, H.
  - apply query_fit.
  - intros. apply query_populate.
  - intros. apply query_audit, H.
Qed.
