(** Proofs for C133: features in other units, one by one. *)
From Verif Require Import Spec_units Proofs_props_element Proofs_props_actionset Proofs_actionset Proofs_bounds Proofs_element Proofs_values.
#[local] Open Scope string_scope.
#[local] Open Scope list_scope.
#[local] Open Scope Qc_scope.

Definition rmap {B C} (f : B -> C) (r : res B) : res C := match r with Ok a => Ok (f a) | Err x => Err x end.
Definition sb (c : Qc) (b : bound) : bound := {| b_type := b_type b; b_lb := c * b_lb b; b_ub := c * b_ub b; b_qlb := b_qlb b; b_qub := b_qub b |}.
Definition sc (c : Qc) (e : element) : element :=
  {| e_name := e_name e; e_values := map (Qcmult c) (e_values e); e_vtype := e_vtype e; e_flip := e_flip e; e_actionable := e_actionable e;
     e_bounds := sb c (e_bounds e); e_step_type := e_step_type e; e_step_size := e_step_size e; e_step_dir := e_step_dir e;
     e_grid := map (Qcmult c) (e_grid e); e_gint := e_gint e; e_interp := option_map (fun i => (map (Qcmult c) (fst i), snd i)) (e_interp e); e_extra := e_extra e |}.
Lemma map_one l : map (Qcmult 1) l = l.
Proof. induction l as [|a l IH]; [reflexivity|]. cbn. rewrite IH. f_equal. ring. Qed.
Lemma sb_one b : sb 1 b = b.
Proof. destruct b. unfold sb. cbn. f_equal; ring. Qed.
Lemma sc_one e : sc 1 e = e.
Proof. destruct e as [? ? ? ? ? b ? ? ? ? ? i ?]. unfold sc. cbn. rewrite !map_one, sb_one. destruct i as [[xs ys]|]; cbn; rewrite ?map_one; reflexivity. Qed.
Section One.
  Context (c : Qc) (Hc : 0 < c).
  Lemma cne : c <> 0. Proof. intro Q. rewrite Q in Hc. discriminate Hc. Qed.
  Lemma mul_le a b : c * a <= c * b <-> a <= b.
  Proof.
    split; intro H.
    - destruct (qle_spec a b) as [L|L]; [exact L|]. exfalso. assert (K : c * b < c * a) by (rewrite !(Qcmult_comm c); now apply Qcmult_lt_compat_r). apply (Qclt_not_le _ _ K H).
    - rewrite !(Qcmult_comm c). apply Qcmult_le_compat_r; [exact H|now apply Qclt_le_weak].
  Qed.
  Lemma mul_qle a b : (c * a <=? c * b) = (a <=? b).
  Proof. destruct (a <=? b) eqn:Q; qbool; [now apply mul_le|]. apply Qcnot_le_lt. intro K. apply (proj1 (mul_le _ _)) in K. apply (Qclt_not_le _ _ Q K). Qed.
  Lemma qlt_qle a b : (a <? b) = negb (b <=? a).
  Proof. destruct (b <=? a) eqn:Q; cbn; qbool; exact Q. Qed.
  Lemma mul_eq a b : c * a = c * b <-> a = b.
  Proof. split; [|congruence]. intro H. assert (K : c * a / c = c * b / c) by congruence. rewrite !(Qcmult_comm c), !Qcdiv_mult_l in K by exact cne. exact K. Qed.
  Lemma mul_qeq a b : (c * a =? c * b) = (a =? b).
  Proof. destruct (a =? b) eqn:Q; qbool; [congruence|]. intro K. apply Q. now apply mul_eq. Qed.
  Lemma qinsert_mul x l : qinsert (c * x) (map (Qcmult c) l) = map (Qcmult c) (qinsert x l).
  Proof. induction l as [|a l IH]; [reflexivity|]. cbn. rewrite mul_qle. destruct (x <=? a); cbn; [reflexivity|]. now rewrite IH. Qed.
  Lemma qsort_mul l : qsort (map (Qcmult c) l) = map (Qcmult c) (qsort l).
  Proof. induction l as [|a l IH]; [reflexivity|]. cbn. now rewrite IH, qinsert_mul. Qed.
  Lemma np_percentile_mul vs q : np_percentile (map (Qcmult c) vs) q = option_map (Qcmult c) (np_percentile vs q).
  Proof.
    unfold np_percentile. rewrite qsort_mul. destruct (qsort vs) as [|v0 s]; [reflexivity|]. cbn [map]. rewrite <- map_cons.
    cbn [option_map]. f_equal. rewrite map_length. cbv zeta. set (i := Z.to_nat _). set (fr := _ - _).
    change (c * v0 :: map (Qcmult c) s) with (map (Qcmult c) (v0 :: s)). rewrite !map_nth. ring.
  Qed.
  Lemma arange_mul a b s : s <> 0 -> np_arange (c * a) (c * b) (c * s) = map (Qcmult c) (np_arange a b s).
  Proof.
    intro Hs. unfold np_arange. rewrite map_map. replace ((c * b - c * a) / (c * s)) with ((b - a) / s); [apply map_ext; intro i; ring|].
    field. split; [exact Hs|exact cne].
  Qed.
  Lemma qmem_mul x l : qmem (c * x) (map (Qcmult c) l) = qmem x l.
  Proof. unfold qmem. induction l as [|a l IH]; [reflexivity|]. cbn. now rewrite IH, mul_qeq. Qed.
  Lemma distinct_mul l : all_distinct (map (Qcmult c) l) = all_distinct l.
  Proof. induction l as [|a l IH]; [reflexivity|]. cbn. now rewrite IH, qmem_mul. Qed.
  Lemma nondecr_mul l : nondecr (map (Qcmult c) l) = nondecr l.
  Proof. induction l as [|a [|b l] IH]; [reflexivity|reflexivity|]. cbn [map nondecr] in *. now rewrite IH, mul_qle. Qed.
  Lemma percentile_type (u : string) : u = "percentile" \/ u = "p" -> parse_btype (PStr u) = Ok Percentile.
  Proof. intros [-> | ->]; reflexivity. Qed.
  Lemma mk_bound_mul vs lo hi u : determine_variable_type vs = TFloat -> determine_variable_type (map (Qcmult c) vs) = TFloat -> u = "percentile" \/ u = "p" ->
    mk_bound (map (Qcmult c) vs) lo hi (PStr u) = rmap (sb c) (mk_bound vs lo hi (PStr u)).
  Proof.
    intros H1 H2 Hu. unfold mk_bound. rewrite H1, H2, (percentile_type u Hu). cbn [bind]. destruct (percentile_arg lo) as [ql|]; [|reflexivity]. cbn [bind].
    destruct (percentile_arg hi) as [qu|]; [|reflexivity]. cbn [bind]. rewrite !np_percentile_mul. destruct (np_percentile vs ql) as [l|]; [|reflexivity]. destruct (np_percentile vs qu) as [v|]; [|reflexivity].
    cbn [option_map of_option bind]. rewrite mul_qle. destruct (l <=? v); reflexivity.
  Qed.
End One.
(** Features that may be measured in other units. *)
Definition okc (c : Qc) (e : element) : Prop :=
  0 < c /\ (c <> 1 -> e_vtype e = TFloat /\ e_step_type e = Relative /\ b_type (e_bounds e) = Percentile /\
                      determine_variable_type (e_values e) = TFloat /\ determine_variable_type (map (Qcmult c) (e_values e)) = TFloat).
Definition commutes (c : Qc) (f : element -> res element) (e : element) : Prop := f (sc c e) = rmap (sc c) (f e) /\ forall e', f e = Ok e' -> okc c e'.
Lemma bound_ptype vs lo hi u b : u = "percentile" \/ u = "p" -> mk_bound vs lo hi (PStr u) = Ok b -> b_type b = Percentile.
Proof.
  intros Hu H. unfold mk_bound in H. rewrite (percentile_type u Hu) in H. cbn [bind] in H. bnd H as r0 H0. destruct r0 as [[[l v] ql] qu]. bnd H as u1 H1. destruct (determine_variable_type vs); injection H as <-; reflexivity.
Qed.
Lemma commutes_one f e : okc 1 e -> commutes 1 f e.
Proof. intro H. split; [rewrite sc_one; destruct (f e) as [e'|]; [cbn; now rewrite sc_one|reflexivity]|]. intros e' _. split; [reflexivity|]. intro Q. now contradiction Q. Qed.
Ltac same_side H := split; [reflexivity|intros e' H; exact H].
Lemma actionable_commutes c e v : okc c e -> commutes c (fun e => set_actionable e v) e.
Proof.
  intros (Hc & H). split.
  - unfold set_actionable. destruct v as [| | | | | | | | |]; repeat (match goal with |- context [match ?x with _ => _ end] => destruct x end; try reflexivity); cbn; repeat (match goal with |- context [passert ?x] => destruct x end; try reflexivity).
  - intros e' H'. apply set_actionable_ok in H'. destruct H' as (a & ->). split; [exact Hc|exact H].
Qed.
Lemma sign_commutes c e v (f : element -> Z -> element) : (forall z, f (sc c e) z = sc c (f e z)) -> (forall z, okc c (f e z)) -> commutes c (fun e => let! s := sign_arg v in Ok (f e s)) e.
Proof. intros H1 H2. split; destruct (sign_arg v) as [s|]; cbn; try congruence. intros e' Q. injection Q as <-. apply H2. Qed.
Lemma size_commutes c e v : okc c e -> commutes c (fun e => set_step_size e v) e.
Proof.
  intros (Hc & H). split.
  - assert (K : forall f, match f with
      | Fin q => let! _ := passert (0 <? q) in let! _ := match e_step_type e with Relative => passert (q <=? 1) | _ => Ok tt end in Ok (with_step_size (sc c e) q)
      | PosInf => match e_step_type e with Relative => Err AssertionError | _ => Err Unmodelled end
      | _ => Err AssertionError end = rmap (sc c) (match f with
      | Fin q => let! _ := passert (0 <? q) in let! _ := match e_step_type e with Relative => passert (q <=? 1) | _ => Ok tt end in Ok (with_step_size e q)
      | PosInf => match e_step_type e with Relative => Err AssertionError | _ => Err Unmodelled end
      | _ => Err AssertionError end)).
    { intros [q| | |]; try reflexivity; [|destruct (e_step_type e); reflexivity]. destruct (0 <? q); cbn; [|reflexivity]. destruct (e_step_type e); cbn; [|reflexivity]. destruct (q <=? 1); reflexivity. }
    unfold set_step_size. cbn [e_step_type sc]. destruct v as [|q0|q0|f0|q0|q0|l|l|l|q0]; try reflexivity; [exact (K (Fin (if q0 then 1 else 0)))|exact (K (Fin (qz q0)))|exact (K f0)|]. destruct l as [|f0 [|q1 l]]; try reflexivity; exact (K f0).
  - intros e' H'. apply set_step_size_ok in H'. destruct H' as (q & _ & _ & ->). split; [exact Hc|exact H].
Qed.
Lemma with_bounds_sc c e b : with_bounds (sc c e) (sb c b) = sc c (with_bounds e b).
Proof. reflexivity. Qed.
Lemma bound_commutes c e lo hi u : okc c e -> c <> 1 -> u = "percentile" \/ u = "p" ->
  commutes c (fun e => let! b := mk_bound (e_values e) lo hi (PStr u) in Ok (with_bounds e b)) e.
Proof.
  intros (Hc & H) Hn Hu. destruct (H Hn) as (H1 & H2 & H3 & H4 & H5). split.
  - cbn [e_values sc]. rewrite (mk_bound_mul c Hc _ _ _ _ H4 H5 Hu). destruct (mk_bound _ _ _ _) as [b|]; reflexivity.
  - intros e' H'. bnd H' as b Hb. injection H' as <-. split; [exact Hc|]. intros _. cbn. apply bound_ptype in Hb; [|exact Hu]. auto.
Qed.
Lemma bounds_commutes c e v : okc c e -> by_percentile v -> commutes c (fun e => set_bounds e v) e.
Proof.
  intros H (lo & hi & u & Hv & Hu). destruct (qeq_spec c 1) as [->|Hn]; [now apply commutes_one|]. pose proof (bound_commutes c e lo hi u H Hn Hu) as K. destruct Hv as [-> | ->]; exact K.
Qed.
Lemma lb_commutes c e v : okc c e -> commutes c (fun e => set_lb e v) e.
Proof.
  intro H. destruct (qeq_spec c 1) as [->|Hn]; [now apply commutes_one|]. pose proof (bound_commutes c e v (PFloat (Fin (b_qub (e_bounds e)))) "percentile" H Hn (or_introl eq_refl)) as (K1 & K2).
  destruct H as (Hc & H). destruct (H Hn) as (H1 & H2 & H3 & H4 & H5). split.
  - cbv beta in *. unfold set_lb. cbn [sc e_bounds sb b_type b_qub e_values]. rewrite H3. exact K1.
  - unfold set_lb. rewrite H3. exact K2.
Qed.
Lemma ub_commutes c e v : okc c e -> commutes c (fun e => set_ub e v) e.
Proof.
  intro H. destruct (qeq_spec c 1) as [->|Hn]; [now apply commutes_one|]. pose proof (bound_commutes c e (PFloat (Fin (b_qlb (e_bounds e)))) v "percentile" H Hn (or_introl eq_refl)) as (K1 & K2).
  destruct H as (Hc & H). destruct (H Hn) as (H1 & H2 & H3 & H4 & H5). split.
  - cbv beta in *. unfold set_ub. cbn [sc e_bounds sb b_type b_qlb e_values]. rewrite H3. exact K1.
  - unfold set_ub. rewrite H3. exact K2.
Qed.
Definition unit_names : list string := ["actionable"; "step_direction"; "flip_direction"; "step_size"; "lb"; "ub"].
Lemma setattr_commutes c e n v : okc c e -> In n unit_names \/ (n = "bounds" /\ by_percentile v) -> commutes c (elem_setattr n v) e.
Proof.
  intros H [Hn|[-> Hv]]; [|exact (bounds_commutes c e v H Hv)].
  destruct Hn as [<-|[<-|[<-|[<-|[<-|[<-|[]]]]]]].
  - exact (actionable_commutes c e v H).
  - apply (sign_commutes c e v with_step_dir); [reflexivity|]. intro z0. exact H.
  - apply (sign_commutes c e v (fun e s => with_flip e (Some s))); [reflexivity|]. intro z0. exact H.
  - exact (size_commutes c e v H).
  - exact (lb_commutes c e v H).
  - exact (ub_commutes c e v H).
Qed.
Lemma grid_commutes c e : okc c e -> commutes c update_grid e.
Proof.
  intro H. destruct (qeq_spec c 1) as [->|Hn]; [now apply commutes_one|]. destruct H as (Hc & H). destruct (H Hn) as (H1 & H2 & H3 & H4 & H5). split.
  - unfold update_grid. assert (A1 : grid_start (sc c e) = c * grid_start e) by (unfold grid_start; cbn [sc e_vtype]; rewrite H1; reflexivity).
    assert (A2 : grid_stop (sc c e) = c * grid_stop e) by (unfold grid_stop; cbn [sc e_vtype]; rewrite H1; reflexivity).
    assert (A3 : grid_step (sc c e) = c * grid_step e).
    { unfold grid_step. rewrite A1, A2. cbn [sc e_vtype e_step_type e_step_size]. rewrite H1, H2. ring. }
    rewrite A1, A2, A3. replace (c * grid_stop e + c * grid_step e) with (c * (grid_stop e + grid_step e)) by ring.
    destruct (qeq_spec (grid_step e) 0) as [Z0|Z0].
    + rewrite Z0. replace (c * 0) with 0 by ring. reflexivity.
    + assert (Q : (c * grid_step e =? 0) = false). { apply qeq_false. intro Q. apply Z0. apply (mul_eq c Hc). rewrite Q. ring. }
      rewrite Q. cbn [rmap]. rewrite (arange_mul c Hc) by exact Z0. reflexivity.
  - unfold update_grid. intros e' H'. destruct (grid_step e =? 0); [discriminate H'|]. injection H' as <-. split; [exact Hc|]. intros _. cbn. auto.
Qed.
Lemma check_commutes c e : 0 < c -> element_check_rep (sc c e) = element_check_rep e.
Proof. intro Hc. unfold element_check_rep, e_lb, e_ub. cbn [sc e_bounds sb b_lb b_ub e_grid]. now rewrite (mul_qle c Hc), (distinct_mul c Hc), (nondecr_mul c Hc). Qed.
Lemma dvt_fraction l : (exists v, In v l /\ ~ is_int v) <-> determine_variable_type l = TFloat.
Proof.
  unfold determine_variable_type. destruct (forallb is_integer l) eqn:Q.
  - apply forallb_ints in Q. rewrite Forall_forall in Q. split; [intros (v & Hv & Hn); destruct (Hn (Q v Hv))|]. intro H. destruct (forallb _ l); discriminate H.
  - split; [reflexivity|]. intros _. apply Bool.not_true_iff_false in Q. clear -Q. induction l as [|a l IH]; [destruct Q; reflexivity|]. cbn in Q. destruct (is_integer a) eqn:Ia.
    + destruct IH as (v & Hv & Hn); [exact Q|]. exists v. split; [now right|exact Hn].
    + exists a. split; [now left|]. intro K. apply Bool.not_true_iff_false in Ia. apply Ia. now apply is_integer_iff.
Qed.
Lemma dvt_sorted l : determine_variable_type l = TFloat -> determine_variable_type (qsort l) = TFloat.
Proof. intro H. apply dvt_fraction in H. destruct H as (v & Hv & Hn). apply dvt_fraction. exists v. split; [|exact Hn]. apply (Permutation_in v (Permutation_sym (qsort_perm l)) Hv). Qed.
Lemma qsort_map_sorted c l : 0 < c -> determine_variable_type (map (Qcmult c) l) = TFloat -> determine_variable_type (map (Qcmult c) (qsort l)) = TFloat.
Proof. intros Hc H. rewrite <- (qsort_mul c Hc). now apply dvt_sorted. Qed.
Lemma element_commutes c n vs bnds : 0 < c -> determine_variable_type vs = TFloat -> determine_variable_type (map (Qcmult c) vs) = TFloat -> by_percentile bnds ->
  mk_element n (map (Qcmult c) vs) bnds (PType TFloat) (PBool true) (PStr "relative") (PInt 0) default_step_size =
    rmap (sc c) (mk_element n vs bnds (PType TFloat) (PBool true) (PStr "relative") (PInt 0) default_step_size) /\
  (forall e, mk_element n vs bnds (PType TFloat) (PBool true) (PStr "relative") (PInt 0) default_step_size = Ok e -> okc c e).
Proof.
  intros Hc H1 H2 (lo & hi & u & Hv & Hu). pose proof (dvt_sorted _ H1) as D1. pose proof (qsort_map_sorted c vs Hc H2) as D2.
  assert (G : forall b, mk_bound (qsort vs) lo hi (PStr u) = Ok b -> forall e, e = with_step_dir (with_step_size (with_step_type (with_bounds {| e_name := n; e_values := qsort vs; e_vtype := TFloat; e_flip := None; e_actionable := true;
               e_bounds := {| b_type := Absolute; b_lb := 0; b_ub := 0; b_qlb := 0; b_qub := 0 |};
               e_step_type := Relative; e_step_size := 0; e_step_dir := 0%Z; e_grid := []; e_gint := false; e_interp := None;
               e_extra := [] |} b) Relative) (qfrac 1 100)) 0%Z -> okc c e).
  { intros b Hb e ->. split; [exact Hc|]. intros _. apply bound_ptype in Hb; [|exact Hu]. cbn. auto. }
  assert (SB : forall (v : pyval) e, v = PTuple [lo; hi; PStr u] \/ v = PList [lo; hi; PStr u] -> set_bounds e v = let! b := mk_bound (e_values e) lo hi (PStr u) in Ok (with_bounds e b)) by (intros v e [-> | ->]; reflexivity).
  assert (SS : forall e, e_step_type e = Relative -> set_step_size e default_step_size = Ok (with_step_size e (qfrac 1 100))).
  { intros e He. unfold set_step_size, default_step_size. cbn [pynum]. rewrite He. reflexivity. }
  unfold mk_element. rewrite (qsort_mul c Hc), map_length. destruct (negb (n =? "")%string); [|split; [reflexivity|intros e9 Q; discriminate Q]]. cbn [passert bind].
  destruct (negb (Nat.eqb (length (qsort vs)) 0)); [|split; [reflexivity|intros e9 Q; discriminate Q]]. cbn [passert bind set_variable_type]. unfold set_actionable. cbn [is01 pynum].
  change ((1 =? 0) || (1 =? 1)) with true. cbn [passert bind]. rewrite !(SB bnds _ Hv). cbn [e_values with_actionable with_vtype]. rewrite (mk_bound_mul c Hc _ _ _ _ D1 D2 Hu).
  destruct (mk_bound (qsort vs) lo hi (PStr u)) as [b|] eqn:Hb; [|split; [reflexivity|intros e9 Q; discriminate Q]]. cbn [rmap bind]. unfold set_step_type. cbn [String.eqb Ascii.eqb Bool.eqb bind].
  rewrite !SS by reflexivity. cbn [bind]. unfold set_step_direction. cbn [sign_arg pynum bind]. change (qsign (qz 0)) with 0%Z.
  specialize (G b eq_refl _ eq_refl). match type of G with okc c ?e => set (eG := e) in * end.
  destruct (grid_commutes c eG G) as (K1 & K2).
  match goal with |- (let! e7 := update_grid ?x in _) = _ /\ _ => change x with (sc c eG) end.
  split.
  - rewrite K1. match goal with |- _ = rmap _ (let! e7 := update_grid ?x in _) => change x with eG end. destruct (update_grid eG) as [e7|]; [|reflexivity]. cbn [rmap bind]. rewrite (check_commutes c e7 Hc). destruct (element_check_rep e7); reflexivity.
  - intros e H. match type of H with (let! e7 := update_grid ?x in _) = _ => change x with eG in H end. bnd H as e7 H7. bnd H as u0 H8. injection H as <-. now apply K2.
Qed.

(** ** Action sets *)
Definition sc_elems (cs : list Qc) (es : list element) : list element := map (fun p => sc (fst p) (snd p)) (combine cs es).
Definition sc_set (cs : list Qc) (A : action_set) : action_set := with_elems A (sc_elems cs (as_elems A)).
Lemma column_commutes c n col custom dflt : 0 < c -> (c <> 1 -> (exists v, In v col /\ ~ is_int v) /\ (exists v, In v col /\ ~ is_int (c * v))) -> by_percentile dflt -> (forall n v, dget n custom = Some v -> by_percentile v) ->
  mk_column_element custom dflt (PStr "relative") n (map (Qcmult c) col) = rmap (sc c) (mk_column_element custom dflt (PStr "relative") n col) /\
  (forall e, mk_column_element custom dflt (PStr "relative") n col = Ok e -> okc c e).
Proof.
  intros Hc H HD HCu. destruct (qeq_spec c 1) as [->|Hn].
  - rewrite map_one. split; [destruct (mk_column_element _ _ _ _ _); cbn; rewrite ?sc_one; reflexivity|]. intros e _. split; [reflexivity|]. intro Q. now contradiction Q.
  - destruct (H Hn) as (H1 & (v & Hv & Hvn)). apply dvt_fraction in H1. assert (H2 : determine_variable_type (map (Qcmult c) col) = TFloat) by (apply dvt_fraction; exists (c * v); split; [now apply in_map|exact Hvn]).
    unfold mk_column_element. rewrite H1, H2. apply element_commutes; auto. destruct (dget n custom) as [b|] eqn:Q; [exact (HCu _ _ Q)|exact HD].
Qed.
Lemma rescaled_column (cs : list Qc) X (names : list string) j c : (forall row, In row X -> length row = length names) -> length cs = length names -> nth_error cs j = Some c ->
  column (map (in_units cs) X) j = map (Qcmult c) (column X j).
Proof.
  intros HX HL Hj. unfold column. rewrite !map_map. apply map_ext_in. intros row Hr. specialize (HX row Hr). unfold in_units.
  assert (Hlt : (j < length cs)%nat) by (apply nth_error_Some; congruence).
  assert (K : nth_error (map (fun p => fst p * snd p) (combine cs row)) j = Some (c * nth j row 0)).
  { rewrite nth_error_map. rewrite (nth_error_nth' (combine cs row) (0, 0)) by (rewrite combine_length; lia). rewrite combine_nth by congruence. cbn. f_equal. f_equal. now apply nth_error_nth. }
  exact (nth_error_nth _ _ 0 K).
Qed.
Lemma mapM_zip {B} (f f' : B -> res element) l : forall cs, length cs = length l -> (forall j b c, nth_error l j = Some b -> nth_error cs j = Some c -> f' b = rmap (sc c) (f b)) ->
  mapM f' l = rmap (sc_elems cs) (mapM f l).
Proof.
  induction l as [|b l IH]; intros [|c cs] HL H; try discriminate HL; [reflexivity|]. cbn [mapM]. rewrite (H 0%nat b c eq_refl eq_refl). destruct (f b) as [e|]; [|reflexivity]. cbn [rmap bind].
  rewrite (IH cs); [|now injection HL|intros j; exact (H (S j))]. destruct (mapM f l); reflexivity.
Qed.
Definition oks (cs : list Qc) (A : action_set) : Prop := Forall2 okc cs (as_elems A).
Lemma creation_commutes X names cs y custom dflt A : unit_change X names cs -> by_percentile dflt -> (forall n v, dget n custom = Some v -> by_percentile v) ->
  mk_action_set X names y custom dflt (PStr "relative") = Ok A -> mk_action_set (map (in_units cs) X) names y custom dflt (PStr "relative") = Ok (sc_set cs A) /\ oks cs A.
Proof.
  intros (HL & HU) HD HCu H. pose proof (mk_aset_spec _ _ _ _ _ _ _ H) as (HN & HT & En & Ec & Ey & HLe & HE).
  assert (HX : forall row, In row X -> length row = length names). { destruct HT as [_ HT]. rewrite Forall_forall in HT. exact HT. }
  assert (HCm : forall j n c, nth_error names j = Some n -> nth_error cs j = Some c ->
    mk_column_element custom dflt (PStr "relative") n (column (map (in_units cs) X) j) = rmap (sc c) (mk_column_element custom dflt (PStr "relative") n (column X j)) /\
    (forall e, mk_column_element custom dflt (PStr "relative") n (column X j) = Ok e -> okc c e)).
  { intros j n c Hn Hj. rewrite (rescaled_column cs X names j c HX HL Hj). destruct (HU j c Hj) as (Hc & Hx). now apply column_commutes. }
  split.
  - unfold mk_action_set in *. bnd H as u1 H1. bnd H as u2 H2. bnd H as u3 H3. bnd H as es H4. bnd H as u5 H5. rewrite H1. cbn [bind]. rewrite map_length, H2. cbn [bind].
    assert (F : forallb (fun row => Nat.eqb (length row) (length names)) (map (in_units cs) X) = true).
    { apply forallb_forall. intros row Hr. apply in_map_iff in Hr. destruct Hr as (r & <- & Hr). apply Nat.eqb_eq. unfold in_units. rewrite map_length, combine_length, HL, (HX r Hr). lia. }
    rewrite F. cbn [passert bind].
    rewrite (mapM_zip (fun p => mk_column_element custom dflt (PStr "relative") (snd p) (column X (fst p))) _ _ cs).
    + rewrite H4. cbn [rmap bind]. rewrite H5. cbn [bind]. injection H as <-. reflexivity.
    + rewrite combine_length, seq_length. lia.
    + intros j [i n] c Hj Hcj. cbn [fst snd]. assert (K : i = j /\ nth_error names j = Some n).
      { clear -Hj. assert (G : forall k l, nth_error (combine (seq k (length l)) l) j = Some (i, n) -> i = (k + j)%nat /\ nth_error l j = Some n).
        { induction j as [|j IH]; intros k [|a l] Q; cbn in Q; try discriminate Q; [injection Q as <- <-; split; [lia|reflexivity]|]. clear Hj. revert k Q. revert a. 
          intros a k Q. specialize (IH). assert (T : i = (S k + j)%nat /\ nth_error l j = Some n). { clear IH. revert l k Q. clear. revert i n. induction j as [|j IH]; intros i n [|a l] k Q; cbn in Q; try discriminate Q; [injection Q as <- <-; split; [lia|reflexivity]|]. apply IH in Q. destruct Q as [-> Q]. split; [lia|exact Q]. }
          destruct T as [-> T]. split; [lia|exact T]. }
        apply G in Hj. exact Hj. }
      destruct K as (-> & K). exact (proj1 (HCm j n c K Hcj)).
  - unfold oks. apply Forall2_nth. split; [congruence|]. intros j c e Hj He. assert (Hlt : (j < length names)%nat) by (rewrite <- HL; apply nth_error_Some; congruence).
    destruct (nth_error names j) as [n|] eqn:Hn; [|apply nth_error_None in Hn; lia]. exact (proj2 (HCm j n c Hn Hj) e (HE j n e Hn He)).
Qed.

(** ** Edits *)
Lemma sc_nth cs es p e : length cs = length es -> nth_error es p = Some e -> exists c, nth_error cs p = Some c /\ nth_error (sc_elems cs es) p = Some (sc c e).
Proof.
  unfold sc_elems. revert cs p. induction es as [|a es IH]; intros [|c cs] [|p] HL H; try discriminate HL; try discriminate H; cbn in *.
  - injection H as <-. eauto.
  - injection HL as HL. exact (IH cs p HL H).
Qed.
Lemma sc_nth_none cs es p : length cs = length es -> nth_error es p = None -> nth_error (sc_elems cs es) p = None.
Proof. intros HL H. apply nth_error_None. apply nth_error_None in H. unfold sc_elems. rewrite map_length, combine_length. lia. Qed.
Lemma sc_list_set cs es p c e : length cs = length es -> nth_error cs p = Some c -> list_set p (sc c e) (sc_elems cs es) = sc_elems cs (list_set p e es).
Proof.
  unfold sc_elems. revert cs p. induction es as [|a es IH]; intros [|d cs] [|p] HL H; try discriminate HL; try discriminate H; cbn in *.
  - injection H as ->. reflexivity.
  - injection HL as HL. now rewrite (IH cs p HL H).
Qed.
Lemma ok_list_set cs es p c e : Forall2 okc cs es -> nth_error cs p = Some c -> okc c e -> Forall2 okc cs (list_set p e es).
Proof.
  intro H. revert p. induction H as [|d a cs es Ha H IH]; intros [|p] Hp Ho; cbn in *; try discriminate Hp.
  - injection Hp as ->. constructor; assumption.
  - constructor; [assumption|]. now apply IH.
Qed.
Lemma ok_nth cs es p c e : Forall2 okc cs es -> nth_error cs p = Some c -> nth_error es p = Some e -> okc c e.
Proof. intros H H1 H2. apply Forall2_nth in H. destruct H as [_ H]. exact (H p c e H1 H2). Qed.
Definition unit_value (n : string) (v : pyval) : Prop := In n unit_names \/ (n = "bounds" /\ by_percentile v).
Lemma loop_commutes cs n vals work es : In n unit_names -> Forall2 okc cs es ->
  assign_loop n vals work (sc_elems cs es) = (sc_elems cs (fst (assign_loop n vals work es)), snd (assign_loop n vals work es)) /\ Forall2 okc cs (fst (assign_loop n vals work es)).
Proof.
  intro Hn. revert es. induction work as [|[p j] work IH]; intros es HO; cbn [assign_loop]; [auto|]. pose proof (Forall2_length _ _ _ HO) as HL.
  destruct (nth_error es p) as [e|] eqn:He.
  - destruct (sc_nth cs es p e HL He) as (c & Hc & ->). destruct (nth_error vals j) as [v|]; [|auto].
    destruct (setattr_commutes c e n v (ok_nth _ _ _ _ _ HO Hc He) (or_introl Hn)) as (K1 & K2). rewrite K1. destruct (elem_setattr n v e) as [e'|]; [|auto]. cbn [rmap].
    rewrite (sc_list_set cs es p c e' HL Hc). apply IH. exact (ok_list_set _ _ _ _ _ HO Hc (K2 e' eq_refl)).
  - rewrite (sc_nth_none cs es p HL He). auto.
Qed.
Lemma sc_names cs A : length cs = length (as_elems A) -> map e_name (as_elems (sc_set cs A)) = map e_name (as_elems A).
Proof. unfold sc_set, sc_elems. cbn. revert cs. induction (as_elems A) as [|e es IH]; intros [|c cs] H; try discriminate H; [reflexivity|]. cbn. f_equal. apply IH. now injection H. Qed.
Lemma slice_sc cs A ps : length cs = length (as_elems A) -> slice_dict (sc_set cs A) ps = slice_dict A ps.
Proof.
  intro HL. unfold slice_dict. f_equal. generalize (@nil (string * (nat * nat))). induction (combine ps (seq 0 (length ps))) as [|[p j] l IH]; intro d; [reflexivity|]. cbn [fold_left fst].
  destruct (nth_error (as_elems A) p) as [e|] eqn:He.
  - destruct (sc_nth cs _ p e HL He) as (c & _ & K). change (as_elems (sc_set cs A)) with (sc_elems cs (as_elems A)). rewrite K. apply IH.
  - change (as_elems (sc_set cs A)) with (sc_elems cs (as_elems A)). rewrite (sc_nth_none cs _ p HL He). apply IH.
Qed.
Lemma select_sc cs A i : select (sc_set cs A) i = select A i.
Proof. reflexivity. Qed.
Lemma aligned_sc cs es : length cs = length es -> forallb e_aligned (sc_elems cs es) = forallb e_aligned es.
Proof. unfold sc_elems. revert cs. induction es as [|e es IH]; intros [|c cs] H; try discriminate H; [reflexivity|]. cbn. rewrite IH by now injection H. reflexivity. Qed.
Lemma set_set_commutes cs A n v : In n unit_names -> oks cs A -> set_setattr (sc_set cs A) n v = (sc_set cs (fst (set_setattr A n v)), snd (set_setattr A n v)) /\ oks cs (fst (set_setattr A n v)).
Proof.
  intros Hn HO. unfold set_setattr. destruct (elem_hasattr n); [|auto]. change (as_len (sc_set cs A)) with (as_len A). destruct (expand_values v (as_len A)) as [vals|]; [|auto].
  destruct (loop_commutes cs n vals (map (fun j => (j, j)) (seq 0 (as_len A))) (as_elems A) Hn HO) as (K1 & K2). change (as_elems (sc_set cs A)) with (sc_elems cs (as_elems A)). rewrite K1.
  destruct (assign_loop _ _ _ (as_elems A)) as [es r]. cbn [fst snd] in *. auto.
Qed.
Lemma index_set_commutes cs A i n v : In n unit_names \/ (n = "bounds" /\ by_percentile v /\ ((exists s, i = IStr s) \/ exists p, i = IInt p)) -> oks cs A ->
  index_setattr (sc_set cs A) i n v = (sc_set cs (fst (index_setattr A i n v)), snd (index_setattr A i n v)) /\ oks cs (fst (index_setattr A i n v)).
Proof.
  intros Hn HO. pose proof (Forall2_length _ _ _ HO) as HL. unfold index_setattr. rewrite select_sc. destruct (select A i) as [ps|]; [|auto].
  assert (K1 : let F A := match ps with
          | [p] => match nth_error (as_elems A) p with
                   | Some e => match elem_setattr n v e with
                               | Ok e' => (with_elems A (list_set p e' (as_elems A)), Ok tt)
                               | Err x => (A, Err x)
                               end
                   | None => (A, Err KeyError)
                   end
          | _ => (A, Err KeyError)
          end in F (sc_set cs A) = (sc_set cs (fst (F A)), snd (F A)) /\ oks cs (fst (F A))).
  { cbv beta zeta. destruct ps as [|p [|q ps]]; auto. change (as_elems (sc_set cs A)) with (sc_elems cs (as_elems A)). destruct (nth_error (as_elems A) p) as [e|] eqn:He; [|rewrite (sc_nth_none _ _ _ HL He); auto].
    destruct (sc_nth cs _ p e HL He) as (c & Hc & ->). destruct (setattr_commutes c e n v (ok_nth _ _ _ _ _ HO Hc He)) as (K1 & K2); [destruct Hn as [Hn|(Hn & Hv & _)]; auto|].
    rewrite K1. destruct (elem_setattr n v e) as [e'|]; [|auto]. cbn [rmap fst snd]. rewrite (sc_list_set cs _ p c e' HL Hc). split; [reflexivity|]. exact (ok_list_set _ _ _ _ _ HO Hc (K2 e' eq_refl)). }
  cbv zeta in K1.
  assert (K2 : In n unit_names -> let F A := if elem_hasattr n then
            let work := slice_dict A ps in
            match expand_values v (length work) with
            | Err x => (A, Err x)
            | Ok vals =>
                let '(es, r) := assign_loop n vals work (as_elems A) in
                (with_elems A es, r)
            end
          else (A, Err AssertionError) in F (sc_set cs A) = (sc_set cs (fst (F A)), snd (F A)) /\ oks cs (fst (F A))).
  { intro Hu. cbv beta zeta. destruct (elem_hasattr n); [|auto]. rewrite (slice_sc cs A ps HL). destruct (expand_values v _) as [vals|]; [|auto].
    destruct (loop_commutes cs n vals (slice_dict A ps) (as_elems A) Hu HO) as (Q1 & Q2). change (as_elems (sc_set cs A)) with (sc_elems cs (as_elems A)). rewrite Q1.
    destruct (assign_loop _ _ _ (as_elems A)) as [es r]. cbn [fst snd] in *. auto. }
  cbv zeta in K2. destruct i; try exact K1; (destruct Hn as [Hn|(_ & _ & [(? & Hn)|(? & Hn)])]; [exact (K2 Hn)|discriminate Hn|discriminate Hn]).
Qed.
Lemma step_commutes E cs A o : unit_free o -> oks cs A -> aset_step E (sc_set cs A) o = sc_set cs (aset_step E A o) /\ oks cs (aset_step E A o).
Proof.
  destruct o; cbn [unit_free aset_step]; intros Hu HO; try contradiction; pose proof (Forall2_length _ _ _ HO) as HL.
  - destruct (set_set_commutes cs A attr v Hu HO) as (K1 & K2). rewrite K1. auto.
  - destruct (index_set_commutes cs A i attr v Hu HO) as (K1 & K2). rewrite K1. auto.
  - unfold on_elem. change (as_elems (sc_set cs A)) with (sc_elems cs (as_elems A)). destruct (nth_error (as_elems A) j) as [e|] eqn:He; [|rewrite (sc_nth_none _ _ _ HL He); auto].
    destruct (sc_nth cs _ j e HL He) as (c & Hc & ->). destruct (grid_commutes c e (ok_nth _ _ _ _ _ HO Hc He)) as (K1 & K2). cbn [elem_step]. rewrite K1. destruct (update_grid e) as [e'|]; cbn [rmap].
    + split; [|exact (ok_list_set _ _ _ _ _ HO Hc (K2 e' eq_refl))]. unfold sc_set. cbn [as_elems with_elems]. rewrite <- (sc_list_set cs _ j c e' HL Hc). reflexivity.
    + split; [|exact (ok_list_set _ _ _ _ _ HO Hc (ok_nth _ _ _ _ _ HO Hc He))]. unfold sc_set. cbn [as_elems with_elems]. rewrite <- (sc_list_set cs _ j c e HL Hc). reflexivity.
  - unfold set_y_desired. destruct (_ || _ || _)%Z; [|auto]. cbn [passert bind]. change (as_y (sc_set cs A)) with (as_y A). destruct (y =? as_y A)%Z; [auto|].
    unfold alignment_known. cbn [as_elems with_y sc_set with_elems]. rewrite (aligned_sc cs _ HL). destruct (forallb e_aligned (as_elems A)); [|auto]. split.
    + unfold sc_set, with_elems. cbn. f_equal. unfold sc_elems. clear -HL. revert cs HL. induction (as_elems A) as [|e es IH]; intros [|c cs] HL; try discriminate HL; [reflexivity|]. cbn. rewrite IH by now injection HL. reflexivity.
    + unfold oks. cbn [as_elems]. clear -HO. unfold oks in HO. induction HO as [|c e cs es H HO IH]; constructor; [exact H|exact IH].
Qed.
Lemma run_commutes E cs edits A : Forall unit_free edits -> oks cs A -> aset_run E (sc_set cs A) edits = sc_set cs (aset_run E A edits) /\ oks cs (aset_run E A edits).
Proof.
  unfold aset_run. intro H. revert A. induction H as [|o edits Ho _ IH]; intros A HO; [auto|]. cbn [fold_left]. destruct (step_commutes E cs A o Ho HO) as (K1 & K2). rewrite K1. now apply IH.
Qed.
