(** Proofs for C134: features measured from other zeros, one by one. *)
From Verif Require Import Spec_origin Proofs_props_element Proofs_props_actionset Proofs_actionset Proofs_bounds Proofs_element Proofs_values Proofs_num Proofs_units Spec_setup Proofs_setup.
#[local] Open Scope string_scope.
#[local] Open Scope list_scope.
#[local] Open Scope Qc_scope.

Definition pl (d v : Qc) : Qc := v + d.
Definition tb (d : Qc) (b : bound) : bound := {| b_type := b_type b; b_lb := pl d (b_lb b); b_ub := pl d (b_ub b); b_qlb := b_qlb b; b_qub := b_qub b |}.
Definition sh (d : Qc) (e : element) : element :=
  {| e_name := e_name e; e_values := map (pl d) (e_values e); e_vtype := e_vtype e; e_flip := e_flip e; e_actionable := e_actionable e;
     e_bounds := tb d (e_bounds e); e_step_type := e_step_type e; e_step_size := e_step_size e; e_step_dir := e_step_dir e;
     e_grid := map (pl d) (e_grid e); e_gint := e_gint e; e_interp := option_map (fun i => (map (pl d) (fst i), snd i)) (e_interp e); e_extra := e_extra e |}.
Lemma map_zero l : map (pl 0) l = l.
Proof. induction l as [|a l IH]; [reflexivity|]. cbn. rewrite IH. f_equal. unfold pl. ring. Qed.
Lemma tb_zero b : tb 0 b = b.
Proof. destruct b. unfold tb, pl. cbn. f_equal; ring. Qed.
Lemma sh_zero e : sh 0 e = e.
Proof. destruct e as [? ? ? ? ? b ? ? ? ? ? i ?]. unfold sh. cbn. rewrite !map_zero, tb_zero. destruct i as [[xs ys]|]; cbn; rewrite ?map_zero; reflexivity. Qed.
Lemma pl_qle d a b : (pl d a <=? pl d b) = (a <=? b).
Proof. unfold pl. destruct (a <=? b) eqn:Q; qbool; qlra. Qed.
Lemma pl_qlt d a b : (pl d a <? pl d b) = (a <? b).
Proof. unfold pl. destruct (a <? b) eqn:Q; qbool; qlra. Qed.
Lemma pl_eq d a b : pl d a = pl d b <-> a = b.
Proof. unfold pl. split; [|congruence]. intro H. assert (K : a + d - d = b + d - d) by congruence. replace (a + d - d) with a in K by ring. replace (b + d - d) with b in K by ring. exact K. Qed.
Lemma pl_qeq d a b : (pl d a =? pl d b) = (a =? b).
Proof. destruct (a =? b) eqn:Q; qbool; [congruence|]. intro K. apply Q. now apply pl_eq in K. Qed.
Lemma pl_insert d x l : qinsert (pl d x) (map (pl d) l) = map (pl d) (qinsert x l).
Proof. induction l as [|a l IH]; [reflexivity|]. cbn. rewrite pl_qle. destruct (x <=? a); cbn; [reflexivity|]. now rewrite IH. Qed.
Lemma pl_sort d l : qsort (map (pl d) l) = map (pl d) (qsort l).
Proof. induction l as [|a l IH]; [reflexivity|]. cbn. now rewrite IH, pl_insert. Qed.
Lemma pl_percentile d vs q : np_percentile (map (pl d) vs) q = option_map (pl d) (np_percentile vs q).
Proof.
  unfold np_percentile. rewrite pl_sort. destruct (qsort vs) as [|v0 s]; [reflexivity|]. cbn [map]. rewrite <- map_cons.
  cbn [option_map]. f_equal. rewrite map_length. cbv zeta. set (i := Z.to_nat _). set (fr := _ - _).
  change (pl d v0 :: map (pl d) s) with (map (pl d) (v0 :: s)). rewrite !map_nth. unfold pl. ring.
Qed.
Lemma pl_arange d a b s : np_arange (pl d a) (pl d b) s = map (pl d) (np_arange a b s).
Proof.
  unfold np_arange. rewrite map_map. replace (pl d b - pl d a) with (b - a) by (unfold pl; ring). apply map_ext; intro i; unfold pl; ring.
Qed.
Lemma pl_mem d x l : qmem (pl d x) (map (pl d) l) = qmem x l.
Proof. unfold qmem. induction l as [|a l IH]; [reflexivity|]. cbn. now rewrite IH, pl_qeq. Qed.
Lemma pl_distinct d l : all_distinct (map (pl d) l) = all_distinct l.
Proof. induction l as [|a l IH]; [reflexivity|]. cbn. now rewrite IH, pl_mem. Qed.
Lemma pl_nondecr d l : nondecr (map (pl d) l) = nondecr l.
Proof. induction l as [|a [|b l] IH]; [reflexivity|reflexivity|]. cbn [map nondecr] in *. now rewrite IH, pl_qle. Qed.
Lemma floor_shift v m : qfloor (v + qz m) = (qfloor v + m)%Z.
Proof.
  pose proof (qfloor_le v) as A1. pose proof (qfloor_lt v) as A2. pose proof (qfloor_le (v + qz m)) as B1. pose proof (qfloor_lt (v + qz m)) as B2.
  assert (K1 : (qfloor v + m < qfloor (v + qz m) + 1)%Z) by (apply qz_lt; rewrite !qz_plus; change (qz 1) with 1; qlra).
  assert (K2 : (qfloor (v + qz m) < qfloor v + m + 1)%Z) by (apply qz_lt; rewrite !qz_plus; change (qz 1) with 1; qlra). lia.
Qed.
Lemma ceil_shift v m : qceil (v + qz m) = (qceil v + m)%Z.
Proof.
  pose proof (qceil_ge v) as A1. pose proof (qceil_lt v) as A2. pose proof (qceil_ge (v + qz m)) as B1. pose proof (qceil_lt (v + qz m)) as B2.
  assert (K1 : (qceil v + m < qceil (v + qz m) + 1)%Z) by (apply qz_lt; rewrite !qz_plus; change (qz 1) with 1; qlra).
  assert (K2 : (qceil (v + qz m) < qceil v + m + 1)%Z) by (apply qz_lt; rewrite !qz_plus; change (qz 1) with 1; qlra). lia.
Qed.
Lemma pl_floor d v : is_int d -> qz (qfloor (pl d v)) = pl d (qz (qfloor v)).
Proof. intros (m & ->). unfold pl. rewrite <- qz_plus. f_equal. apply floor_shift. Qed.
Lemma pl_ceil d v : is_int d -> qz (qceil (pl d v)) = pl d (qz (qceil v)).
Proof. intros (m & ->). unfold pl. rewrite <- qz_plus. f_equal. apply ceil_shift. Qed.
(** Features that may be measured from other zeros. *)
Definition okd (d : Qc) (e : element) : Prop :=
  d <> 0 -> determine_variable_type (e_values e) = e_vtype e /\ determine_variable_type (map (pl d) (e_values e)) = e_vtype e /\ e_vtype e <> TBool /\ (e_vtype e = TInt -> is_int d) /\
    b_type (e_bounds e) = Percentile /\ (e_gint e = true -> is_int d).
Definition comm (d : Qc) (f : element -> res element) (e : element) : Prop := f (sh d e) = rmap (sh d) (f e) /\ forall e', f e = Ok e' -> okd d e'.
Lemma mk_bound_sh d vs lo hi u : determine_variable_type (map (pl d) vs) = determine_variable_type vs -> (determine_variable_type vs = TInt -> is_int d) -> u = "percentile" \/ u = "p" ->
  mk_bound (map (pl d) vs) lo hi (PStr u) = rmap (tb d) (mk_bound vs lo hi (PStr u)).
Proof.
  intros H1 H2 Hu. unfold mk_bound. rewrite H1, (percentile_type u Hu). cbn [bind]. destruct (percentile_arg lo) as [ql|]; [|reflexivity]. cbn [bind].
  destruct (percentile_arg hi) as [qu|]; [|reflexivity]. cbn [bind]. rewrite !pl_percentile. destruct (np_percentile vs ql) as [l|]; [|reflexivity]. destruct (np_percentile vs qu) as [v|]; [|reflexivity].
  cbn [option_map of_option bind]. rewrite pl_qle. destruct (l <=? v); [|reflexivity]. cbn [passert bind]. destruct (determine_variable_type vs); cbn [rmap]; unfold tb; cbn; rewrite ?(pl_floor d l (H2 eq_refl)), ?(pl_ceil d v (H2 eq_refl)); reflexivity.
Qed.
Lemma comm_zero f e : okd 0 e -> comm 0 f e.
Proof. intro H. split; [rewrite sh_zero; destruct (f e) as [e'|]; [cbn; now rewrite sh_zero|reflexivity]|]. intros e' _ Q. now contradiction Q. Qed.
Lemma actionable_comm d e v : okd d e -> comm d (fun e => set_actionable e v) e.
Proof.
  intro H. split.
  - unfold set_actionable. destruct v as [| | | | | | | | |]; repeat (match goal with |- context [match ?x with _ => _ end] => destruct x end; try reflexivity); cbn; repeat (match goal with |- context [passert ?x] => destruct x end; try reflexivity).
  - intros e' H'. apply set_actionable_ok in H'. destruct H' as (a & ->). exact H.
Qed.
Lemma sign_comm d e v (f : element -> Z -> element) : (forall z, f (sh d e) z = sh d (f e z)) -> (forall z, okd d (f e z)) -> comm d (fun e => let! s := sign_arg v in Ok (f e s)) e.
Proof. intros H1 H2. split; destruct (sign_arg v) as [s|]; cbn; try congruence. intros e' Q. injection Q as <-. apply H2. Qed.
Lemma step_type_comm d e v : okd d e -> comm d (fun e => set_step_type e v) e.
Proof.
  intro H. split.
  - unfold set_step_type. destruct v; try reflexivity. destruct (String.eqb _ _); [reflexivity|]. destruct (String.eqb _ _); reflexivity.
  - intros e' H'. unfold set_step_type in H'. destruct v; try discriminate H'. destruct (String.eqb _ _); [injection H' as <-; exact H|]. destruct (String.eqb _ _); [injection H' as <-; exact H|discriminate H'].
Qed.
Lemma size_comm d e v : okd d e -> comm d (fun e => set_step_size e v) e.
Proof.
  intro H. split.
  - assert (K : forall f, match f with
      | Fin q => let! _ := passert (0 <? q) in let! _ := match e_step_type e with Relative => passert (q <=? 1) | _ => Ok tt end in Ok (with_step_size (sh d e) q)
      | PosInf => match e_step_type e with Relative => Err AssertionError | _ => Err Unmodelled end
      | _ => Err AssertionError end = rmap (sh d) (match f with
      | Fin q => let! _ := passert (0 <? q) in let! _ := match e_step_type e with Relative => passert (q <=? 1) | _ => Ok tt end in Ok (with_step_size e q)
      | PosInf => match e_step_type e with Relative => Err AssertionError | _ => Err Unmodelled end
      | _ => Err AssertionError end)).
    { intros [q| | |]; try reflexivity; [|destruct (e_step_type e); reflexivity]. destruct (0 <? q); cbn; [|reflexivity]. destruct (e_step_type e); cbn; [|reflexivity]. destruct (q <=? 1); reflexivity. }
    unfold set_step_size. cbn [e_step_type sh]. destruct v as [|q0|q0|f0|q0|q0|l|l|l|q0]; try reflexivity; [exact (K (Fin (if q0 then 1 else 0)))|exact (K (Fin (qz q0)))|exact (K f0)|]. destruct l as [|f0 [|q1 l]]; try reflexivity; exact (K f0).
  - intros e' H'. apply set_step_size_ok in H'. destruct H' as (q & _ & _ & ->). exact H.
Qed.
Lemma bound_comm d e lo hi u : okd d e -> d <> 0 -> u = "percentile" \/ u = "p" ->
  comm d (fun e => let! b := mk_bound (e_values e) lo hi (PStr u) in Ok (with_bounds e b)) e.
Proof.
  intros H Hn Hu. destruct (H Hn) as (H1 & H2 & H3 & H4 & H5 & H6). split.
  - cbn [e_values sh]. rewrite mk_bound_sh; [|congruence|rewrite H1; exact H4|exact Hu]. destruct (mk_bound _ _ _ _) as [b|]; reflexivity.
  - intros e' H'. bnd H' as b Hb. injection H' as <-. intros _. cbn. apply bound_ptype in Hb; [|exact Hu]. do 5 (split; [assumption|]). exact H6.
Qed.
Lemma bounds_comm d e v : okd d e -> by_percentile v -> comm d (fun e => set_bounds e v) e.
Proof.
  intros H (lo & hi & u & Hv & Hu). destruct (qeq_spec d 0) as [->|Hn]; [now apply comm_zero|]. pose proof (bound_comm d e lo hi u H Hn Hu) as K. destruct Hv as [-> | ->]; exact K.
Qed.
Lemma lb_comm d e v : okd d e -> comm d (fun e => set_lb e v) e.
Proof.
  intro H. destruct (qeq_spec d 0) as [->|Hn]; [now apply comm_zero|]. pose proof (bound_comm d e v (PFloat (Fin (b_qub (e_bounds e)))) "percentile" H Hn (or_introl eq_refl)) as (K1 & K2).
  destruct (H Hn) as (_ & _ & _ & _ & H3 & _). split.
  - cbv beta in *. unfold set_lb. cbn [sh e_bounds tb b_type b_qub e_values]. rewrite H3. exact K1.
  - unfold set_lb. rewrite H3. exact K2.
Qed.
Lemma ub_comm d e v : okd d e -> comm d (fun e => set_ub e v) e.
Proof.
  intro H. destruct (qeq_spec d 0) as [->|Hn]; [now apply comm_zero|]. pose proof (bound_comm d e (PFloat (Fin (b_qlb (e_bounds e)))) v "percentile" H Hn (or_introl eq_refl)) as (K1 & K2).
  destruct (H Hn) as (_ & _ & _ & _ & H3 & _). split.
  - cbv beta in *. unfold set_ub. cbn [sh e_bounds tb b_type b_qlb e_values]. rewrite H3. exact K1.
  - unfold set_ub. rewrite H3. exact K2.
Qed.
Definition free_names : list string := ["actionable"; "step_direction"; "flip_direction"; "step_type"; "step_size"; "lb"; "ub"].
Lemma setattr_comm d e n v : okd d e -> In n free_names \/ (n = "bounds" /\ by_percentile v) -> comm d (elem_setattr n v) e.
Proof.
  intros H [Hn|[-> Hv]]; [|exact (bounds_comm d e v H Hv)].
  destruct Hn as [<-|[<-|[<-|[<-|[<-|[<-|[<-|[]]]]]]]].
  - exact (actionable_comm d e v H).
  - apply (sign_comm d e v with_step_dir); [reflexivity|]. intro z0. exact H.
  - apply (sign_comm d e v (fun e s => with_flip e (Some s))); [reflexivity|]. intro z0. exact H.
  - exact (step_type_comm d e v H).
  - exact (size_comm d e v H).
  - exact (lb_comm d e v H).
  - exact (ub_comm d e v H).
Qed.
Lemma grid_comm d e : okd d e -> comm d update_grid e.
Proof.
  intro H. destruct (qeq_spec d 0) as [->|Hn]; [now apply comm_zero|]. destruct (H Hn) as (H1 & H2 & H3 & H4 & H5 & H6). split.
  - unfold update_grid. assert (A1 : grid_start (sh d e) = pl d (grid_start e)) by (unfold grid_start, e_lb; cbn [sh e_vtype e_bounds tb b_lb]; destruct (e_vtype e); try reflexivity; apply pl_floor; auto).
    assert (A2 : grid_stop (sh d e) = pl d (grid_stop e)) by (unfold grid_stop, e_ub; cbn [sh e_vtype e_bounds tb b_ub]; destruct (e_vtype e); try reflexivity; apply pl_ceil; auto).
    assert (A3 : grid_step (sh d e) = grid_step e).
    { unfold grid_step. rewrite A1, A2. cbn [sh e_vtype e_step_type e_step_size]. replace (pl d (grid_stop e) - pl d (grid_start e)) with (grid_stop e - grid_start e) by (unfold pl; ring). reflexivity. }
    rewrite A1, A2, A3. replace (pl d (grid_stop e) + grid_step e) with (pl d (grid_stop e + grid_step e)) by (unfold pl; ring). rewrite pl_arange. cbn [sh e_vtype].
    destruct (grid_step e =? 0); reflexivity.
  - unfold update_grid. intros e' H'. destruct (grid_step e =? 0); [discriminate H'|]. injection H' as <-. intros _. cbn. do 5 (split; [auto|]). destruct (e_vtype e); cbn; auto; discriminate.
Qed.
Lemma check_comm d e : element_check_rep (sh d e) = element_check_rep e.
Proof. unfold element_check_rep, e_lb, e_ub. cbn [sh e_bounds tb b_lb b_ub e_grid]. now rewrite pl_qle, pl_distinct, pl_nondecr. Qed.
Lemma dvt_qsort l : determine_variable_type (qsort l) = determine_variable_type l.
Proof.
  unfold determine_variable_type. assert (P : forall f, forallb f (qsort l) = forallb f l).
  { intro f. pose proof (qsort_perm l) as HP. destruct (forallb f l) eqn:Q; [rewrite forallb_forall in *; intros v Hv; apply Q; exact (Permutation_in v HP Hv)|].
    apply Bool.not_true_iff_false. intro K. rewrite forallb_forall in K. apply Bool.not_true_iff_false in Q. apply Q. apply forallb_forall. intros v Hv. apply K. exact (Permutation_in v (Permutation_sym HP) Hv). }
  now rewrite !P.
Qed.
Lemma element_comm d n vs bnds dst : determine_variable_type (map (pl d) vs) = determine_variable_type vs -> determine_variable_type vs <> TBool -> (determine_variable_type vs = TInt -> is_int d) -> by_percentile bnds ->
  mk_element n (map (pl d) vs) bnds (PType (determine_variable_type vs)) (PBool true) dst (PInt 0) default_step_size =
    rmap (sh d) (mk_element n vs bnds (PType (determine_variable_type vs)) (PBool true) dst (PInt 0) default_step_size) /\
  (forall e, mk_element n vs bnds (PType (determine_variable_type vs)) (PBool true) dst (PInt 0) default_step_size = Ok e -> okd d e).
Proof.
  intros H1 H2 HI (lo & hi & u & Hv & Hu).
  assert (SB : forall (v : pyval) e, v = PTuple [lo; hi; PStr u] \/ v = PList [lo; hi; PStr u] -> set_bounds e v = let! b := mk_bound (e_values e) lo hi (PStr u) in Ok (with_bounds e b)) by (intros v e [-> | ->]; reflexivity).
  set (t := determine_variable_type vs) in *.
  unfold mk_element. rewrite pl_sort, map_length. destruct (negb (n =? "")%string); [|split; [reflexivity|intros e9 Q; discriminate Q]]. cbn [passert bind].
  destruct (negb (Nat.eqb (length (qsort vs)) 0)); [|split; [reflexivity|intros e9 Q; discriminate Q]]. cbn [passert bind set_variable_type]. unfold set_actionable. cbn [is01 pynum].
  change ((1 =? 0) || (1 =? 1)) with true. cbn [passert bind]. rewrite !(SB bnds _ Hv). cbn [e_values with_actionable with_vtype].
  assert (D1 : determine_variable_type (qsort vs) = t) by (unfold t; apply dvt_qsort). assert (D2 : determine_variable_type (map (pl d) (qsort vs)) = t) by (rewrite <- pl_sort, dvt_qsort; exact H1).
  rewrite mk_bound_sh; [|congruence|rewrite D1; exact HI|exact Hu].
  destruct (mk_bound (qsort vs) lo hi (PStr u)) as [b|] eqn:Hb; [|split; [reflexivity|intros e9 Q; discriminate Q]]. cbn [rmap bind].
  match goal with |- _ = rmap _ (let! e4 := set_step_type ?x _ in _) /\ _ => set (e3 := x) end.
  match goal with |- (let! e4 := set_step_type ?x _ in _) = _ /\ _ => change x with (with_bounds (sh d e3) (tb d b)) end. 
  assert (O3 : okd d e3) by (intros _; cbn; apply bound_ptype in Hb; [|exact Hu]; do 5 (split; [assumption|]); discriminate). change (with_bounds (sh d e3) (tb d b)) with (sh d e3).
  destruct (step_type_comm d e3 dst O3) as (K1 & K2). rewrite K1. destruct (set_step_type e3 dst) as [e4|]; [|split; [reflexivity|intros e9 Q; discriminate Q]]. cbn [rmap bind]. specialize (K2 _ eq_refl).
  destruct (size_comm d e4 default_step_size K2) as (K3 & K4). rewrite K3. destruct (set_step_size e4 default_step_size) as [e5|]; [|split; [reflexivity|intros e9 Q; discriminate Q]]. cbn [rmap bind]. specialize (K4 _ eq_refl).
  unfold set_step_direction. cbn [sign_arg pynum bind]. change (qsign (qz 0)) with 0%Z. change (with_step_dir (sh d e5) 0%Z) with (sh d (with_step_dir e5 0%Z)).
  destruct (grid_comm d (with_step_dir e5 0%Z) K4) as (K5 & K6). rewrite K5. destruct (update_grid (with_step_dir e5 0%Z)) as [e7|]; [|split; [reflexivity|intros e9 Q; discriminate Q]]. cbn [rmap bind]. specialize (K6 _ eq_refl).
  rewrite check_comm. destruct (element_check_rep e7); cbn [bind rmap]; split; try reflexivity; intros e9 Q; [injection Q as <-; exact K6|discriminate Q].
Qed.

(** ** Action sets *)
Definition sh_elems (ds : list Qc) (es : list element) : list element := map (fun p => sh (fst p) (snd p)) (combine ds es).
Definition sh_set (ds : list Qc) (A : action_set) : action_set := with_elems A (sh_elems ds (as_elems A)).
Lemma column_comm d n col custom dflt dst : (d <> 0 -> ((exists v, In v col /\ ~ is_int v) /\ (exists v, In v col /\ ~ is_int (v + d))) \/
    (is_int d /\ (forall v, In v col -> is_int v) /\ (exists v, In v col /\ v <> 0 /\ v <> 1) /\ (exists v, In v col /\ v + d <> 0 /\ v + d <> 1))) -> by_percentile dflt -> (forall n v, dget n custom = Some v -> by_percentile v) ->
  mk_column_element custom dflt dst n (map (pl d) col) = rmap (sh d) (mk_column_element custom dflt dst n col) /\
  (forall e, mk_column_element custom dflt dst n col = Ok e -> okd d e).
Proof.
  intros H HD HCu. destruct (qeq_spec d 0) as [->|Hn].
  - rewrite map_zero. split; [destruct (mk_column_element _ _ _ _ _); cbn; rewrite ?sh_zero; reflexivity|]. intros e _ Q. now contradiction Q.
  - assert (K : determine_variable_type (map (pl d) col) = determine_variable_type col /\ determine_variable_type col <> TBool /\ (determine_variable_type col = TInt -> is_int d)).
    { destruct (H Hn) as [((v & Hv & Hvn) & (u & Hu & Hun))|(Hd & Ha & (v & Hv & Hvn) & (u & Hu & Hun))].
      - assert (Q1 : determine_variable_type col = TFloat) by (apply dvt_fraction; eauto). assert (Q2 : determine_variable_type (map (pl d) col) = TFloat) by (apply dvt_fraction; exists (u + d); split; [exact (in_map (pl d) _ _ Hu)|exact Hun]). rewrite Q1, Q2. repeat split; discriminate.
      - assert (Q1 : determine_variable_type col = TInt). { apply dvt_int. split; [now apply Forall_forall|]. intro F. rewrite Forall_forall in F. destruct Hvn as [N0 N1]. destruct (F v Hv); contradiction. }
        assert (Q2 : determine_variable_type (map (pl d) col) = TInt). { apply dvt_int. split.
          - apply Forall_forall. intros q Hq. apply in_map_iff in Hq. destruct Hq as (q0 & <- & Hq). destruct (Ha q0 Hq) as (a & ->). destruct Hd as (m & ->). exists (a + m)%Z. unfold pl. now rewrite qz_plus.
          - intro F. rewrite Forall_forall in F. destruct Hun as [N0 N1]. destruct (F (u + d) (in_map (pl d) _ _ Hu)); contradiction. }
        rewrite Q1, Q2. split; [reflexivity|]. split; [discriminate|]. intros _. exact Hd. }
    destruct K as (K1 & K2 & K3). assert (B : by_percentile (match dget n custom with Some b => b | None => dflt end)) by (destruct (dget n custom) as [b|] eqn:Q; [exact (HCu _ _ Q)|exact HD]).
    pose proof (element_comm d n col _ dst K1 K2 K3 B) as G. unfold mk_column_element. rewrite K1. destruct (determine_variable_type col); [contradiction K2; reflexivity| |]; exact G.
Qed.
Lemma moved_column (ds : list Qc) X (names : list string) j d : (forall row, In row X -> length row = length names) -> length ds = length names -> nth_error ds j = Some d ->
  column (map (moved ds) X) j = map (pl d) (column X j).
Proof.
  intros HX HL Hj. unfold column. rewrite !map_map. apply map_ext_in. intros row Hr. specialize (HX row Hr). unfold moved.
  assert (Hlt : (j < length ds)%nat) by (apply nth_error_Some; congruence).
  assert (K : nth_error (map (fun p => snd p + fst p) (combine ds row)) j = Some (nth j row 0 + d)).
  { rewrite nth_error_map. rewrite (nth_error_nth' (combine ds row) (0, 0)) by (rewrite combine_length; lia). rewrite combine_nth by congruence. cbn. f_equal. f_equal. now apply nth_error_nth. }
  exact (nth_error_nth _ _ 0 K).
Qed.
Lemma mapM_zip' {B} (f f' : B -> res element) l : forall ds, length ds = length l -> (forall j b d, nth_error l j = Some b -> nth_error ds j = Some d -> f' b = rmap (sh d) (f b)) ->
  mapM f' l = rmap (sh_elems ds) (mapM f l).
Proof.
  induction l as [|b l IH]; intros [|d ds] HL H; try discriminate HL; [reflexivity|]. cbn [mapM]. rewrite (H 0%nat b d eq_refl eq_refl). destruct (f b) as [e|]; [|reflexivity]. cbn [rmap bind].
  rewrite (IH ds); [|now injection HL|intros j; exact (H (S j))]. destruct (mapM f l); reflexivity.
Qed.
Definition okds (cs : list Qc) (A : action_set) : Prop := Forall2 okd cs (as_elems A).
Lemma creation_comm X names cs y custom dflt dst A : origin_change X names cs -> by_percentile dflt -> (forall n v, dget n custom = Some v -> by_percentile v) ->
  mk_action_set X names y custom dflt dst = Ok A -> mk_action_set (map (moved cs) X) names y custom dflt dst = Ok (sh_set cs A) /\ okds cs A.
Proof.
  intros (HL & HU) HD HCu H. pose proof (mk_aset_spec _ _ _ _ _ _ _ H) as (HN & HT & En & Ec & Ey & HLe & HE).
  assert (HX : forall row, In row X -> length row = length names). { destruct HT as [_ HT]. rewrite Forall_forall in HT. exact HT. }
  assert (HCm : forall j n c, nth_error names j = Some n -> nth_error cs j = Some c ->
    mk_column_element custom dflt dst n (column (map (moved cs) X) j) = rmap (sh c) (mk_column_element custom dflt dst n (column X j)) /\
    (forall e, mk_column_element custom dflt dst n (column X j) = Ok e -> okd c e)).
  { intros j n c Hn Hj. rewrite (moved_column cs X names j c HX HL Hj). pose proof (HU j c Hj) as Hx. now apply column_comm. }
  split.
  - unfold mk_action_set in *. bnd H as u1 H1. bnd H as u2 H2. bnd H as u3 H3. bnd H as es H4. bnd H as u5 H5. rewrite H1. cbn [bind]. rewrite map_length, H2. cbn [bind].
    assert (F : forallb (fun row => Nat.eqb (length row) (length names)) (map (moved cs) X) = true).
    { apply forallb_forall. intros row Hr. apply in_map_iff in Hr. destruct Hr as (r & <- & Hr). apply Nat.eqb_eq. unfold moved. rewrite map_length, combine_length, HL, (HX r Hr). lia. }
    rewrite F. cbn [passert bind].
    rewrite (mapM_zip' (fun p => mk_column_element custom dflt dst (snd p) (column X (fst p))) _ _ cs).
    + rewrite H4. cbn [rmap bind]. rewrite H5. cbn [bind]. injection H as <-. reflexivity.
    + rewrite combine_length, seq_length. lia.
    + intros j [i n] c Hj Hcj. cbn [fst snd]. assert (K : i = j /\ nth_error names j = Some n).
      { clear -Hj. assert (G : forall k l, nth_error (combine (seq k (length l)) l) j = Some (i, n) -> i = (k + j)%nat /\ nth_error l j = Some n).
        { induction j as [|j IH]; intros k [|a l] Q; cbn in Q; try discriminate Q; [injection Q as <- <-; split; [lia|reflexivity]|]. clear Hj. revert k Q. revert a. 
          intros a k Q. specialize (IH). assert (T : i = (S k + j)%nat /\ nth_error l j = Some n). { clear IH. revert l k Q. clear. revert i n. induction j as [|j IH]; intros i n [|a l] k Q; cbn in Q; try discriminate Q; [injection Q as <- <-; split; [lia|reflexivity]|]. apply IH in Q. destruct Q as [-> Q]. split; [lia|exact Q]. }
          destruct T as [-> T]. split; [lia|exact T]. }
        apply G in Hj. exact Hj. }
      destruct K as (-> & K). exact (proj1 (HCm j n c K Hcj)).
  - unfold okds. apply Forall2_nth. split; [congruence|]. intros j c e Hj He. assert (Hlt : (j < length names)%nat) by (rewrite <- HL; apply nth_error_Some; congruence).
    destruct (nth_error names j) as [n|] eqn:Hn; [|apply nth_error_None in Hn; lia]. exact (proj2 (HCm j n c Hn Hj) e (HE j n e Hn He)).
Qed.

(** ** Edits *)
Lemma sh_nth cs es p e : length cs = length es -> nth_error es p = Some e -> exists c, nth_error cs p = Some c /\ nth_error (sh_elems cs es) p = Some (sh c e).
Proof.
  unfold sh_elems. revert cs p. induction es as [|a es IH]; intros [|c cs] [|p] HL H; try discriminate HL; try discriminate H; cbn in *.
  - injection H as <-. eauto.
  - injection HL as HL. exact (IH cs p HL H).
Qed.
Lemma sh_nth_none cs es p : length cs = length es -> nth_error es p = None -> nth_error (sh_elems cs es) p = None.
Proof. intros HL H. apply nth_error_None. apply nth_error_None in H. unfold sh_elems. rewrite map_length, combine_length. lia. Qed.
Lemma sh_list_set cs es p c e : length cs = length es -> nth_error cs p = Some c -> list_set p (sh c e) (sh_elems cs es) = sh_elems cs (list_set p e es).
Proof.
  unfold sh_elems. revert cs p. induction es as [|a es IH]; intros [|d cs] [|p] HL H; try discriminate HL; try discriminate H; cbn in *.
  - injection H as ->. reflexivity.
  - injection HL as HL. now rewrite (IH cs p HL H).
Qed.
Lemma okd_list_set cs es p c e : Forall2 okd cs es -> nth_error cs p = Some c -> okd c e -> Forall2 okd cs (list_set p e es).
Proof.
  intro H. revert p. induction H as [|d a cs es Ha H IH]; intros [|p] Hp Ho; cbn in *; try discriminate Hp.
  - injection Hp as ->. constructor; assumption.
  - constructor; [assumption|]. now apply IH.
Qed.
Lemma okd_nth cs es p c e : Forall2 okd cs es -> nth_error cs p = Some c -> nth_error es p = Some e -> okd c e.
Proof. intros H H1 H2. apply Forall2_nth in H. destruct H as [_ H]. exact (H p c e H1 H2). Qed.
Definition unit_value (n : string) (v : pyval) : Prop := In n free_names \/ (n = "bounds" /\ by_percentile v).
Lemma loop_comm cs n vals work es : In n free_names -> Forall2 okd cs es ->
  assign_loop n vals work (sh_elems cs es) = (sh_elems cs (fst (assign_loop n vals work es)), snd (assign_loop n vals work es)) /\ Forall2 okd cs (fst (assign_loop n vals work es)).
Proof.
  intro Hn. revert es. induction work as [|[p j] work IH]; intros es HO; cbn [assign_loop]; [auto|]. pose proof (Forall2_length _ _ _ HO) as HL.
  destruct (nth_error es p) as [e|] eqn:He.
  - destruct (sh_nth cs es p e HL He) as (c & Hc & ->). destruct (nth_error vals j) as [v|]; [|auto].
    destruct (setattr_comm c e n v (okd_nth _ _ _ _ _ HO Hc He) (or_introl Hn)) as (K1 & K2). rewrite K1. destruct (elem_setattr n v e) as [e'|]; [|auto]. cbn [rmap].
    rewrite (sh_list_set cs es p c e' HL Hc). apply IH. exact (okd_list_set _ _ _ _ _ HO Hc (K2 e' eq_refl)).
  - rewrite (sh_nth_none cs es p HL He). auto.
Qed.
Lemma sh_names cs A : length cs = length (as_elems A) -> map e_name (as_elems (sh_set cs A)) = map e_name (as_elems A).
Proof. unfold sh_set, sh_elems. cbn. revert cs. induction (as_elems A) as [|e es IH]; intros [|c cs] H; try discriminate H; [reflexivity|]. cbn. f_equal. apply IH. now injection H. Qed.
Lemma slice_sh cs A ps : length cs = length (as_elems A) -> slice_dict (sh_set cs A) ps = slice_dict A ps.
Proof.
  intro HL. unfold slice_dict. f_equal. generalize (@nil (string * (nat * nat))). induction (combine ps (seq 0 (length ps))) as [|[p j] l IH]; intro d; [reflexivity|]. cbn [fold_left fst].
  destruct (nth_error (as_elems A) p) as [e|] eqn:He.
  - destruct (sh_nth cs _ p e HL He) as (c & _ & K). change (as_elems (sh_set cs A)) with (sh_elems cs (as_elems A)). rewrite K. apply IH.
  - change (as_elems (sh_set cs A)) with (sh_elems cs (as_elems A)). rewrite (sh_nth_none cs _ p HL He). apply IH.
Qed.
Lemma select_sh cs A i : select (sh_set cs A) i = select A i.
Proof. reflexivity. Qed.
Lemma aligned_sh cs es : length cs = length es -> forallb e_aligned (sh_elems cs es) = forallb e_aligned es.
Proof. unfold sh_elems. revert cs. induction es as [|e es IH]; intros [|c cs] H; try discriminate H; [reflexivity|]. cbn. rewrite IH by now injection H. reflexivity. Qed.
Lemma set_set_comm cs A n v : In n free_names -> okds cs A -> set_setattr (sh_set cs A) n v = (sh_set cs (fst (set_setattr A n v)), snd (set_setattr A n v)) /\ okds cs (fst (set_setattr A n v)).
Proof.
  intros Hn HO. unfold set_setattr. destruct (elem_hasattr n); [|auto]. change (as_len (sh_set cs A)) with (as_len A). destruct (expand_values v (as_len A)) as [vals|]; [|auto].
  destruct (loop_comm cs n vals (map (fun j => (j, j)) (seq 0 (as_len A))) (as_elems A) Hn HO) as (K1 & K2). change (as_elems (sh_set cs A)) with (sh_elems cs (as_elems A)). rewrite K1.
  destruct (assign_loop _ _ _ (as_elems A)) as [es r]. cbn [fst snd] in *. auto.
Qed.
Lemma index_set_comm cs A i n v : In n free_names \/ (n = "bounds" /\ by_percentile v /\ ((exists s, i = IStr s) \/ exists p, i = IInt p)) -> okds cs A ->
  index_setattr (sh_set cs A) i n v = (sh_set cs (fst (index_setattr A i n v)), snd (index_setattr A i n v)) /\ okds cs (fst (index_setattr A i n v)).
Proof.
  intros Hn HO. pose proof (Forall2_length _ _ _ HO) as HL. unfold index_setattr. rewrite select_sh. destruct (select A i) as [ps|]; [|auto].
  assert (K1 : let F A := match ps with
          | [p] => match nth_error (as_elems A) p with
                   | Some e => match elem_setattr n v e with
                               | Ok e' => (with_elems A (list_set p e' (as_elems A)), Ok tt)
                               | Err x => (A, Err x)
                               end
                   | None => (A, Err KeyError)
                   end
          | _ => (A, Err KeyError)
          end in F (sh_set cs A) = (sh_set cs (fst (F A)), snd (F A)) /\ okds cs (fst (F A))).
  { cbv beta zeta. destruct ps as [|p [|q ps]]; auto. change (as_elems (sh_set cs A)) with (sh_elems cs (as_elems A)). destruct (nth_error (as_elems A) p) as [e|] eqn:He; [|rewrite (sh_nth_none _ _ _ HL He); auto].
    destruct (sh_nth cs _ p e HL He) as (c & Hc & ->). destruct (setattr_comm c e n v (okd_nth _ _ _ _ _ HO Hc He)) as (K1 & K2); [destruct Hn as [Hn|(Hn & Hv & _)]; auto|].
    rewrite K1. destruct (elem_setattr n v e) as [e'|]; [|auto]. cbn [rmap fst snd]. rewrite (sh_list_set cs _ p c e' HL Hc). split; [reflexivity|]. exact (okd_list_set _ _ _ _ _ HO Hc (K2 e' eq_refl)). }
  cbv zeta in K1.
  assert (K2 : In n free_names -> let F A := if elem_hasattr n then
            let work := slice_dict A ps in
            match expand_values v (length work) with
            | Err x => (A, Err x)
            | Ok vals =>
                let '(es, r) := assign_loop n vals work (as_elems A) in
                (with_elems A es, r)
            end
          else (A, Err AssertionError) in F (sh_set cs A) = (sh_set cs (fst (F A)), snd (F A)) /\ okds cs (fst (F A))).
  { intro Hu. cbv beta zeta. destruct (elem_hasattr n); [|auto]. rewrite (slice_sh cs A ps HL). destruct (expand_values v _) as [vals|]; [|auto].
    destruct (loop_comm cs n vals (slice_dict A ps) (as_elems A) Hu HO) as (Q1 & Q2). change (as_elems (sh_set cs A)) with (sh_elems cs (as_elems A)). rewrite Q1.
    destruct (assign_loop _ _ _ (as_elems A)) as [es r]. cbn [fst snd] in *. auto. }
  cbv zeta in K2. destruct i; try exact K1; (destruct Hn as [Hn|(_ & _ & [(? & Hn)|(? & Hn)])]; [exact (K2 Hn)|discriminate Hn|discriminate Hn]).
Qed.
Lemma align_comm ds A a : okds ds A -> length (as_elems A) = as_len A -> set_alignment (sh_set ds A) a = rmap (sh_set ds) (set_alignment A a) /\ forall A', set_alignment A a = Ok A' -> okds ds A'.
Proof.
  intros HO HN. unfold set_alignment. destruct (parse_classifier_args a) as [[coefs t]|]; [|split; [reflexivity|discriminate]]. cbn [bind]. change (as_len (sh_set ds A)) with (as_len A). change (as_y (sh_set ds A)) with (as_y A).
  destruct (Nat.eqb (length coefs) (as_len A)) eqn:HLe; [|split; [reflexivity|discriminate]]. cbn [passert bind rmap]. apply Nat.eqb_eq in HLe.
  set (flips := map _ coefs). assert (LF : length flips = length (as_elems A)) by (unfold flips; rewrite map_length; congruence). clearbody flips. unfold okds in *. split.
  - f_equal. unfold sh_set, with_elems. cbn [as_names as_elems as_cons as_y]. f_equal. unfold sh_elems. clear -HO LF. revert flips LF. induction HO as [|d e ds es H HO IH]; intros [|f flips] LF; try discriminate LF; [reflexivity|].
    cbn. f_equal. apply IH. now injection LF.
  - intros A' Q. injection Q as <-. cbn [as_elems with_elems]. clear -HO LF. revert flips LF. induction HO as [|d e ds es H HO IH]; intros [|f flips] LF; try discriminate LF; [constructor|].
    cbn. constructor; [exact H|]. apply IH. now injection LF.
Qed.
Lemma free_set_up o : position_free o -> set_up_edit o.
Proof.
  intro HE. destruct o; cbn in *; auto; [|destruct HE as [HE|(-> & _)]; [|discriminate]]; intros ->; repeat (destruct HE as [HE|HE]; [discriminate HE|]); destruct HE.
Qed.
Lemma step_comm E cs A o : position_free o -> length (as_elems A) = as_len A -> okds cs A -> aset_step E (sh_set cs A) o = sh_set cs (aset_step E A o) /\ okds cs (aset_step E A o).
Proof.
  destruct o; cbn [position_free aset_step]; intros Hu HN HO; try contradiction; pose proof (Forall2_length _ _ _ HO) as HL.
  - destruct (set_set_comm cs A attr v Hu HO) as (K1 & K2). rewrite K1. auto.
  - destruct (index_set_comm cs A i attr v Hu HO) as (K1 & K2). rewrite K1. auto.
  - unfold on_elem. change (as_elems (sh_set cs A)) with (sh_elems cs (as_elems A)). destruct (nth_error (as_elems A) j) as [e|] eqn:He; [|rewrite (sh_nth_none _ _ _ HL He); auto].
    destruct (sh_nth cs _ j e HL He) as (c & Hc & ->). destruct (grid_comm c e (okd_nth _ _ _ _ _ HO Hc He)) as (K1 & K2). cbn [elem_step]. rewrite K1. destruct (update_grid e) as [e'|]; cbn [rmap].
    + split; [|exact (okd_list_set _ _ _ _ _ HO Hc (K2 e' eq_refl))]. unfold sh_set. cbn [as_elems with_elems]. rewrite <- (sh_list_set cs _ j c e' HL Hc). reflexivity.
    + split; [|exact (okd_list_set _ _ _ _ _ HO Hc (okd_nth _ _ _ _ _ HO Hc He))]. unfold sh_set. cbn [as_elems with_elems]. rewrite <- (sh_list_set cs _ j c e HL Hc). reflexivity.
  - unfold set_y_desired. destruct (_ || _ || _)%Z; [|auto]. cbn [passert bind]. change (as_y (sh_set cs A)) with (as_y A). destruct (y =? as_y A)%Z; [auto|].
    unfold alignment_known. cbn [as_elems with_y sh_set with_elems]. rewrite (aligned_sh cs _ HL). destruct (forallb e_aligned (as_elems A)); [|auto]. split.
    + unfold sh_set, with_elems. cbn. f_equal. unfold sh_elems. clear -HL. revert cs HL. induction (as_elems A) as [|e es IH]; intros [|c cs] HL; try discriminate HL; [reflexivity|]. cbn. rewrite IH by now injection HL. reflexivity.
    + unfold okds. cbn [as_elems]. clear -HO. unfold okds in HO. induction HO as [|c e cs es H HO IH]; constructor; [exact H|exact IH].
  - destruct (align_comm cs A a HO HN) as (K1 & K2). rewrite K1. destruct (set_alignment A a) as [A'|]; cbn [rmap]; [split; [reflexivity|exact (K2 _ eq_refl)]|auto].
Qed.
Lemma run_comm E cs edits A : Forall position_free edits -> length (as_elems A) = as_len A -> okds cs A -> aset_run E (sh_set cs A) edits = sh_set cs (aset_run E A edits) /\ okds cs (aset_run E A edits).
Proof.
  unfold aset_run. intro H. revert A. induction H as [|o edits Ho _ IH]; intros A HN HO; [auto|]. cbn [fold_left]. destruct (step_comm E cs A o Ho HN HO) as (K1 & K2). rewrite K1. apply IH; [|exact K2].
  pose proof (edit_kso E A o (free_set_up o Ho) HN) as (_ & E1 & E2). apply Forall2_length in E2. unfold as_len in *. congruence.
Qed.
