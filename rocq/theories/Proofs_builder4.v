(** Proofs of C32 (item limits on an existing program) and C33 (both back ends pose the same problem). *)
From Verif Require Import Proofs_props_element Proofs_props_actionset Spec_recourse Proofs_mip Proofs_info Proofs_vec Proofs_build Proofs_enum Proofs_session Proofs_recourse Proofs_exchange Proofs_far Proofs_concrete Proofs_builder Proofs_builder2 Proofs_builder3.
#[local] Open Scope list_scope.
#[local] Open Scope Qc_scope.

Definition relimit (p : rname -> bool) (b : Qc) (r : row) : row :=
  if p (r_name r) then {| r_name := r_name r; r_terms := r_terms r;
                          r_lo := match r_lo r with Some _ => Some b | None => None end;
                          r_hi := match r_hi r with Some _ => Some b | None => None end |} else r.
Lemma set_rhs_rows p q m : m_rows (set_rhs p q m) = map (relimit p q) (m_rows m).
Proof. reflexivity. Qed.
Lemma relimit_id p q l : (forall r, In r l -> p (r_name r) = false) -> map (relimit p q) l = l.
Proof.
  induction l as [|r l IH]; intro H; [reflexivity|]. cbn. unfold relimit at 1. rewrite (H r (or_introl eq_refl)). f_equal. apply IH. intros; apply H; now right.
Qed.
Definition limit_row (n : rname) : bool := is_min_row n || is_max_row n.
Lemma subset_names k infos p rs : subset_rows k infos p = Ok rs -> forall r, In r rs -> limit_row (r_name r) = false.
Proof.
  unfold subset_rows. destruct p as [pos c]. intro H. bnd H as vs Hvs. destruct k; injection H as <-; cbn; intros r Hr; repeat destruct Hr as [<-|Hr]; try reflexivity; destruct Hr.
Qed.
Lemma subs_names k infos l subs : mapM (subset_rows k infos) l = Ok subs -> forall r, In r (concat subs) -> limit_row (r_name r) = false.
Proof.
  intros H r Hr. apply mapM_ok in H. apply in_concat in Hr. destruct Hr as (rs & H1 & H2). apply In_nth_error in H1. destruct H1 as (q & Hq).
  apply Forall2_nth in H. destruct H as [HL H]. destruct (nth_error l q) as [p|] eqn:Ep.
  - eapply subset_names; [exact (H _ _ _ Ep Hq)|exact H2].
  - apply nth_error_None in Ep. assert (q < length subs)%nat by (apply nth_error_Some; congruence). lia.
Qed.
Lemma other_rows k ct infos : forall r, In r (flat_map (fun i => [set_row k i; pick_row i]) infos ++ match ct with CMax => flat_map (fun i => [def_cost_row k i; set_max_row i]) infos | _ => [] end) ->
  limit_row (r_name r) = false.
Proof.
  intros r Hr. apply in_app_or in Hr. destruct Hr as [Hr|Hr].
  - apply in_flat_map in Hr. destruct Hr as (i & _ & [<-|[<-|[]]]); destruct k; reflexivity.
  - destruct ct; try destruct Hr. apply in_flat_map in Hr. destruct Hr as (i & _ & [<-|[<-|[]]]); destruct k; reflexivity.
Qed.
Lemma score_name y s infos : limit_row (r_name (score_row y s infos)) = false.
Proof. unfold score_row. destruct (0 <? y)%Z; reflexivity. Qed.

(** The rows of a program, with the limits as numbers of the two rows. *)
Definition mip_with (k : backend) (A : action_set) (ct : cost_type) (w : list Qc) (t : Qc) (x : list Qc) (infos : list info) (subs : list (list row)) (qmin qmax : Qc) : mip :=
  {| m_vars := map avar_decl infos ++ map uvar_decl (flat_map uvars infos) ++ match ct with CMax => map cvar_decl (VMax :: map (fun i => VC (i_idx i)) infos) | _ => [] end;
     m_rows := score_row (as_y A) (dot w x + t) infos :: flat_map (fun i => [set_row k i; pick_row i]) infos ++
               [row_ge NMaxItems (sum_of (map off_var infos)) qmax; row_le NMinItems (sum_of (map off_var infos)) qmin] ++ concat subs ++
               match ct with CMax => flat_map (fun i => [def_cost_row k i; set_max_row i]) infos | _ => [] end;
     m_sos := map uvars infos; m_obj := obj_of ct infos |}.
Lemma build_with E k A ct w t lo hi x ms : build E k A ct w t lo hi x = Ok ms -> exists subs,
  (forall r, In r (concat subs) -> limit_row (r_name r) = false) /\
  ms_mip ms = mip_with k A ct w t x (ms_infos ms) subs (qz (Z.of_nat (length (ms_infos ms)) - Z.max lo 1)) (qz (Z.of_nat (length (ms_infos ms)) - hi)) /\
  forall lo' hi', build E k A ct w t lo' hi' x =
    Ok {| ms_mip := mip_with k A ct w t x (ms_infos ms) subs (qz (Z.of_nat (length (ms_infos ms)) - Z.max lo' 1)) (qz (Z.of_nat (length (ms_infos ms)) - hi')); ms_infos := ms_infos ms |}.
Proof.
  unfold build. intro H. bnd H as infos Hi. bnd H as subs Hs. exists subs. cbv zeta in H. split; [exact (subs_names _ _ _ _ Hs)|].
  unfold mip_with, max_items_row, min_items_row. destruct ct.
  1,2: bnd H as u Hu; injection H as <-; cbn [ms_infos ms_mip bind]; split; [rewrite !app_nil_r; reflexivity|intros; rewrite Hi; cbn [bind]; rewrite Hs; cbn [bind]; rewrite Hu; cbn [bind]; rewrite !app_nil_r; reflexivity].
  injection H as <-. cbn [ms_infos ms_mip bind]. split; [|intros; rewrite Hi; cbn [bind]; rewrite Hs; cbn [bind]]; rewrite <- !app_assoc; cbn [app]; rewrite <- ?app_assoc; reflexivity.
Qed.
Lemma rhs_with p k A ct w t x infos subs qmin qmax q : (forall n, p n = true -> limit_row n = true) -> (forall r, In r (concat subs) -> limit_row (r_name r) = false) ->
  set_rhs p q (mip_with k A ct w t x infos subs qmin qmax) =
  mip_with k A ct w t x infos subs (if p NMinItems then q else qmin) (if p NMaxItems then q else qmax).
Proof.
  intros Hp Hs. assert (Hf : forall r, limit_row (r_name r) = false -> p (r_name r) = false) by (intros r Hr; destruct (p (r_name r)) eqn:Q; [apply Hp in Q; congruence|reflexivity]).
  unfold mip_with. set (m := {| m_vars := _ |}). change (set_rhs p q m) with {| m_vars := m_vars m; m_rows := map (relimit p q) (m_rows m); m_sos := m_sos m; m_obj := m_obj m |}.
  subst m. cbn [m_vars m_rows m_sos m_obj]. f_equal. cbn [map]. f_equal.
  - unfold relimit. now rewrite (Hf _ (score_name _ _ _)).
  - rewrite map_app. f_equal; [apply relimit_id; intros r Hr; apply Hf; eapply (other_rows k CTotal infos); apply in_or_app; left; exact Hr|].
    cbn [app map]. f_equal; [|f_equal].
    + unfold relimit. cbn. destruct (p NMaxItems); reflexivity.
    + unfold relimit. cbn. destruct (p NMinItems); reflexivity.
    + rewrite relimit_id; [reflexivity|]. intros r Hr. apply Hf. apply in_app_or in Hr. destruct Hr as [Hr|Hr]; [now apply Hs|]. apply (other_rows k ct infos). apply in_or_app. now right.
Qed.

(** What set_mip_item_limits does right after x has been assigned. *)
Lemma c32_min E sv b x b0 lo : ok_env E -> assigned E sv b x b0 -> (1 <= lo <= bd_max b)%Z -> lo <> bd_min b ->
  (forall ms, bd_mip b0 = Some ms -> length (ms_infos ms) = length (bd_actionable b)) ->
  exists b', set_min_items b (Some lo) = Ok b' /\
    let '(b1, r) := set_mip_item_limits b0 (Some lo) (Some (bd_max b)) in
    r = Ok tt /\ bd_min b1 = lo /\ bd_max b1 = bd_max b /\ snd (set_x E b' x) = Ok tt /\ twin (fst (set_x E b' x)) b1.
Proof.
  intros HOE [HR HX] Hlo Hne Hn. unfold set_x in HX. destruct (Nat.eqb (length x) (length (bd_w b))) eqn:EL; [|apply pair_equal_spec in HX; destruct HX as [_ HX]; discriminate HX].
  destruct (build E (bd_kind b) (bd_A b) (bd_cost b) (bd_w b) (bd_t b) (bd_min b) (bd_max b) x) as [ms|e] eqn:EB; [|apply pair_equal_spec in HX; destruct HX as [_ HX]; discriminate HX].
  apply pair_equal_spec in HX. destruct HX as [<- _]. specialize (Hn ms eq_refl). destruct (build_with _ _ _ _ _ _ _ _ _ _ EB) as (subs & Hs & Hm & HB).
  exists (with_limits b lo (bd_max b)). split; [unfold set_min_items; rewrite (proj2 (Z.leb_le 0 lo)) by lia; reflexivity|].
  unfold set_mip_item_limits. rewrite (proj2 (Z.leb_le lo (bd_max b))) by lia. cbn [bd_min with_mip with_x]. rewrite (proj2 (Z.eqb_neq lo (bd_min b)) Hne).
  unfold set_mip_rhs. cbn [bd_mip with_mip]. unfold set_min_items. rewrite (proj2 (Z.leb_le 0 lo)) by lia. cbn [bd_max with_limits with_mip with_x]. rewrite Z.eqb_refl.
  split; [reflexivity|]. split; [reflexivity|]. split; [reflexivity|]. unfold set_x. cbn [bd_w with_limits bd_kind bd_A bd_cost bd_t bd_min bd_max]. rewrite EL, HB. split; [reflexivity|].
  split; [repeat split|]. cbn [fst bd_mip with_mip with_limits]. f_equal. f_equal. rewrite Hm, rhs_with; [|intros []; cbn; auto|exact Hs]. cbn [is_min_row]. f_equal. f_equal.
  unfold n_actionable. cbn. rewrite Hn. lia.
Qed.
(** With both limits different from the current ones the program only accepts actions that change exactly lo features. *)
Lemma c32_both E sv b x b0 lo hi : ok_env E -> assigned E sv b x b0 -> (1 <= lo <= hi)%Z -> lo <> bd_min b -> hi <> bd_max b ->
  (forall ms, bd_mip b0 = Some ms -> length (ms_infos ms) = length (bd_actionable b)) ->
  let '(b1, r) := set_mip_item_limits b0 (Some lo) (Some hi) in
  r = Ok tt /\ bd_min b1 = lo /\ bd_max b1 = Z.min hi (n_actionable b) /\
  snd (set_x E (with_limits b lo lo) x) = Ok tt /\ bd_mip b1 = bd_mip (fst (set_x E (with_limits b lo lo) x)).
Proof.
  intros HOE [HR HX] Hlo Hne Hnh Hn. unfold set_x in HX. destruct (Nat.eqb (length x) (length (bd_w b))) eqn:EL; [|apply pair_equal_spec in HX; destruct HX as [_ HX]; discriminate HX].
  destruct (build E (bd_kind b) (bd_A b) (bd_cost b) (bd_w b) (bd_t b) (bd_min b) (bd_max b) x) as [ms|e] eqn:EB; [|apply pair_equal_spec in HX; destruct HX as [_ HX]; discriminate HX].
  apply pair_equal_spec in HX. destruct HX as [<- _]. specialize (Hn ms eq_refl). destruct (build_with _ _ _ _ _ _ _ _ _ _ EB) as (subs & Hs & Hm & HB).
  unfold set_mip_item_limits. rewrite (proj2 (Z.leb_le lo hi)) by lia. cbn [bd_min with_mip with_x]. rewrite (proj2 (Z.eqb_neq lo (bd_min b)) Hne).
  unfold set_mip_rhs. cbn [bd_mip with_mip]. unfold set_min_items. rewrite (proj2 (Z.leb_le 0 lo)) by lia. cbn [bd_max with_limits with_mip with_x bd_mip]. rewrite (proj2 (Z.eqb_neq hi (bd_max b)) Hnh).
  unfold set_max_items. rewrite (proj2 (Z.leb_le 0 hi)) by lia.
  split; [reflexivity|]. split; [reflexivity|]. split; [reflexivity|]. unfold set_x. cbn [bd_w with_limits bd_kind bd_A bd_cost bd_t bd_min bd_max]. rewrite EL, HB. split; [reflexivity|].
  cbn [fst bd_mip with_mip with_limits ms_mip ms_infos]. f_equal. f_equal. rewrite Hm, rhs_with, rhs_with; try exact Hs; try (intros []; cbn; auto; fail). cbn [is_min_row is_max_row].
  unfold n_actionable. cbn. rewrite Hn. f_equal; f_equal; lia.
Qed.

(** ** C33 *)
Lemma forallb_app_eq {A} (f : A -> bool) l l' m m' : forallb f l = forallb f l' -> forallb f m = forallb f m' -> forallb f (l ++ m) = forallb f (l' ++ m').
Proof. intros H1 H2. now rewrite !forallb_app, H1, H2. Qed.
Lemma forallb_flat_map_eq {A B} (f : B -> bool) (g g' : A -> list B) l : (forall a, forallb f (g a) = forallb f (g' a)) -> forallb f (flat_map g l) = forallb f (flat_map g' l).
Proof. intro H. induction l as [|a l IH]; [reflexivity|]. cbn. now apply forallb_app_eq. Qed.
Lemma eval_app s e e' : eval s (e ++ e') = eval s e + eval s e'.
Proof. unfold eval. rewrite map_app, qsum_app. reflexivity. Qed.
Lemma eval_cons s c v e : eval s ((c, v) :: e) = c * s v + eval s e.
Proof. reflexivity. Qed.
Lemma eval_neg s e : eval s (map (fun p => (- fst p, snd p)) e) = - eval s e.
Proof. induction e as [|[c v] e IH]; [reflexivity|]. cbn [map fst snd]. rewrite !eval_cons, IH. ring. Qed.
Lemma bool_iff (a b : bool) : (a = true <-> b = true) -> a = b.
Proof. destruct a, b; intros [H1 H2]; try reflexivity; [specialize (H1 eq_refl)|specialize (H2 eq_refl)]; congruence. Qed.
Lemma set_row_same s i : row_ok s (set_row CPX i) = row_ok s (set_row PyMIP i).
Proof.
  unfold set_row. apply bool_iff. rewrite !row_ok_eq, eval_cons, eval_app, eval_cons.
  change (eval s []) with 0. rewrite Qcplus_0_r, (Qcplus_comm (- (1) * s (VA (i_idx i)))). reflexivity.
Qed.
Lemma def_row_same s i : row_ok s (def_cost_row CPX i) = row_ok s (def_cost_row PyMIP i).
Proof.
  unfold def_cost_row. apply bool_iff. rewrite !row_ok_eq, !eval_cons, eval_neg.
  split; intro H.
  - replace (1 * s (VC (i_idx i)) + - eval s (cost_terms i)) with (- (- (1) * s (VC (i_idx i)) + eval s (cost_terms i))) by ring. rewrite H. ring.
  - replace (- (1) * s (VC (i_idx i)) + eval s (cost_terms i)) with (- (1 * s (VC (i_idx i)) + - eval s (cost_terms i))) by ring. rewrite H. ring.
Qed.
Lemma subset_rows_same infos p : match subset_rows CPX infos p, subset_rows PyMIP infos p with
  | Ok l, Ok l' => forall s, forallb (row_ok s) l = forallb (row_ok s) l' | Err e, Err e' => e = e' | _, _ => False end.
Proof.
  destruct p as [pos c]. unfold subset_rows. destruct (mapM _ (c_indices c)) as [vs|e]; [|reflexivity]. cbn [bind]. intro s. cbn [forallb]. apply bool_iff.
  rewrite !andb_true_iff, row_ok_rng. unfold row_ge, row_le. unfold row_ok. cbn [r_lo r_hi r_terms]. rewrite !andb_true_iff, !qle_iff. set (v := eval s (neg_sum_of vs)).
  replace (qz (c_lb c - Z.of_nat (length (c_indices c))) + qz (c_ub c - c_lb c)) with (qz (c_ub c) - qz (Z.of_nat (length (c_indices c)))) by (rewrite !qz_minus; ring). rewrite qz_minus. tauto.
Qed.
Lemma subs_same infos l : match mapM (subset_rows CPX infos) l, mapM (subset_rows PyMIP infos) l with
  | Ok l, Ok l' => forall s, forallb (row_ok s) (concat l) = forallb (row_ok s) (concat l') | Err e, Err e' => e = e' | _, _ => False end.
Proof.
  induction l as [|p l IH]; [intro; reflexivity|]. cbn [mapM]. pose proof (subset_rows_same infos p) as K.
  destruct (subset_rows CPX infos p) as [r1|e1], (subset_rows PyMIP infos p) as [r2|e2]; try (now destruct K); cbn [bind]; try exact K.
  destruct (mapM (subset_rows CPX infos) l) as [q1|e1], (mapM (subset_rows PyMIP infos) l) as [q2|e2]; try (now destruct IH); cbn [bind]; try exact IH.
  intro s. cbn [concat]. now apply forallb_app_eq.
Qed.
Lemma build_same E A ct w t lo hi x : match build E CPX A ct w t lo hi x, build E PyMIP A ct w t lo hi x with
  | Ok m, Ok m' => ms_infos m = ms_infos m' /\ same_mip (ms_mip m) (ms_mip m') | Err e, Err e' => e = e' | _, _ => False end.
Proof.
  unfold build. destruct (get_build_info E A ct w x) as [infos|e]; [|reflexivity]. cbn [bind].
  pose proof (subs_same infos (combine (seq 0 (length (r_cons (as_cons A)))) (map snd (r_cons (as_cons A))))) as K.
  destruct (mapM (subset_rows CPX infos) _) as [q1|e1], (mapM (subset_rows PyMIP infos) _) as [q2|e2]; try (now destruct K); cbn [bind]; try exact K. cbv zeta.
  assert (FS : forall s, forallb (row_ok s) (flat_map (fun i => [set_row CPX i; pick_row i]) infos) = forallb (row_ok s) (flat_map (fun i => [set_row PyMIP i; pick_row i]) infos)).
  { intro s. apply forallb_flat_map_eq. intro i. cbn [forallb]. now rewrite set_row_same. }
  assert (FD : forall s, forallb (row_ok s) (flat_map (fun i => [def_cost_row CPX i; set_max_row i]) infos) = forallb (row_ok s) (flat_map (fun i => [def_cost_row PyMIP i; set_max_row i]) infos)).
  { intro s. apply forallb_flat_map_eq. intro i. cbn [forallb]. now rewrite def_row_same. }
  destruct ct.
  1,2: destruct (match infos with [] => Err KeyError | _ => Ok tt end) as [u|e]; [|reflexivity]; cbn [bind]; split; [reflexivity|]; intro s; split; [|reflexivity];
    unfold mip_sat; cbn [m_vars m_rows m_sos ms_mip forallb]; do 3 f_equal; rewrite !forallb_app, FS, K; reflexivity.
  split; [reflexivity|]. intro s. split; [|reflexivity]. unfold mip_sat. cbn [m_vars m_rows m_sos ms_mip forallb app]. do 3 f_equal. rewrite !forallb_app. cbn [forallb]. rewrite FS, FD. rewrite ?forallb_app, K. reflexivity.
Qed.
Lemma c33_set_x E b x : match set_x E (on_kind CPX b) x, set_x E (on_kind PyMIP b) x with
  | (b1, r1), (b2, r2) => r1 = r2 /\ (r1 = Ok tt -> exists m1 m2, bd_mip b1 = Some m1 /\ bd_mip b2 = Some m2 /\ ms_infos m1 = ms_infos m2 /\ same_mip (ms_mip m1) (ms_mip m2)) end.
Proof.
  unfold set_x. cbn [on_kind bd_kind bd_w bd_t bd_A bd_cost bd_min bd_max]. destruct (Nat.eqb _ _); [|split; [reflexivity|discriminate]].
  pose proof (build_same E (bd_A b) (bd_cost b) (bd_w b) (bd_t b) (bd_min b) (bd_max b) x) as K.
  destruct (build E CPX _ _ _ _ _ _ _) as [m1|e1], (build E PyMIP _ _ _ _ _ _ _) as [m2|e2]; try (now destruct K).
  - destruct K as [K1 K2]. split; [reflexivity|]. intros _. exists m1, m2. auto.
Qed.
Lemma c33_create E A a ct x : match mk_builder E CPX A a ct x, mk_builder E PyMIP A a ct x with
  | Ok b1, Ok b2 => forall m1, bd_mip b1 = Some m1 -> exists m2, bd_mip b2 = Some m2 /\ ms_infos m1 = ms_infos m2 /\ same_mip (ms_mip m1) (ms_mip m2)
  | Err e1, Err e2 => e1 = e2 | _, _ => False end.
Proof.
  unfold mk_builder. destruct (parse_classifier_args a) as [[w t]|]; [|reflexivity]. cbn [bind]. destruct (passert _); [|reflexivity]. cbn [bind].
  destruct (if alignment_known A then _ else _) as [A'|]; [|reflexivity]. cbn [bind]. cbv zeta. destruct x as [x|]; [|cbn; discriminate].
  set (b := {| bd_kind := CPX |}). pose proof (c33_set_x E b x) as K. change (on_kind CPX b) with b in K. unfold on_kind in K. cbn [b bd_w bd_t bd_A bd_cost bd_actionable bd_min bd_max bd_x bd_mip bd_sol bd_calls] in K.
  destruct (set_x E b x) as [b1 r1]. destruct (set_x E _ x) as [b2 r2]. destruct K as [<- K]. destruct r1 as [[]|]; [|reflexivity]. cbn [bind].
  destruct (K eq_refl) as (m1 & m2 & H1 & H2 & H3 & H4). intros m Hm. assert (m = m1) by congruence. subst. eauto.
Qed.
