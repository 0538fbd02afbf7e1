(** Proofs for C134: advice does not depend on where zero lies. *)
From Verif Require Import Spec_origin Proofs_props_element Proofs_props_actionset Proofs_actionset Proofs_values Proofs_num Proofs_units Spec_setup Proofs_setup Proofs_origin.
#[local] Open Scope string_scope.
#[local] Open Scope list_scope.
#[local] Open Scope Qc_scope.

Lemma other_zeros_spec E X ds A A' : other_zeros E X ds A A' -> A' = sh_set ds A /\ okds ds A /\ length ds = as_len A /\ set_up E X A.
Proof.
  intros (names & y & custom & dflt & dst & A0 & A0' & edits & HU & HD & HC & HE & H0 & -> & H0' & ->).
  destruct (creation_comm X names ds y custom dflt dst A0 HU HD HC H0) as (K1 & K2). rewrite K1 in H0'. injection H0' as <-.
  pose proof (mk_aset_spec _ _ _ _ _ _ _ H0) as (_ & HT & En & Ec & _ & HL & _). assert (L0 : length (as_elems A0) = as_len A0) by (unfold as_len; congruence).
  destruct (run_comm E ds edits A0 HE L0 K2) as (K3 & K4).
  assert (HS : Forall set_up_edit edits) by (rewrite Forall_forall in *; intros o Ho; apply free_set_up, HE, Ho).
  split; [exact K3|]. split; [exact K4|]. split.
  - destruct (run_kso E A0 edits HS L0) as (_ & Kn & _). unfold as_len. rewrite Kn, En. exact (proj1 HU).
  - exists names, y, custom, dflt, dst, A0, edits. auto.
Qed.
(** ** Percentiles *)
Lemma pl_last d l v : last (map (pl d) l) (pl d v) = pl d (last l v).
Proof. induction l as [|a [|b l] IH]; [reflexivity|reflexivity|]. exact IH. Qed.
Lemma pl_interp_seg d xs : forall ys x, interp_seg (map (pl d) xs) ys (pl d x) = interp_seg xs ys x.
Proof.
  induction xs as [|x1 [|x2 xs] IH]; intros [|y1 [|y2 ys]] x; try reflexivity. cbn [map] in *. specialize (IH (y2 :: ys) x). cbn [interp_seg] in *. rewrite pl_qle, IH.
  destruct (x <=? x2); [|reflexivity]. unfold pl. replace (x2 + d - (x1 + d)) with (x2 - x1) by ring. now replace (x + d - (x1 + d)) with (x - x1) by ring.
Qed.
Lemma pl_interp d xs ys x : interp (map (pl d) xs) ys (pl d x) = interp xs ys x.
Proof.
  unfold interp. destruct xs as [|x0 xs]; [reflexivity|]. cbn [map]. rewrite <- map_cons, pl_qlt. change (pl d x0 :: map (pl d) xs) with (map (pl d) (x0 :: xs)). rewrite pl_last, pl_qlt, pl_interp_seg. reflexivity.
Qed.
Lemma pl_interpolator E d e : moves_along E -> get_interp E (sh d e) = rmap (fun i => (map (pl d) (fst i), snd i)) (get_interp E e).
Proof.
  intro HM. unfold get_interp. cbn [sh e_interp]. destruct (e_interp e) as [i|]; [reflexivity|]. cbn [option_map]. unfold fresh_interp. cbn [sh e_values e_grid]. specialize (HM (e_values e) d).
  change (map (pl d) (e_values e)) with (map (fun v => v + d) (e_values e)). destruct (kde E (e_values e)) as [f|], (kde E (map _ (e_values e))) as [f'|]; try contradiction; [|reflexivity].
  assert (K : map f' (map (pl d) (e_grid e)) = map f (e_grid e)) by (rewrite map_map; apply map_ext; intro v; apply HM). rewrite K. destruct (e_grid e) as [|g0 g]; reflexivity.
Qed.
Lemma pl_percentiles E d e v : moves_along E -> percentile E (sh d e) (pl d v) = percentile E e v.
Proof. intro HM. unfold percentile. rewrite (pl_interpolator E d e HM). destruct (get_interp E e) as [[xs ys]|]; [|reflexivity]. cbn. now rewrite pl_interp. Qed.
(** ** Offered values *)
Lemma pl_up d x l : filter (fun v => pl d x <=? v) (map (pl d) l) = map (pl d) (filter (fun v => x <=? v) l).
Proof. induction l as [|a l IH]; [reflexivity|]. cbn. rewrite pl_qle, IH. now destruct (x <=? a). Qed.
Lemma pl_dn d x l : filter (fun v => v <=? pl d x) (map (pl d) l) = map (pl d) (filter (fun v => v <=? x) l).
Proof. induction l as [|a l IH]; [reflexivity|]. cbn. rewrite pl_qle, IH. now destruct (a <=? x). Qed.
Lemma pl_searchsorted d l x : searchsorted (map (pl d) l) (pl d x) = searchsorted l x.
Proof.
  unfold searchsorted. assert (K : filter (fun y => y <? pl d x) (map (pl d) l) = map (pl d) (filter (fun y => y <? x) l)) by (induction l as [|a l IH]; [reflexivity|]; cbn; rewrite pl_qlt, IH; now destruct (a <? x)).
  rewrite K. apply map_length.
Qed.
Lemma pl_np_insert d l n x : np_insert (map (pl d) l) n (pl d x) = map (pl d) (np_insert l n x).
Proof. unfold np_insert. rewrite map_app. cbn. now rewrite firstn_map, skipn_map. Qed.
Lemma okd_rep d e x : okd d e -> representable e x -> representable (sh d e) (pl d x).
Proof.
  intros HO HR. unfold representable in *. cbn [sh e_gint]. intro G. specialize (HR G). destruct (qeq_spec d 0) as [->|Hn]; [unfold pl; now rewrite Qcplus_0_r|].
  destruct (HO Hn) as (_ & _ & _ & _ & _ & HI). destruct (HI G) as (m & ->), HR as (n & ->). exists (n + m)%Z. unfold pl. now rewrite qz_plus.
Qed.
Lemma pl_feasible d e x drop : okd d e -> representable e x -> feasible_x (sh d e) (pl d x) drop = map (pl d) (feasible_x e x drop).
Proof.
  intros HO HR. unfold feasible_x. rewrite (cast_representable e x HR), (cast_representable _ _ (okd_rep d e x HO HR)). cbn [sh e_actionable e_grid e_step_dir e_flip]. cbv zeta.
  assert (K : (if e_actionable e
     then if qmem (pl d x) (if (0 <? e_step_dir e)%Z then filter (fun v => pl d x <=? v) (map (pl d) (e_grid e)) else if (e_step_dir e <? 0)%Z then filter (fun v => v <=? pl d x) (map (pl d) (e_grid e)) else map (pl d) (e_grid e))
          then if (0 <? e_step_dir e)%Z then filter (fun v => pl d x <=? v) (map (pl d) (e_grid e)) else if (e_step_dir e <? 0)%Z then filter (fun v => v <=? pl d x) (map (pl d) (e_grid e)) else map (pl d) (e_grid e)
          else np_insert (if (0 <? e_step_dir e)%Z then filter (fun v => pl d x <=? v) (map (pl d) (e_grid e)) else if (e_step_dir e <? 0)%Z then filter (fun v => v <=? pl d x) (map (pl d) (e_grid e)) else map (pl d) (e_grid e))
                 (searchsorted (if (0 <? e_step_dir e)%Z then filter (fun v => pl d x <=? v) (map (pl d) (e_grid e)) else if (e_step_dir e <? 0)%Z then filter (fun v => v <=? pl d x) (map (pl d) (e_grid e)) else map (pl d) (e_grid e)) (pl d x)) (pl d x)
     else [pl d x]) =
     map (pl d) (if e_actionable e
     then if qmem x (if (0 <? e_step_dir e)%Z then filter (fun v => x <=? v) (e_grid e) else if (e_step_dir e <? 0)%Z then filter (fun v => v <=? x) (e_grid e) else e_grid e)
          then if (0 <? e_step_dir e)%Z then filter (fun v => x <=? v) (e_grid e) else if (e_step_dir e <? 0)%Z then filter (fun v => v <=? x) (e_grid e) else e_grid e
          else np_insert (if (0 <? e_step_dir e)%Z then filter (fun v => x <=? v) (e_grid e) else if (e_step_dir e <? 0)%Z then filter (fun v => v <=? x) (e_grid e) else e_grid e)
                 (searchsorted (if (0 <? e_step_dir e)%Z then filter (fun v => x <=? v) (e_grid e) else if (e_step_dir e <? 0)%Z then filter (fun v => v <=? x) (e_grid e) else e_grid e) x) x
     else [x])).
  { destruct (e_actionable e); [|reflexivity]. rewrite pl_up, pl_dn. set (g := if (0 <? e_step_dir e)%Z then filter (fun v => x <=? v) (e_grid e) else if (e_step_dir e <? 0)%Z then filter (fun v => v <=? x) (e_grid e) else e_grid e).
    replace (if (0 <? e_step_dir e)%Z then map (pl d) (filter (fun v => x <=? v) (e_grid e)) else if (e_step_dir e <? 0)%Z then map (pl d) (filter (fun v => v <=? x) (e_grid e)) else map (pl d) (e_grid e)) with (map (pl d) g)
      by (unfold g; destruct (0 <? e_step_dir e)%Z, (e_step_dir e <? 0)%Z; reflexivity).
    rewrite pl_mem, pl_searchsorted, pl_np_insert. now destruct (qmem x g). }
  rewrite K. destruct drop; [|reflexivity]. destruct (e_flip e) as [fd|]; [|reflexivity]. rewrite pl_up, pl_dn. destruct (0 <? fd)%Z, (fd <? 0)%Z; reflexivity.
Qed.
Lemma mapM_pl E d e l : moves_along E -> mapM (percentile E (sh d e)) (map (pl d) l) = mapM (percentile E e) l.
Proof. intro HM. induction l as [|v l IH]; [reflexivity|]. cbn [map mapM]. now rewrite (pl_percentiles E d e v HM), IH. Qed.
Lemma pl_feasible_values E d e x rp drop : moves_along E -> okd d e -> representable e x -> feasible_values E (sh d e) (pl d x) true rp drop = feasible_values E e x true rp drop.
Proof.
  intros HM HO HR. unfold feasible_values. change (e_aligned (sh d e)) with (e_aligned e). destruct (passert _); [|reflexivity]. cbn [bind]. rewrite (pl_feasible d e x drop HO HR).
  assert (K : map (fun v => v - pl d x) (map (pl d) (feasible_x e x drop)) = map (fun v => v - x) (feasible_x e x drop)) by (rewrite map_map; apply map_ext; intro v; unfold pl; ring).
  cbv zeta. rewrite K, (mapM_pl E d e _ HM). reflexivity.
Qed.
(** ** Action sets *)
Lemma moved_length ds x : length ds = length x -> length (moved ds x) = length x.
Proof. intro H. unfold moved. rewrite map_length, combine_length. lia. Qed.
Lemma moved_nth ds x j xj d : nth_error ds j = Some d -> nth_error x j = Some xj -> nth_error (moved ds x) j = Some (pl d xj).
Proof. unfold moved. revert x j. induction ds as [|c ds IH]; intros [|a x] [|j] H1 H2; try discriminate H1; try discriminate H2; cbn in *; [unfold pl; congruence|]. now apply IH. Qed.
Lemma moved_nth_inv ds x j v : nth_error (moved ds x) j = Some v -> exists d xj, nth_error ds j = Some d /\ nth_error x j = Some xj /\ v = pl d xj.
Proof. unfold moved. revert x j. induction ds as [|c ds IH]; intros [|a x] [|j] H; try discriminate H; cbn in *; [injection H as <-; eauto|]. now apply IH. Qed.
Lemma pl_feasible_grid E ds A x : moves_along E -> okds ds A -> length x = as_len A -> length ds = as_len A -> fits_grids A x -> unconstrained A ->
  feasible_grid E (sh_set ds A) (moved ds x) true true true = feasible_grid E A x true true true.
Proof.
  intros HM HO Lx Ld HF HU. unfold feasible_grid. change (as_len (sh_set ds A)) with (as_len A). change (as_cons (sh_set ds A)) with (as_cons A). rewrite moved_length by congruence. unfold unconstrained in HU. rewrite HU.
  destruct (passert _); [|reflexivity]. cbn [bind]. change (as_names (sh_set ds A)) with (as_names A). change (as_elems (sh_set ds A)) with (sh_elems ds (as_elems A)).
  f_equal. assert (HR : forall j e xj, nth_error (as_elems A) j = Some e -> nth_error x j = Some xj -> representable e xj) by exact HF. clear HF HU Lx Ld. unfold okds in HO.
  revert HO HR. generalize (as_elems A) (as_names A). clear A. intros es names HO. revert x names. induction HO as [|d e ds es H HO IH]; intros [|xj x] [|n names] HR; try reflexivity.
  unfold moved, sh_elems in *. cbn [combine map fst snd filter]. change (grid_included true (sh d e)) with (grid_included true e).
  assert (K : forall j e0 xj0, nth_error es j = Some e0 -> nth_error x j = Some xj0 -> representable e0 xj0) by (intros j e0 xj0 H1 H2; exact (HR (S j) e0 xj0 H1 H2)).
  destruct (grid_included true e); [|exact (IH x names K)]. cbn [mapM]. change (xj + d) with (pl d xj). rewrite (pl_feasible_values E d e xj true true HM H (HR 0%nat e xj eq_refl eq_refl)).
  destruct (feasible_values _ _ _ _ _ _); [|reflexivity]. cbn [bind]. now rewrite (IH x names K).
Qed.
Lemma no_cnames E A : ok_env E -> unconstrained A -> constrained_names E (as_cons A) = [].
Proof. intros HE H. unfold constrained_names. rewrite H. cbn. apply Permutation_nil, Permutation_sym, HE. Qed.
Lemma dot_moved w ds x : length ds = length x -> length w = length x -> dot w (moved ds x) = dot w x + dot w ds.
Proof.
  unfold moved. revert ds x. induction w as [|a w IH]; intros [|d ds] [|b x] H1 H2; try discriminate H1; try discriminate H2; cbn; [ring|]. rewrite IH by (cbn in *; lia). ring.
Qed.

(** ** Builders *)
Definition zeros_from (ds : list Qc) (b : builder) : builder :=
  {| bd_kind := bd_kind b; bd_w := bd_w b; bd_t := bd_t b - dot (bd_w b) ds; bd_A := sh_set ds (bd_A b); bd_cost := bd_cost b; bd_actionable := bd_actionable b; bd_min := bd_min b; bd_max := bd_max b;
     bd_x := option_map (moved ds) (bd_x b); bd_mip := bd_mip b; bd_sol := bd_sol b; bd_calls := bd_calls b |}.
Lemma origin_info E ct names w x x' n a c : length x' = length x -> make_info E ct names [] w x' n a c = make_info E ct names [] w x n a c.
Proof.
  intro HL. unfold make_info. destruct (Nat.ltb (length a) 2); [reflexivity|]. cbv zeta. match goal with |- (let! _ := ?p in _) = _ => destruct p end; [|reflexivity]. cbn [bind].
  destruct (of_option KeyError (index_of n names)) as [idx|]; [|reflexivity]. cbn [bind]. destruct (of_option IndexError (nth_error w idx)) as [coef|]; [|reflexivity]. cbn [bind smem andb].
  assert (K : nth_error x idx = None <-> nth_error x' idx = None) by (rewrite !nth_error_None; lia).
  destruct (nth_error x idx) as [v|], (nth_error x' idx) as [v'|]; try reflexivity; exfalso; [discriminate (proj2 K eq_refl)|discriminate (proj1 K eq_refl)].
Qed.
Lemma origin_infos E ds A ct w x : ok_env E -> moves_along E -> okds ds A -> length x = as_len A -> length ds = as_len A -> fits_grids A x -> unconstrained A ->
  get_build_info E (sh_set ds A) ct w (moved ds x) = get_build_info E A ct w x.
Proof.
  intros HE HM HO Lx Ld HF HU. unfold get_build_info. rewrite (pl_feasible_grid E ds A x HM HO Lx Ld HF HU). change (as_cons (sh_set ds A)) with (as_cons A). rewrite (no_cnames E A HE HU). change (as_names (sh_set ds A)) with (as_names A). change (as_y (sh_set ds A)) with (as_y A). cbv zeta.
  destruct (feasible_grid E A x true true true) as [g|]; [|reflexivity]. cbn [bind]. f_equal. induction g as [|p g IH]; [reflexivity|]. cbn [mapM]. rewrite (origin_info E ct (as_names A) w x (moved ds x)) by (apply moved_length; congruence). now rewrite IH.
Qed.
Lemma origin_build E k ds A ct w t lo hi x : ok_env E -> moves_along E -> okds ds A -> length x = as_len A -> length ds = as_len A -> length w = as_len A -> fits_grids A x -> unconstrained A ->
  build E k (sh_set ds A) ct w (t - dot w ds) lo hi (moved ds x) = build E k A ct w t lo hi x.
Proof.
  intros HE HM HO Lx Ld Lw HF HU. unfold build. rewrite (origin_infos E ds A ct w x HE HM HO Lx Ld HF HU). change (as_cons (sh_set ds A)) with (as_cons A). change (as_y (sh_set ds A)) with (as_y A). rewrite (dot_moved w ds x) by congruence.
  replace (dot w x + dot w ds + (t - dot w ds)) with (dot w x + t) by ring. reflexivity.
Qed.
Lemma origin_set_x E ds b x : ok_env E -> moves_along E -> okds ds (bd_A b) -> length x = as_len (bd_A b) -> length ds = as_len (bd_A b) -> length (bd_w b) = as_len (bd_A b) -> fits_grids (bd_A b) x -> unconstrained (bd_A b) ->
  set_x E (zeros_from ds b) (moved ds x) = (zeros_from ds (fst (set_x E b x)), snd (set_x E b x)).
Proof.
  intros HE HM HO Lx Ld Lw HF HU. unfold set_x. cbn [zeros_from bd_w bd_kind bd_A bd_cost bd_t bd_min bd_max]. rewrite moved_length by congruence. replace (Nat.eqb (length x) (length (bd_w b))) with true by (symmetry; apply Nat.eqb_eq; congruence).
  rewrite (origin_build E (bd_kind b) ds (bd_A b) (bd_cost b) (bd_w b) (bd_t b) (bd_min b) (bd_max b) x HE HM HO Lx Ld Lw HF HU). destruct (build _ _ _ _ _ _ _ _ _); reflexivity.
Qed.
Lemma origin_fit sv ds b : fit sv (zeros_from ds b) = rmap (fun p => (zeros_from ds (fst p), snd p)) (fit sv b).
Proof. unfold fit, solve_mip. cbn [zeros_from bd_mip]. destruct (bd_mip b) as [ms|]; reflexivity. Qed.
Lemma origin_remove et ds b : remove_solution et (zeros_from ds b) = rmap (zeros_from ds) (remove_solution et b).
Proof. destruct et; cbn [remove_solution]; unfold remove_all_features, remove_feature_combination, with_solution; cbn [zeros_from bd_mip bd_sol bd_kind]; destruct (bd_mip b) as [ms|]; try reflexivity; destruct (bd_sol b) as [[| | |]|]; reflexivity. Qed.
Lemma origin_loop sv ds fuel : forall total et b, populate_loop sv fuel total et (zeros_from ds b) = option_map (rmap (fun p => (zeros_from ds (fst p), snd p))) (populate_loop sv fuel total et b).
Proof.
  induction fuel as [|fuel IH]; intros total et b; cbn [populate_loop]; destruct (match total with Some 0%nat => true | _ => false end); try reflexivity.
  rewrite origin_fit. destruct (fit sv b) as [[b1 [i|]]|]; try reflexivity. cbn [rmap fst snd]. rewrite origin_remove. destruct (remove_solution et b1) as [b2|]; [|reflexivity]. cbn [rmap]. rewrite IH.
  destruct (populate_loop sv fuel (option_map Nat.pred total) et b2) as [[[b3 l]|]|]; reflexivity.
Qed.
Lemma origin_populate sv ds fuel total et b : populate sv fuel total et (zeros_from ds b) = option_map (rmap (fun p => (zeros_from ds (fst p), snd p))) (populate sv fuel total et b).
Proof. unfold populate. cbn [zeros_from bd_mip]. destruct (bd_mip b); [|reflexivity]. destruct total as [[|n]|]; try reflexivity; apply origin_loop. Qed.
Lemma origin_positions ds A : length ds = length (as_elems A) -> actionable_positions (sh_set ds A) = actionable_positions A.
Proof.
  unfold actionable_positions. change (as_elems (sh_set ds A)) with (sh_elems ds (as_elems A)). generalize (as_elems A). intro es. intro HL.
  assert (K : length (sh_elems ds es) = length es) by (unfold sh_elems; rewrite map_length, combine_length; lia). rewrite K. clear K. unfold sh_elems. generalize 0%nat. revert ds HL. induction es as [|e es IH]; intros [|d ds] HL n; try discriminate HL; [reflexivity|].
  cbn. injection HL as HL. specialize (IH ds HL (S n)). change (e_actionable (sh d e)) with (e_actionable e). destruct (e_actionable e); cbn; now rewrite IH.
Qed.
Definition sized (A : action_set) (X : list (list Qc)) (x : list Qc) : Prop := length x = as_len A /\ like_rows X x.
Lemma origin_aligned E X ds A A1 a : okds ds A -> length ds = as_len A -> set_up E X A -> set_alignment A a = Ok A1 -> okds ds A1 /\ length ds = as_len A1 /\ set_up E X A1.
Proof.
  intros HO Ld SU H. assert (LE : length (as_elems A) = as_len A) by (unfold okds in HO; apply Forall2_length in HO; congruence). split; [exact (proj2 (align_comm ds A a HO LE) A1 H)|].
  assert (SU1 : set_up E X A1).
  { destruct SU as (names & y & custom & dflt & dst & A0 & edits & H0 & HE & ->). exists names, y, custom, dflt, dst, A0, (edits ++ [OAlign a]). split; [exact H0|]. split; [apply Forall_app; split; [exact HE|constructor; [exact I|constructor]]|].
    unfold aset_run in *. rewrite fold_left_app. cbn [fold_left aset_step]. now rewrite H. }
  split; [|exact SU1]. unfold set_alignment in H. destruct (parse_classifier_args a) as [[coefs t]|]; [|discriminate H]. cbn [bind] in H. destruct (Nat.eqb (length coefs) (as_len A)); [|discriminate H]. cbn [passert bind] in H. injection H as <-. exact Ld.
Qed.
Lemma origin_builder E X k ds A A' args args' ct w t ox : ok_env E -> moves_along E -> other_zeros E X ds A A' -> parse_classifier_args args = Ok (w, t) -> parse_classifier_args args' = Ok (w, t - dot w ds) ->
  (forall x, ox = Some x -> sized A X x) -> mk_builder E k A' args' ct (option_map (moved ds) ox) = rmap (zeros_from ds) (mk_builder E k A args ct ox).
Proof.
  intros HE HM HZ Hp Hp' Hx. apply other_zeros_spec in HZ. destruct HZ as (-> & HO & Ld & SU). unfold mk_builder. rewrite Hp, Hp'. cbn [bind]. change (as_len (sh_set ds A)) with (as_len A).
  destruct (Nat.eqb (as_len A) (length w)) eqn:Lw; [|reflexivity]. apply Nat.eqb_eq in Lw. cbn [passert bind].
  assert (LE : length ds = length (as_elems A)) by (unfold okds in HO; exact (Forall2_length _ _ _ HO)).
  assert (KA : alignment_known (sh_set ds A) = alignment_known A) by (unfold alignment_known; exact (aligned_sh ds _ LE)). rewrite KA.
  set (a := {| k_clf := None; k_classifier := None; k_coefs := None; k_intercept := None; a_pos := [AVec (map Fin w)] |}).
  assert (K : exists r, (if alignment_known A then Ok A else set_alignment A a) = r /\ (if alignment_known A then Ok (sh_set ds A) else set_alignment (sh_set ds A) a) = rmap (sh_set ds) r /\
    forall A1, r = Ok A1 -> okds ds A1 /\ length ds = as_len A1 /\ set_up E X A1 /\ as_len A1 = as_len A).
  { destruct (alignment_known A); [exists (Ok A); split; [reflexivity|]; split; [reflexivity|]; intros A1 Q; injection Q as <-; auto|].
    exists (set_alignment A a). split; [reflexivity|]. split; [apply align_comm; [exact HO|congruence]|]. intros A1 Q. destruct (origin_aligned E X ds A A1 a HO Ld SU Q) as (Q1 & Q2 & Q3). do 3 (split; [assumption|]). congruence. }
  destruct K as (r & -> & -> & K). destruct r as [A1|]; [|reflexivity]. cbn [rmap bind]. destruct (K A1 eq_refl) as (HO1 & Ld1 & SU1 & L1). clear K.
  rewrite (origin_positions ds A1) by (unfold okds in HO1; exact (Forall2_length _ _ _ HO1)).
  set (b := {| bd_kind := k; bd_w := w; bd_t := t; bd_A := A1; bd_cost := ct; bd_actionable := actionable_positions A1; bd_min := 0; bd_max := Z.of_nat (length (actionable_positions A1)); bd_x := None; bd_mip := None; bd_sol := None; bd_calls := 0%nat |}).
  destruct ox as [x|]; [|reflexivity]. cbn [option_map]. destruct (Hx x eq_refl) as [Lx HX]. destruct (set_up_props _ _ _ SU1) as (_ & _ & HU & HF).
  match goal with |- (let '(b', r) := set_x E ?bb _ in _) = _ => change bb with (zeros_from ds b) end.
  rewrite (origin_set_x E ds b x HE HM HO1) by (cbn [b bd_A bd_w]; try congruence; auto). destruct (set_x E b x) as [b1 [u|]]; reflexivity.
Qed.
Lemma origin_advice E X k ds A A' args args' ct w t x : ok_env E -> moves_along E -> other_zeros E X ds A A' -> parse_classifier_args args = Ok (w, t) -> parse_classifier_args args' = Ok (w, t - dot w ds) ->
  length x = as_len A -> like_rows X x ->
  match mk_builder E k A args ct (Some x), mk_builder E k A' args' ct (Some (moved ds x)) with
  | Ok b, Ok b' => forall sv, returned (fit sv b') = returned (fit sv b) /\ forall fuel total et, option_map returned (populate sv fuel total et b') = option_map returned (populate sv fuel total et b)
  | Err e, Err e' => e' = e
  | _, _ => False
  end.
Proof.
  intros HE HM HZ Hp Hp' Lx HX. pose proof (origin_builder E X k ds A A' args args' ct w t (Some x) HE HM HZ Hp Hp') as K. cbn [option_map] in K. rewrite K by (intros x0 Q; injection Q as <-; split; assumption).
  destruct (mk_builder E k A args ct (Some x)) as [b|]; [|reflexivity]. cbn [rmap]. intro sv. split.
  - rewrite origin_fit. destruct (fit sv b) as [[b1 r]|]; reflexivity.
  - intros fuel total et. rewrite origin_populate. destruct (populate sv fuel total et b) as [[[b1 r]|]|]; reflexivity.
Qed.
(** ** Actions, scores, costs *)
Lemma moved_vadd ds x a : vadd (moved ds x) a = moved ds (vadd x a).
Proof. unfold moved. revert x a. induction ds as [|d ds IH]; intros [|b x] [|c a]; try reflexivity. cbn. f_equal; [ring|]. apply IH. Qed.
Lemma score_moved w t ds x : length ds = length x -> length w = length x -> score w (t - dot w ds) (moved ds x) = score w t x.
Proof. intros H1 H2. unfold score. rewrite (dot_moved w ds x H1 H2). ring. Qed.
Lemma In_pl d v l : In (pl d v) (map (pl d) l) <-> In v l.
Proof. split; [|apply in_map]. intro H. apply in_map_iff in H. destruct H as (u & Hu & H). apply (proj1 (pl_eq d u v)) in Hu. now subst. Qed.
Lemma pl_le d a b : pl d a <= pl d b <-> a <= b.
Proof. unfold pl. split; intro H; qlra. Qed.
Lemma pl_lt d a b : pl d a < pl d b <-> a < b.
Proof. unfold pl. split; intro H; qlra. Qed.
Lemma permitted_pl d e x v : permitted (sh d e) (pl d x) (pl d v) <-> permitted e x v.
Proof. unfold permitted. cbn [sh e_actionable e_grid e_step_dir]. rewrite (In_pl d v _), !(pl_le d), (pl_eq d). reflexivity. Qed.
Lemma permitted_moved E X ds A A' x a : other_zeros E X ds A A' -> length x = as_len A -> (permitted_action A' (moved ds x) a <-> permitted_action A x a).
Proof.
  intros HZ Lx. apply other_zeros_spec in HZ. destruct HZ as (-> & HO & Ld & _). unfold permitted_action. change (as_len (sh_set ds A)) with (as_len A). unfold okds in HO. pose proof (Forall2_length _ _ _ HO) as HL.
  split; intros [H1 H2]; (split; [exact H1|]); intros j e xj aj He Hx Ha.
  - destruct (sh_nth ds (as_elems A) j e HL He) as (d & Hd & Hs). specialize (H2 j (sh d e) (pl d xj) aj Hs (moved_nth _ _ _ _ _ Hd Hx) Ha). replace (pl d xj + aj) with (pl d (xj + aj)) in H2 by (unfold pl; ring). now apply permitted_pl in H2.
  - apply moved_nth_inv in Hx. destruct Hx as (d & x0 & Hd & Hx & ->). destruct (nth_error (as_elems A) j) as [e0|] eqn:He0.
    + destruct (sh_nth ds (as_elems A) j e0 HL He0) as (d' & Hd' & Hs). assert (d' = d) by congruence. subst d'. change (as_elems (sh_set ds A)) with (sh_elems ds (as_elems A)) in He. rewrite Hs in He. injection He as <-.
      replace (pl d x0 + aj) with (pl d (x0 + aj)) by (unfold pl; ring). apply permitted_pl. exact (H2 j e0 x0 aj He0 Hx Ha).
    + change (as_elems (sh_set ds A)) with (sh_elems ds (as_elems A)) in He. rewrite (sh_nth_none ds _ j HL He0) in He. discriminate He.
Qed.
Lemma cost_pl E ct d e x v c : moves_along E -> move_cost E ct (sh d e) (pl d x) (pl d v) c <-> move_cost E ct e x v c.
Proof. intro HM. unfold move_cost. rewrite !(pl_percentiles E d e _ HM), pl_qle. reflexivity. Qed.
Lemma costs_moved E X ct ds A A' x a cs : moves_along E -> other_zeros E X ds A A' -> length x = as_len A -> (action_costs E ct A' (moved ds x) a cs <-> action_costs E ct A x a cs).
Proof.
  intros HM HZ Lx. apply other_zeros_spec in HZ. destruct HZ as (-> & HO & Ld & _). unfold action_costs. unfold okds in HO. pose proof (Forall2_length _ _ _ HO) as HL.
  split; intros [H1 H2]; (split; [exact H1|]); intros j e xj aj c He Hx Ha Hc.
  - destruct (sh_nth ds (as_elems A) j e HL He) as (d & Hd & Hs). specialize (H2 j (sh d e) (pl d xj) aj c Hs (moved_nth _ _ _ _ _ Hd Hx) Ha Hc). replace (pl d xj + aj) with (pl d (xj + aj)) in H2 by (unfold pl; ring).
    rewrite (cost_pl E ct d e _ _ c HM) in H2. exact H2.
  - apply moved_nth_inv in Hx. destruct Hx as (d & x0 & Hd & Hx & ->). destruct (nth_error (as_elems A) j) as [e0|] eqn:He0.
    + destruct (sh_nth ds (as_elems A) j e0 HL He0) as (d' & Hd' & Hs). assert (d' = d) by congruence. subst d'. change (as_elems (sh_set ds A)) with (sh_elems ds (as_elems A)) in He. rewrite Hs in He. injection He as <-.
      replace (pl d x0 + aj) with (pl d (x0 + aj)) by (unfold pl; ring). rewrite (cost_pl E ct d e0 _ _ c HM). exact (H2 j e0 x0 aj c He0 Hx Ha Hc).
    + change (as_elems (sh_set ds A)) with (sh_elems ds (as_elems A)) in He. rewrite (sh_nth_none ds _ j HL He0) in He. discriminate He.
Qed.
