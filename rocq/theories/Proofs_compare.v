(** Comparing programs built for related questions. *)
From Verif Require Import Proofs_props_element Proofs_props_actionset Spec_compare Proofs_mip Proofs_info Proofs_vec Proofs_build Proofs_enum Proofs_session Proofs_recourse Proofs_subset Proofs_exchange Proofs_far Proofs_concrete Proofs_builder Proofs_builder2 Proofs_builder4 Proofs_builder5 Proofs_scen Proofs_scen2 Proofs_builder6 Proofs_builder7 Proofs_builder8 Proofs_dict.
#[local] Open Scope string_scope.
#[local] Open Scope list_scope.
#[local] Open Scope Qc_scope.

(** ** The part of a program that depends neither on the classifier nor on the limits *)
Definition recoef (f : info -> Qc) (i : info) : info := {| i_name := i_name i; i_idx := i_idx i; i_coef := f i; i_actions := i_actions i; i_costs := i_costs i; i_knull := i_knull i |}.

Lemma eqm {A B} (f g : A -> B) l : (forall a, f a = g a) -> map f l = map g l.
Proof. intro H. apply map_ext. exact H. Qed.
Lemma uvars_re f i : uvars (recoef f i) = uvars i. Proof. reflexivity. Qed.

Definition rows_of (k : backend) (ct : cost_type) (infos : list info) (subs : list (list row)) : list row :=
  flat_map (fun i => [set_row k i; pick_row i]) infos ++ concat subs ++ match ct with CMax => flat_map (fun i => [def_cost_row k i; set_max_row i]) infos | _ => [] end.
Definition vars_of (ct : cost_type) (infos : list info) : list vdecl :=
  (map avar_decl infos ++ map uvar_decl (flat_map uvars infos)) ++ match ct with CMax => map cvar_decl (VMax :: map (fun i => VC (i_idx i)) infos) | _ => [] end.
Definition obj_of (ct : cost_type) (infos : list info) : expr :=
  match ct with CMax => (1, VMax) :: map (fun v => (epsilon infos, v)) (map (fun i => VC (i_idx i)) infos) | _ => flat_map cost_terms infos end.

(** A reference program: the static part. *)
Definition static (ct : cost_type) (infos : list info) (subs : list (list row)) : mip :=
  {| m_vars := vars_of ct infos; m_rows := rows_of PyMIP ct infos subs; m_sos := map uvars infos; m_obj := obj_of ct infos |}.
Definition cons_list (A : action_set) := combine (seq 0 (length (r_cons (as_cons A)))) (map snd (r_cons (as_cons A))).

Lemma build_parts E k A ct w t lo hi x ms : build E k A ct w t lo hi x = Ok ms -> exists subs,
  get_build_info E A ct w x = Ok (ms_infos ms) /\ mapM (subset_rows PyMIP (ms_infos ms)) (cons_list A) = Ok subs /\ (ct <> CMax -> ms_infos ms <> []) /\
  forall s, mip_sat (ms_mip ms) s = (row_ok s (score_row (as_y A) (dot w x + t) (ms_infos ms)) && (row_ok s (max_items_row hi (ms_infos ms)) && row_ok s (min_items_row lo (ms_infos ms)))) && mip_sat (static ct (ms_infos ms) subs) s
    /\ objective (ms_mip ms) s = objective (static ct (ms_infos ms) subs) s.
Proof.
  unfold build. destruct (get_build_info E A ct w x) as [infos|e]; [|discriminate]. cbn [bind]. fold (cons_list A).
  pose proof (subs_same infos (cons_list A)) as K.
  assert (KK : match mapM (subset_rows k infos) (cons_list A) with Ok l => exists l', mapM (subset_rows PyMIP infos) (cons_list A) = Ok l' /\ forall s, forallb (row_ok s) (concat l) = forallb (row_ok s) (concat l') | Err _ => True end).
  { destruct k; [|destruct (mapM (subset_rows PyMIP infos) (cons_list A)); [eauto|exact I]].
    destruct (mapM (subset_rows CPX infos) (cons_list A)), (mapM (subset_rows PyMIP infos) (cons_list A)); try (now destruct K); eauto. }
  clear K. destruct (mapM (subset_rows k infos) (cons_list A)) as [q|]; [|discriminate]. cbn [bind]. destruct KK as (q' & HQ & K). cbv zeta.
  assert (FS : forall s, forallb (row_ok s) (flat_map (fun i => [set_row k i; pick_row i]) infos) = forallb (row_ok s) (flat_map (fun i => [set_row PyMIP i; pick_row i]) infos)).
  { intro s. apply forallb_flat_map_eq. intro i. cbn [forallb]. destruct k; [now rewrite set_row_same|reflexivity]. }
  assert (FD : forall s, forallb (row_ok s) (flat_map (fun i => [def_cost_row k i; set_max_row i]) infos) = forallb (row_ok s) (flat_map (fun i => [def_cost_row PyMIP i; set_max_row i]) infos)).
  { intro s. apply forallb_flat_map_eq. intro i. cbn [forallb]. destruct k; [now rewrite def_row_same|reflexivity]. }
  assert (FIN : forall m, m_vars m = vars_of ct infos -> m_sos m = map uvars infos ->
     (forall s, forallb (row_ok s) (m_rows m) = (row_ok s (score_row (as_y A) (dot w x + t) infos) && (row_ok s (max_items_row hi infos) && row_ok s (min_items_row lo infos))) && forallb (row_ok s) (rows_of PyMIP ct infos q')) ->
     forall s, mip_sat m s = (row_ok s (score_row (as_y A) (dot w x + t) infos) && (row_ok s (max_items_row hi infos) && row_ok s (min_items_row lo infos))) && mip_sat (static ct infos q') s).
  { intros m H1 H2 H3 s. unfold mip_sat. cbn [static m_vars m_rows m_sos]. rewrite H1, H2, (H3 s).
    set (p := row_ok s _). set (q0 := _ && row_ok s _). destruct (forallb (var_ok s) _), p, q0, (forallb (row_ok s) _), (forallb (sos_ok s) _); reflexivity. }
  assert (TL : forall (a b c d e f : bool), (a && (b && ((c && (d && true)) && e))) && f = (a && (c && d)) && (b && (e && f))) by (intros [] [] [] [] [] []; reflexivity).
  destruct ct.
  1,2: destruct (match infos with [] => Err KeyError | _ => Ok tt end) as [u|] eqn:Hn; [|discriminate]; cbn [bind]; intro H; injection H as <-; exists q'; cbn [ms_infos ms_mip]; split; [reflexivity|]; split; [exact HQ|]; split; [intros _ Q; rewrite Q in Hn; discriminate Hn|];
    intro s; (split; [|reflexivity]); apply FIN; [unfold vars_of; now rewrite app_nil_r|reflexivity|]; clear s; intro s; cbn [m_rows]; unfold rows_of; rewrite app_nil_r;
    rewrite !forallb_app, <- FS, <- (K s); cbn [forallb]; rewrite !forallb_app; cbn [forallb];
    set (a1 := row_ok s (score_row _ _ _)); set (a2 := row_ok s (max_items_row _ _)); set (a3 := row_ok s (min_items_row _ _)); set (a4 := forallb _ (flat_map _ _)); set (a5 := forallb _ (concat _)); clearbody a1 a2 a3 a4 a5; destruct a1, a2, a3, a4, a5; reflexivity.
  intro H; injection H as <-; exists q'; cbn [ms_infos ms_mip]; split; [reflexivity|]; split; [exact HQ|]; split; [intro Q; now contradict Q|].
  intro s. split; [|reflexivity]. apply FIN; [reflexivity|reflexivity|]. clear s. intro s. cbn [m_rows]. unfold rows_of.
  rewrite !forallb_app, <- FS, <- FD, <- (K s). cbn [app forallb]. rewrite !forallb_app. cbn [forallb].
  set (a1 := row_ok s (score_row _ _ _)); set (a2 := row_ok s (max_items_row _ _)); set (a3 := row_ok s (min_items_row _ _)); set (a4 := forallb _ (flat_map _ _)); set (a5 := forallb _ (concat _)); set (a6 := forallb _ (flat_map _ _)); clearbody a1 a2 a3 a4 a5 a6; destruct a1, a2, a3, a4, a5, a6; reflexivity.
Qed.
Lemma build_total E k A ct w t lo hi x infos subs : get_build_info E A ct w x = Ok infos -> mapM (subset_rows PyMIP infos) (cons_list A) = Ok subs -> (ct <> CMax -> infos <> []) ->
  exists ms, build E k A ct w t lo hi x = Ok ms.
Proof.
  intros H1 H2 H3. unfold build. rewrite H1. cbn [bind]. fold (cons_list A). pose proof (subs_same infos (cons_list A)) as K.
  assert (KK : exists q, mapM (subset_rows k infos) (cons_list A) = Ok q).
  { destruct k; [|eauto]. rewrite H2 in K. destruct (mapM (subset_rows CPX infos) (cons_list A)); [eauto|destruct K]. }
  destruct KK as (q & ->). cbn [bind]. cbv zeta. destruct ct; [| |eauto].
  all: destruct infos; [exfalso; now apply H3|cbn [bind]; eauto].
Qed.

(** ** Changing coefficients *)
Lemma flat_map_map {A B C} (f : B -> list C) (g : A -> B) l : flat_map f (map g l) = flat_map (fun a => f (g a)) l.
Proof. induction l as [|a l IH]; [reflexivity|]. cbn. now rewrite IH. Qed.
Lemma subset_re f k infos p : subset_rows k (map (recoef f) infos) p = subset_rows k infos p.
Proof. destruct p as [pos c]. unfold subset_rows. now rewrite map_map. Qed.
Lemma subs_re f k infos l : mapM (subset_rows k (map (recoef f) infos)) l = mapM (subset_rows k infos) l.
Proof. induction l as [|p l IH]; [reflexivity|]. cbn [mapM]. now rewrite subset_re, IH. Qed.
Lemma eps_re f infos : epsilon (map (recoef f) infos) = epsilon infos.
Proof. unfold epsilon. destruct infos as [|i l]; [reflexivity|]. cbn [map]. rewrite !map_map. reflexivity. Qed.
Lemma static_re f ct infos subs : static ct (map (recoef f) infos) subs = static ct infos subs.
Proof.
  unfold static, vars_of, rows_of, obj_of. rewrite eps_re. rewrite !map_map, !flat_map_map. reflexivity.
Qed.

Definition re (g : Qc -> Qc) : info -> info := recoef (fun i => g (i_coef i)).
Lemma make_info_re E ct names cn w x n a c g : make_info E ct names cn (map g w) x n a c =
  match make_info E ct names cn w x n a c with Ok o => Ok (option_map (re g) o) | Err e => Err e end.
Proof.
  unfold make_info. destruct (Nat.ltb (length a) 2); [reflexivity|]. cbv zeta. destruct (if existsb is_bug _ then _ else _); [|reflexivity]. cbn [bind].
  destruct (of_option KeyError (index_of n names)) as [j|]; [|reflexivity]. cbn [bind]. rewrite nth_error_map. destruct (nth_error w j) as [wj|]; [|reflexivity]. cbn [of_option option_map bind].
  destruct (of_option IndexError (nth_error x j)) as [xj|]; [|reflexivity]. cbn [bind]. destruct (if smem n cn && (0 <? xj) then _ else _); [|reflexivity]. cbn [bind].
  destruct (if Nat.ltb _ 2 then _ else _); reflexivity.
Qed.
Lemma make_info_coef E ct names cn w x n a c i : make_info E ct names cn w x n a c = Ok (Some i) -> nth_error w (i_idx i) = Some (i_coef i).
Proof.
  unfold make_info. destruct (Nat.ltb (length a) 2); [discriminate|]. cbv zeta. destruct (if existsb is_bug _ then _ else _); [|discriminate]. cbn [bind].
  destruct (of_option KeyError (index_of n names)) as [j|]; [|discriminate]. cbn [bind]. destruct (nth_error w j) as [wj|] eqn:Ew; [|discriminate]. cbn [of_option bind].
  destruct (of_option IndexError (nth_error x j)) as [xj|]; [|discriminate]. cbn [bind]. destruct (if smem n cn && (0 <? xj) then _ else _); [|discriminate]. cbn [bind].
  destruct (if Nat.ltb _ 2 then _ else _); [|discriminate]. cbn [bind]. intro H. injection H as <-. exact Ew.
Qed.
Definition picks (l : list (option info)) : list info := flat_map (fun o => match o with Some i => [i] | None => [] end) l.
Lemma picks_re g l : picks (map (option_map (re g)) l) = map (re g) (picks l).
Proof. induction l as [|[i|] l IH]; [reflexivity| |]; cbn; [f_equal|]; exact IH. Qed.
Lemma infos_re E ct names cn w x g (grid : dict gridentry) : mapM (fun p => make_info E ct names cn (map g w) x (fst p) (fst (snd p)) (snd (snd p))) grid =
  match mapM (fun p => make_info E ct names cn w x (fst p) (fst (snd p)) (snd (snd p))) grid with Ok l => Ok (map (option_map (re g)) l) | Err e => Err e end.
Proof.
  induction grid as [|p grid IH]; [reflexivity|]. cbn [mapM]. rewrite make_info_re. destruct (make_info E ct names cn w x _ _ _) as [o|]; [|reflexivity]. cbn [bind]. rewrite IH.
  match goal with |- context [mapM ?f grid] => destruct (mapM f grid); reflexivity end.
Qed.
Lemma infos_coef E ct names cn w x (grid : dict gridentry) : forall l, mapM (fun p => make_info E ct names cn w x (fst p) (fst (snd p)) (snd (snd p))) grid = Ok l ->
  forall i, In i (picks l) -> nth_error w (i_idx i) = Some (i_coef i).
Proof.
  induction grid as [|p grid IH]; cbn [mapM]; intros l H; [injection H as <-; intros i []|].
  destruct (make_info E ct names cn w x _ _ _) as [o|] eqn:Em; [|discriminate H]. cbn [bind] in H. match type of H with context [mapM ?f grid] => destruct (mapM f grid) as [l'|] eqn:El; [|discriminate H] end. cbn [bind] in H. injection H as <-.
  intros i Hi. destruct o as [i0|]; cbn in Hi; [|exact (IH _ eq_refl i Hi)]. destruct Hi as [<-|Hi]; [|exact (IH _ eq_refl i Hi)]. exact (make_info_coef _ _ _ _ _ _ _ _ _ _ Em).
Qed.
Definition check_same (g : Qc -> Qc) (y y' : Z) (w : list Qc) : Prop := forall j wj, nth_error w j = Some wj ->
  isclose0 (g wj) = isclose0 wj /\ (0 <? y' * qsign (g wj))%Z = (0 <? y * qsign wj)%Z.
Lemma gbi_re E A ct w x g y' : check_same g (as_y A) y' w -> get_build_info E (with_y A y') ct (map g w) x =
  match get_build_info E A ct w x with Ok l => Ok (map (re g) l) | Err e => Err e end.
Proof.
  intro HC. unfold get_build_info. change (feasible_grid E (with_y A y') x true true true) with (feasible_grid E A x true true true).
  destruct (feasible_grid E A x true true true) as [grid|]; [|reflexivity]. cbn [bind]. cbn [with_y as_names as_cons as_y]. rewrite infos_re.
  match goal with |- context [mapM ?f grid] => destruct (mapM f grid) as [l|] eqn:El; [|reflexivity] end. cbn [bind]. fold (picks (map (option_map (re g)) l)) (picks l). rewrite picks_re.
  assert (FC : forallb (check_info y' (constrained_names E (as_cons A))) (map (re g) (picks l)) = forallb (check_info (as_y A) (constrained_names E (as_cons A))) (picks l)).
  { pose proof (infos_coef _ _ _ _ _ _ _ _ El) as KC. induction (picks l) as [|i r IH]; [reflexivity|]. cbn [map forallb]. rewrite IH by (intros j Hj; apply KC; now right). f_equal.
    destruct (HC _ _ (KC i (or_introl eq_refl))) as [C1 C2]. unfold check_info. cbn [re recoef i_coef i_costs i_actions i_name]. rewrite C1, C2. reflexivity. }
  rewrite FC. destruct (passert _); reflexivity.
Qed.

(** ** Score rows *)
Definition score_terms (infos : list info) : expr := map (fun i => (i_coef i, VA (i_idx i))) infos.
Lemma score_row_iff s y v infos : row_ok s (score_row y v infos) = true <-> if (0 <? y)%Z then - v <= eval s (score_terms infos) else eval s (score_terms infos) <= - v.
Proof. unfold score_row, row_ge, row_le, row_ok. fold (score_terms infos). destruct (0 <? y)%Z; cbn [r_lo r_hi r_terms]; rewrite ?andb_true_r; cbn [andb]; apply qle_iff. Qed.
Lemma score_terms_lin k s infos : eval s (score_terms (map (re (Qcmult k)) infos)) = k * eval s (score_terms infos).
Proof. induction infos as [|i l IH]; [change (0 = k * 0); ring|]. cbn [map score_terms]. fold (score_terms (map (re (Qcmult k)) l)) (score_terms l). rewrite !eval_cons, IH. cbn [re recoef i_coef i_idx]. ring. Qed.
Lemma score_terms_opp s infos : eval s (score_terms (map (re Qcopp) infos)) = - eval s (score_terms infos).
Proof. induction infos as [|i l IH]; [change (0 = - 0); ring|]. cbn [map score_terms]. fold (score_terms (map (re Qcopp) l)) (score_terms l). rewrite !eval_cons, IH. cbn [re recoef i_coef i_idx]. ring. Qed.

(** ** From programs to answers *)
Lemma fit_dict_total sv rp t b ms : bd_mip b = Some ms -> exists b1 d, fit_dict sv rp t b = Ok (b1, d) /\
  (d_feasible d = true \/ shows_none (length (bd_w b)) d).
Proof.
  intro Hm. destruct (fit_status sv b ms Hm) as (b1 & Hf). destruct (c84_fit_total sv rp t b b1 _ Hf) as (d & Hd & Hs). exists b1, d. split; [exact Hd|].
  destruct (solution_info _ _ _ _ _); [left; apply Hs|right; exact Hs].
Qed.
Lemma related_gen sv sv' b b' ms ms' P' ct : sound_solver sv -> sound_solver sv' -> finishing_solver sv' ->
  bd_mip b = Some ms -> good b' ms' P' -> bd_cost b = ct -> bd_cost b' = ct ->
  (forall s, mip_sat (ms_mip ms) s = true -> exists s', mip_sat (ms_mip ms') s' = true /\ objective (ms_mip ms') s' <= objective (ms_mip ms) s) ->
  answers_related (no_worse ct) sv sv' b b'.
Proof.
  intros S1 S2 F2 M1 G2 C1 C2 HM rp rp' t t'. pose proof (gd_mip _ _ _ G2) as M2.
  destruct (fit_dict_total sv rp t b ms M1) as (b1 & d & Hd & Dc). destruct (fit_dict_total sv' rp' t' b' ms' M2) as (b1' & d' & Hd' & Dc').
  exists b1, d, b1', d'. split; [exact Hd|]. split; [exact Hd'|].
  destruct Dc as [Df|(Df & Dc & _ & _ & Du & _)].
  2:{ split; [intro Q; rewrite Df in Q; discriminate Q|]. rewrite Du, Dc. destruct Dc' as [Df'|(_ & Dc' & _ & _ & Du' & _)].
      - destruct (fit_dict_feasible sv' rp' t' b' ms' b1' d' M2 Hd' Df') as (a' & s' & _ & _ & _ & Sh & U & _). destruct Sh as (_ & -> & _). rewrite U. split; [exact I|]. intros _. exact I.
      - rewrite Du', Dc'. split; [exact I|]. intros _. exact I. }
  destruct (fit_dict_feasible sv rp t b ms b1 d M1 Hd Df) as (a & s & Ea & Es & _ & Sh & U & _).
  pose proof (S1 (bd_calls b) (ms_mip ms)) as V1. pose proof (S2 (bd_calls b') (ms_mip ms')) as V2. pose proof (finishing_good sv' b' ms' _ F2 G2) as K2.
  assert (Va : mip_sat (ms_mip ms) a = true).
  { unfold exposed in Ea. destruct (sv (bd_calls b) (ms_mip ms)) as [s0 gi|s0| |]; cbn [valid_outcome] in V1.
    - destruct (bd_kind b), gi; try discriminate Ea; injection Ea as <-; apply V1.
    - destruct (bd_kind b); [|discriminate Ea]. injection Ea as <-. exact V1.
    - destruct (bd_kind b); discriminate Ea.
    - destruct (bd_kind b); discriminate Ea. }
  assert (Cs : ct <> CMax -> s_cost s = objective (ms_mip ms) a).
  { intro Hc. unfold solution_info in Es. rewrite Ea, C1 in Es. injection Es as <-. cbn [s_cost]. destruct ct; [reflexivity|reflexivity|now contradict Hc]. }
  destruct (sv' (bd_calls b') (ms_mip ms')) as [s0 [|]| | |] eqn:EV; try (destruct K2; fail); cbn [valid_outcome] in V2.
  2:{ destruct (HM a Va) as (a2 & Q & _). rewrite (V2 a2) in Q. discriminate Q. }
  assert (X : exposed (bd_kind b') (SOptimal s0 false) = Some s0) by (destruct (bd_kind b'); reflexivity).
  assert (Df' : d_feasible d' = true).
  { destruct Dc' as [Q|Q]; [exact Q|]. exfalso. destruct (c84_fit _ _ _ _ _ _ Hd') as (r & Hf & Hsh & _). destruct (fit_status sv' b' ms' M2) as (b2 & Hf2). rewrite Hf2 in Hf. injection Hf as _ <-.
    rewrite EV in Hsh. unfold solution_info in Hsh. rewrite X in Hsh. destruct Hsh as (W1 & _). destruct Q as (W2 & _). rewrite W2 in W1. discriminate W1. }
  destruct (fit_dict_feasible sv' rp' t' b' ms' b1' d' M2 Hd' Df') as (a' & s' & Ea' & Es' & _ & Sh' & U' & _). rewrite EV, X in Ea'. injection Ea' as <-.
  assert (LE : objective (ms_mip ms') s0 <= objective (ms_mip ms) a) by (destruct (HM a Va) as (a2 & Q & LQ); eapply Qcle_trans; [apply V2, Q|exact LQ]).
  split; [intros _; exact Df'|]. rewrite U, U'. split; [exact LE|]. intro Hc. destruct Sh as (_ & -> & _), Sh' as (_ & -> & _). cbn [fle]. rewrite (Cs Hc).
  assert (Cs' : s_cost s' = objective (ms_mip ms') s0).
  { rewrite EV in Es'. unfold solution_info in Es'. rewrite X, C2 in Es'. injection Es' as <-. cbn [s_cost]. destruct ct; [reflexivity|reflexivity|now contradict Hc]. }
  rewrite Cs'. exact LE.
Qed.
Lemma related_no_worse sv sv' b b' ms ms' P' ct : sound_solver sv -> sound_solver sv' -> finishing_solver sv' ->
  bd_mip b = Some ms -> good b' ms' P' -> bd_cost b = ct -> bd_cost b' = ct ->
  (forall s, mip_sat (ms_mip ms) s = true -> mip_sat (ms_mip ms') s = true) -> (forall s, objective (ms_mip ms) s = objective (ms_mip ms') s) ->
  answers_related (no_worse ct) sv sv' b b'.
Proof.
  intros S1 S2 F2 M1 G2 C1 C2 HM HO. apply (related_gen sv sv' b b' ms ms' P' ct); auto. intros s Hs. exists s. split; [auto|]. rewrite (HO s). apply Qcle_refl.
Qed.
Lemma fle_antisym a b : fle a b -> fle b a -> a = b.
Proof. destruct a, b; cbn; intros H1 H2; try contradiction; try reflexivity. f_equal. now apply Qcle_antisym. Qed.
Lemma related_same ct sv sv' b b' : answers_related (no_worse ct) sv sv' b b' -> answers_related (no_worse ct) sv' sv b' b -> answers_related (same_answer ct) sv sv' b b'.
Proof.
  intros H1 H2 rp rp' t t'. destruct (H1 rp rp' t t') as (b1 & d & b1' & d' & E1 & E2 & K1). destruct (H2 rp' rp t' t) as (b2 & e & b2' & e' & E3 & E4 & K2).
  rewrite E1 in E4. rewrite E2 in E3. injection E3 as <- <-. injection E4 as <- <-. exists b1, d, b1', d'. split; [exact E1|]. split; [exact E2|].
  destruct K1 as (A1 & A2 & A3), K2 as (B1 & B2 & B3). split; [|split].
  - destruct (d_feasible d), (d_feasible d'); try reflexivity; [now apply A1|symmetry; now apply B1].
  - now apply fle_antisym.
  - intro Hc. apply fle_antisym; auto.
Qed.

Lemma gbi_both E A ct w x g y' l l' : get_build_info E A ct w x = Ok l -> get_build_info E (with_y A y') ct (map g w) x = Ok l' -> l' = map (re g) l.
Proof.
  unfold get_build_info. change (feasible_grid E (with_y A y') x true true true) with (feasible_grid E A x true true true).
  destruct (feasible_grid E A x true true true) as [grid|]; [|discriminate]. cbn [bind]. cbn [with_y as_names as_cons as_y]. rewrite infos_re.
  match goal with |- context [mapM ?f grid] => destruct (mapM f grid) as [r|]; [|discriminate] end. cbn [bind]. fold (picks (map (option_map (re g)) r)) (picks r). rewrite picks_re.
  destruct (passert _); [|discriminate]. cbn [bind]. intro H. injection H as <-. destruct (passert _); [|discriminate]. cbn [bind]. intro H. now injection H as <-.
Qed.
Lemma with_y_id A : with_y A (as_y A) = A.
Proof. now destruct A. Qed.

(** The programs of two assigned builders whose questions differ by coefficients, intercept, side and limits. *)
Lemma assigned_parts E sv b x b0 : ok_env E -> assigned E sv b x b0 -> exists ms P subs, good b0 ms P /\ bd_cost b0 = bd_cost b /\
  get_build_info E (bd_A b) (bd_cost b) (bd_w b) x = Ok (ms_infos ms) /\ mapM (subset_rows PyMIP (ms_infos ms)) (cons_list (bd_A b)) = Ok subs /\
  (forall s, mip_sat (ms_mip ms) s = (row_ok s (score_row (as_y (bd_A b)) (dot (bd_w b) x + bd_t b) (ms_infos ms)) && (row_ok s (max_items_row (bd_max b) (ms_infos ms)) && row_ok s (min_items_row (bd_min b) (ms_infos ms)))) && mip_sat (static (bd_cost b) (ms_infos ms) subs) s) /\
  (forall s, objective (ms_mip ms) s = objective (static (bd_cost b) (ms_infos ms) subs) s).
Proof.
  intros HE HA. destruct (assigned_ready E sv b x b0 HE HA) as (ms & R). destruct (set_x_ok _ _ _ _ (proj2 HA)) as (ms' & _ & HB & E0).
  pose proof (rd_good _ _ _ _ _ R) as G. pose proof (gd_mip _ _ _ G) as M. rewrite E0 in M. cbn [with_mip bd_mip] in M. injection M as ->.
  destruct (build_parts _ _ _ _ _ _ _ _ _ _ HB) as (subs & K1 & K2 & _ & K3). exists ms. eexists. exists subs. split; [exact G|]. split; [rewrite E0; reflexivity|]. split; [exact K1|]. split; [exact K2|].
  split; intro s; apply (K3 s).
Qed.
Lemma compare_gen E sv sv' b b' x b0 b0' g : ok_env E -> sound_solver sv -> sound_solver sv' -> finishing_solver sv' ->
  assigned E sv b x b0 -> assigned E sv' b' x b0' -> bd_A b' = with_y (bd_A b) (as_y (bd_A b')) -> bd_cost b' = bd_cost b -> bd_w b' = map g (bd_w b) ->
  (bd_min b' <= bd_min b)%Z -> (bd_max b <= bd_max b')%Z ->
  (forall s infos, row_ok s (score_row (as_y (bd_A b)) (dot (bd_w b) x + bd_t b) infos) = true -> row_ok s (score_row (as_y (bd_A b')) (dot (bd_w b') x + bd_t b') (map (re g) infos)) = true) ->
  answers_related (no_worse (bd_cost b)) sv sv' b0 b0'.
Proof.
  intros HE S1 S2 F2 A1 A2 QA QC QW Hlo Hhi HS.
  destruct (assigned_parts E sv b x b0 HE A1) as (ms & P & subs & G & C & I1 & U1 & M1 & O1). destruct (assigned_parts E sv' b' x b0' HE A2) as (ms' & P' & subs' & G' & C' & I2 & U2 & M2 & O2).
  assert (QI : ms_infos ms' = map (re g) (ms_infos ms)). { rewrite QA, QC, QW in I2. exact (gbi_both _ _ _ _ _ _ _ _ _ I1 I2). }
  assert (QU : subs' = subs). { rewrite QA, QI in U2. change (cons_list (with_y (bd_A b) (as_y (bd_A b')))) with (cons_list (bd_A b)) in U2. unfold re in U2. rewrite subs_re, U1 in U2. now injection U2. }
  subst subs'. rewrite QI in M2, O2. rewrite QC in M2, O2, C'. unfold re in M2, O2. setoid_rewrite static_re in M2. setoid_rewrite static_re in O2. fold (re g) in M2.
  apply (related_no_worse sv sv' b0 b0' ms ms' P' (bd_cost b) S1 S2 F2 (gd_mip _ _ _ G) G' C C').
  2:{ intro s. now rewrite O1, O2. }
  intros s. rewrite M1, M2, !andb_true_iff. intros [[H1 [H2 H3]] H4]. split; [split; [now apply HS|]|exact H4].
  clear - H2 H3 Hlo Hhi. unfold max_items_row, min_items_row, row_ge, row_le, row_ok in *. cbn [r_lo r_hi r_terms] in *. rewrite ?andb_true_r in *. cbn [andb] in *. rewrite map_map, map_length.
  change (map (fun i => off_var (re g i)) (ms_infos ms)) with (map off_var (ms_infos ms)). rewrite !qle_iff in *. split.
  - eapply Qcle_trans; [|exact H2]. apply qz_le. lia.
  - eapply Qcle_trans; [exact H3|]. apply qz_le. lia.
Qed.
