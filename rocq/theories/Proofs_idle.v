(** Features that play no role leave no trace in the program. *)
From Verif Require Import Proofs_props_element Proofs_props_actionset Spec_idle Proofs_mip Proofs_info Proofs_vec Proofs_build Proofs_enum Proofs_session Proofs_recourse Proofs_subset Proofs_exchange Proofs_builder Proofs_builder2 Proofs_builder3 Proofs_builder5 Proofs_builder6 Proofs_lineup Proofs_values.
#[local] Open Scope list_scope.
#[local] Open Scope Qc_scope.

Section Keep.
Context (keep : string -> bool).
Definition kept {V} (d : dict V) : dict V := filter (fun p => keep (fst p)) d.
Lemma kept_dset {V} n (v : V) d : kept (dset n v d) = if keep n then dset n v (kept d) else kept d.
Proof.
  unfold kept. destruct (keep n) eqn:K.
  - induction d as [|[m u] d IH]; cbn [dset filter fst]; [now rewrite K|]. destruct (String.eqb n m) eqn:Q.
    + apply String.eqb_eq in Q. subst m. cbn [filter fst]. rewrite K. cbn [dset]. now rewrite String.eqb_refl.
    + cbn [filter fst]. destruct (keep m); [|exact IH]. cbn [dset]. rewrite Q. f_equal. exact IH.
  - induction d as [|[m u] d IH]; cbn [dset filter fst]; [now rewrite K|]. destruct (String.eqb n m) eqn:Q.
    + apply String.eqb_eq in Q. subst m. cbn [filter fst]. now rewrite K.
    + cbn [filter fst]. destruct (keep m); [f_equal|]; exact IH.
Qed.
Context (E : env) (A A' : action_set) (x x' : list Qc).
Context (HS : forall n j, nth_error (as_names A) j = Some n -> keep n = true -> nth_error (as_elems A') j = nth_error (as_elems A) j /\ nth_error x' j = nth_error x j).

Lemma kept_output : forall names (es : list element) (xs : list Qc) (es' : list element) (xs' : list Qc) out out', length es' = length es -> length xs' = length xs ->
  (forall n j, nth_error names j = Some n -> keep n = true -> nth_error es' j = nth_error es j /\ nth_error xs' j = nth_error xs j) ->
  mapM (fun q => let '(n, (e, xj)) := q in let! v := feasible_values E e xj true true true in Ok (n, v))
    (filter (fun q => grid_included true (fst (snd q))) (combine names (combine es xs))) = Ok out ->
  mapM (fun q => let '(n, (e, xj)) := q in let! v := feasible_values E e xj true true true in Ok (n, v))
    (filter (fun q => grid_included true (fst (snd q))) (combine names (combine es' xs'))) = Ok out' ->
  kept out = kept out'.
Proof.
  induction names as [|n names IH]; intros es xs es' xs' out out' L1 L2 H Ho Ho'; [cbn in Ho, Ho'; injection Ho as <-; injection Ho' as <-; reflexivity|].
  destruct es as [|e es]; destruct es' as [|e' es']; try discriminate L1; [cbn in Ho, Ho'; injection Ho as <-; injection Ho' as <-; reflexivity|].
  destruct xs as [|u xs]; destruct xs' as [|u' xs']; try discriminate L2; [cbn in Ho, Ho'; injection Ho as <-; injection Ho' as <-; reflexivity|].
  assert (H' : forall m j, nth_error names j = Some m -> keep m = true -> nth_error es' j = nth_error es j /\ nth_error xs' j = nth_error xs j) by (intros m j; exact (H m (S j))).
  injection L1 as L1. injection L2 as L2.
  cbn [combine filter fst snd] in Ho, Ho'.
  assert (Step : forall (e0 : element) (u0 : Qc) (l : list (string * (element * Qc))) o,
    mapM (fun q => let '(n, (e, xj)) := q in let! v := feasible_values E e xj true true true in Ok (n, v)) (if grid_included true e0 then (n, (e0, u0)) :: l else l) = Ok o ->
    exists o1, mapM (fun q => let '(n, (e, xj)) := q in let! v := feasible_values E e xj true true true in Ok (n, v)) l = Ok o1 /\
      ((grid_included true e0 = false /\ o = o1) \/ (grid_included true e0 = true /\ exists v, feasible_values E e0 u0 true true true = Ok v /\ o = (n, v) :: o1))).
  { intros e0 u0 l o Hm. destruct (grid_included true e0); [|eauto]. cbn [mapM] in Hm. bnd Hm as p Hp. bnd Hp as v Hv. injection Hp as <-. bnd Hm as o1 Ho1. injection Hm as <-. exists o1. split; [exact Ho1|]. right. eauto. }
  destruct (Step _ _ _ _ Ho) as (o1 & Hm & Hc). destruct (Step _ _ _ _ Ho') as (o1' & Hm' & Hc'). clear Step.
  pose proof (IH _ _ _ _ _ _ L1 L2 H' Hm Hm') as IHk. destruct (keep n) eqn:K.
  - destruct (H n 0%nat eq_refl K) as [He Hu]. cbn in He, Hu. injection He as ->. injection Hu as ->.
    destruct Hc as [[G ->]|(G & v & Hv & ->)]; destruct Hc' as [[G' ->]|(G' & v' & Hv' & ->)]; try congruence. assert (v' = v) as -> by congruence. unfold kept in *. cbn [filter fst]. rewrite K. now f_equal.
  - assert (D : forall o o0 (v : list Qc * list Qc), (o = o0 \/ o = (n, v) :: o0) -> kept o = kept o0). { intros o o0 v [->| ->]; [reflexivity|]. unfold kept. cbn [filter fst]. now rewrite K. }
    transitivity (kept o1); [destruct Hc as [[_ ->]|(_ & v & _ & ->)]; [reflexivity|exact (D _ _ v (or_intror eq_refl))]|]. rewrite IHk.
    destruct Hc' as [[_ ->]|(_ & v & _ & ->)]; [reflexivity|symmetry; exact (D _ _ v (or_intror eq_refl))].
Qed.
Lemma kept_over cn : forall out out' g g', kept out = kept out' ->
  fold_left (fun acc n => let! out := acc in
          let! j := of_option ValueError (index_of n (as_names A)) in
          match nth_error (as_elems A) j, nth_error x j with
          | Some e, Some xj => let! v := feasible_values E e xj true true false in Ok (dset n v out)
          | _, _ => Err KeyError
          end) cn (Ok out) = Ok g ->
  fold_left (fun acc n => let! out := acc in
          let! j := of_option ValueError (index_of n (as_names A)) in
          match nth_error (as_elems A') j, nth_error x' j with
          | Some e, Some xj => let! v := feasible_values E e xj true true false in Ok (dset n v out)
          | _, _ => Err KeyError
          end) cn (Ok out') = Ok g' ->
  kept g = kept g'.
Proof.
  induction cn as [|n cn IH]; intros out out' g g' HK Hg Hg'; [cbn in Hg, Hg'; injection Hg as <-; injection Hg' as <-; exact HK|].
  cbn [fold_left bind] in Hg, Hg'.
  destruct (index_of n (as_names A)) as [j|] eqn:Ej; [|cbn in Hg; rewrite fold_err in Hg by reflexivity; discriminate Hg]. cbn [of_option bind] in Hg, Hg'.
  destruct (nth_error (as_elems A) j) as [e|] eqn:Ee; [|rewrite fold_err in Hg by reflexivity; discriminate Hg].
  destruct (nth_error x j) as [u|] eqn:Eu; [|rewrite fold_err in Hg by reflexivity; discriminate Hg].
  destruct (nth_error (as_elems A') j) as [e'|] eqn:Ee'; [|rewrite fold_err in Hg' by reflexivity; discriminate Hg'].
  destruct (nth_error x' j) as [u'|] eqn:Eu'; [|rewrite fold_err in Hg' by reflexivity; discriminate Hg'].
  destruct (feasible_values E e u true true false) as [v|] eqn:Ev; [|cbn in Hg; rewrite fold_err in Hg by reflexivity; discriminate Hg].
  destruct (feasible_values E e' u' true true false) as [v'|] eqn:Ev'; [|cbn in Hg'; rewrite fold_err in Hg' by reflexivity; discriminate Hg'].
  cbn [bind] in Hg, Hg'. refine (IH _ _ _ _ _ Hg Hg').
  rewrite !kept_dset. destruct (keep n) eqn:K; [|exact HK].
  apply index_of_ok in Ej. destruct (HS n j Ej K) as [Q1 Q2]. rewrite Ee, Ee' in Q1. rewrite Eu, Eu' in Q2. injection Q1 as ->. injection Q2 as ->. assert (v' = v) as -> by congruence. now rewrite HK.
Qed.
End Keep.

Lemma make_info_local E ct names cn w x w' x' n a c j : index_of n names = Some j -> nth_error w' j = nth_error w j -> nth_error x' j = nth_error x j ->
  make_info E ct names cn w' x' n a c = make_info E ct names cn w x n a c.
Proof. intros Hj Hw Hx. unfold make_info. rewrite Hj. cbn [of_option bind]. now rewrite Hw, Hx. Qed.

Section Alike.
Context (E : env) (A A' : action_set) (ct : cost_type) (w w' x x' : list Qc) (infos infos' : list info).
Context (HOE : ok_env E) (HA : wf_aset E A) (HA' : wf_aset E A').
Context (HI : get_build_info E A ct w x = Ok infos) (HI' : get_build_info E A' ct w' x' = Ok infos') (HF : flips_match A w) (HF' : flips_match A' w').
Context (HL : alike A w x A' w' x').

Definition in_use (n : string) : bool := smem n (map i_name infos) || smem n (map i_name infos').
Lemma in_use_same n j : nth_error (as_names A) j = Some n -> in_use n = true ->
  nth_error (as_elems A') j = nth_error (as_elems A) j /\ nth_error w' j = nth_error w j /\ nth_error x' j = nth_error x j.
Proof.
  intros Hj K. destruct HL as (L1 & L2 & L3 & L4). destruct (L4 j) as [L|[N1 N2]]; [exact L|]. exfalso.
  pose proof HA as ((_ & _ & Hnd) & _). unfold in_use in K. apply orb_true_iff in K. destruct K as [K|K]; apply smem_iff in K; apply in_map_iff in K; destruct K as (i & Hn & Hi).
  - apply N1. apply (proj1 (line_members E A ct w x infos HOE HA HI HF j)). apply in_map_iff. exists i. split; [|exact Hi].
    pose proof (build_info_spec E A ct w x infos HOE HA HI) as (_ & _ & HFo & _). rewrite Forall_forall in HFo. destruct (HFo i Hi) as (e & xj & EN). pose proof (en_name _ _ _ _ _ _ _ _ EN) as Hni.
    rewrite Hn in Hni. rewrite NoDup_nth_error in Hnd. apply Hnd; [apply nth_error_Some; congruence|congruence].
  - apply N2. apply (proj1 (line_members E A' ct w' x' infos' HOE HA' HI' HF' j)). apply in_map_iff. exists i. split; [|exact Hi].
    pose proof (build_info_spec E A' ct w' x' infos' HOE HA' HI') as (_ & _ & HFo & _). rewrite Forall_forall in HFo. destruct (HFo i Hi) as (e & xj & EN). pose proof (en_name _ _ _ _ _ _ _ _ EN) as Hni.
    rewrite Hn, L1 in Hni. rewrite NoDup_nth_error in Hnd. apply Hnd; [apply nth_error_Some; congruence|congruence].
Qed.
Lemma somes_kept A0 w0 x0 cn (g : dict gridentry) : forall l, mapM (fun p => make_info E ct (as_names A0) cn w0 x0 (fst p) (fst (snd p)) (snd (snd p))) g = Ok l ->
  (forall i, In i (somes l) -> in_use (i_name i) = true) ->
  exists l', mapM (fun p => make_info E ct (as_names A0) cn w0 x0 (fst p) (fst (snd p)) (snd (snd p))) (kept in_use g) = Ok l' /\ somes l' = somes l.
Proof.
  induction g as [|[n v] g IH]; intros l Hl HU; cbn [mapM] in Hl; [injection Hl as <-; exists []; auto|]. bnd Hl as o Ho. bnd Hl as l1 Hl1. injection Hl as <-. cbn [fst snd] in Ho.
  destruct (IH l1 Hl1) as (l' & Hl' & Hs). { intros i Hi. apply HU. unfold somes. cbn [flat_map]. apply in_or_app. now right. }
  unfold kept. cbn [filter fst]. destruct (in_use n) eqn:K.
  - exists (o :: l'). cbn [mapM fst snd]. rewrite Ho. cbn [bind]. unfold kept in Hl'. rewrite Hl'. split; [reflexivity|]. unfold somes in *. cbn [flat_map]. now rewrite Hs.
  - exists l'. split; [exact Hl'|]. rewrite Hs. destruct o as [i|]; [|reflexivity]. exfalso. destruct (make_info_idx _ _ _ _ _ _ _ _ _ _ Ho) as [_ Hn].
    assert (in_use (i_name i) = true) by (apply HU; left; reflexivity). congruence.
Qed.
Lemma infos_alike : infos' = infos.
Proof.
  pose proof HL as (L1 & L2 & L3 & L4). pose proof in_use_same as HU.
  pose proof HI as H. pose proof HI' as H'. unfold get_build_info in H, H'. cbv zeta in H, H'.
  bnd H as g Hg. bnd H as l Hl. bnd H as u Hu. injection H as Hin. bnd H' as g' Hg'. bnd H' as l' Hl'. bnd H' as u' Hu'. injection H' as Hin'. fold (somes l) in Hin. fold (somes l') in Hin'.
  rewrite L2 in Hl'. rewrite L1 in Hl'.
  assert (HK : kept in_use g = kept in_use g').
  { unfold feasible_grid in Hg, Hg'. bnd Hg as a Ha. bnd Hg' as a' Ha'. bnd Hg as out Ho. bnd Hg' as out' Ho'. rewrite L1 in Ho'. rewrite L2 in Hg'. rewrite L1 in Hg'.
    assert (HS : forall n j, nth_error (as_names A) j = Some n -> in_use n = true -> nth_error (as_elems A') j = nth_error (as_elems A) j /\ nth_error x' j = nth_error x j) by (intros n j Hn K; destruct (HU n j Hn K) as (Q1 & _ & Q3); auto).
    assert (LE : length (as_elems A') = length (as_elems A)). { pose proof (wf_len _ _ HA) as Q. pose proof (wf_len _ _ HA') as Q'. unfold as_len in *. rewrite L1 in Q'. congruence. }
    assert (LX : length x' = length x). { unfold passert in Ha, Ha'. destruct (Nat.eqb_spec (length x) (as_len A)) as [Q|]; [|discriminate Ha]. destruct (Nat.eqb_spec (length x') (as_len A')) as [Q'|]; [|discriminate Ha']. unfold as_len in *. rewrite L1 in Q'. congruence. }
    pose proof (kept_output in_use E _ _ _ _ _ _ _ LE LX HS Ho Ho') as KO.
    destruct (r_cons (as_cons A)) as [|c cs]; [injection Hg as <-; injection Hg' as <-; exact KO|]. exact (kept_over in_use E A A' x x' HS _ _ _ _ _ KO Hg Hg'). }
  assert (U1 : forall i, In i (somes l) -> in_use (i_name i) = true).
  { intros i Hi. unfold in_use. apply orb_true_iff. left. apply smem_iff. apply in_map. unfold somes in Hi. rewrite <- Hin. exact Hi. }
  assert (U2 : forall i, In i (somes l') -> in_use (i_name i) = true).
  { intros i Hi. unfold in_use. apply orb_true_iff. right. apply smem_iff. apply in_map. unfold somes in Hi. rewrite <- Hin'. exact Hi. }
  destruct (somes_kept A w x _ g l Hl U1) as (k1 & Hk1 & S1).
  assert (Hl'' : mapM (fun p => make_info E ct (as_names A) (constrained_names E (as_cons A)) w' x' (fst p) (fst (snd p)) (snd (snd p))) g' = Ok l') by exact Hl'.
  destruct (somes_kept A w' x' _ g' l' Hl'' U2) as (k2 & Hk2 & S2).
  rewrite <- HK in Hk2. rewrite <- Hin, <- Hin', <- S1, <- S2. f_equal.
  assert (HM : mapM (fun p : string * gridentry => make_info E ct (as_names A) (constrained_names E (as_cons A)) w' x' (fst p) (fst (snd p)) (snd (snd p))) (kept in_use g) = mapM (fun p : string * gridentry => make_info E ct (as_names A) (constrained_names E (as_cons A)) w x (fst p) (fst (snd p)) (snd (snd p))) (kept in_use g)).
  { assert (KU : forall p, In p (kept in_use g) -> in_use (fst p) = true) by (intros p Hp; apply filter_In in Hp; apply Hp).
    clear -KU HU. induction (kept in_use g) as [|p r IH]; [reflexivity|]. cbn [mapM]. rewrite IH by (intros q Hq; apply KU; now right). f_equal.
    destruct (index_of (fst p) (as_names A)) as [j|] eqn:Ej.
    - destruct (HU (fst p) j (index_of_ok _ _ _ Ej) (KU p (or_introl eq_refl))) as (_ & Q1 & Q2). now apply (make_info_local E ct _ _ w x w' x' _ _ _ j).
    - unfold make_info. rewrite Ej. reflexivity. }
  pose proof (eq_trans (eq_sym Hk2) (eq_trans HM Hk1)) as Q. injection Q as Q. exact Q.
Qed.
End Alike.
