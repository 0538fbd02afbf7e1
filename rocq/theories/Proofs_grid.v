(** Proofs for C128: ActionSet.feasible_grid. *)
From Verif Require Import Spec_grid Proofs_props_element Proofs_props_actionset Proofs_actionset Proofs_values Proofs_info Proofs_subset Proofs_assign Proofs_builder5 Proofs_concrete Proofs_scen Proofs_constrained.
#[local] Open Scope list_scope.
#[local] Open Scope Qc_scope.

Lemma included_iff rc e : grid_included rc e = true <-> rc = false \/ may_serve e.
Proof.
  unfold grid_included. destruct rc; [|split; auto]. unfold compatible, may_serve. destruct (e_flip e) as [fd|]; [|split; auto].
  destruct (e_actionable e); cbn [negb].
  - split; [intro H; right; split; [reflexivity|]|intros [H|(_ & H1 & H2 & H3)]; [discriminate H|]].
    + apply negb_true_iff in H. apply orb_false_iff in H. destruct H as [H1 H2]. apply Z.eqb_neq in H1, H2.
      repeat split; intros Q; [subst fd; now apply H1| |]; apply H2; destruct Q as [Q1 Q2].
      * rewrite (Z.sgn_pos fd), (Z.sgn_neg (e_step_dir e)) by lia. reflexivity.
      * rewrite (Z.sgn_neg fd), (Z.sgn_pos (e_step_dir e)) by lia. reflexivity.
    + apply negb_true_iff. apply orb_false_iff. split; apply Z.eqb_neq; intro Q.
      * destruct fd; [now apply H1|discriminate Q|discriminate Q].
      * destruct (Z.sgn_spec fd) as [[? E1]|[[? E1]|[? E1]]], (Z.sgn_spec (e_step_dir e)) as [[? E2]|[[? E2]|[? E2]]]; rewrite E1, E2 in Q; try discriminate Q; [apply H2|apply H3]; lia.
  - split; [discriminate|]. intros [H|[H _]]; discriminate H.
Qed.

Section Grid.
Context (E : env) (A : action_set) (x : list Qc) (ra rp rc : bool).
Context (HOE : ok_env E) (HW : wf_aset E A).
#[local] Notation rows := (filter (fun q : string * (element * Qc) => grid_included rc (fst (snd q))) (combine (as_names A) (combine (as_elems A) x))).
#[local] Notation step1 := (fun q : string * (element * Qc) => let '(n, (e, xj)) := q in let! v := feasible_values E e xj ra rp true in Ok (n, v)).
#[local] Notation over := (fun (acc : res (dict gridentry)) n => let! out := acc in
          let! j := of_option ValueError (index_of n (as_names A)) in
          match nth_error (as_elems A) j, nth_error x j with
          | Some e, Some xj => let! v := feasible_values E e xj ra rp false in Ok (dset n v out)
          | _, _ => Err KeyError
          end).

Lemma rows_in n e xj : In (n, (e, xj)) rows <-> exists j, feature A x j n e xj /\ (rc = false \/ may_serve e).
Proof.
  rewrite filter_In. cbn [fst snd]. rewrite included_iff. split.
  - intros [H1 H2]. apply In_nth_error in H1. destruct H1 as (j & H1). apply combine3_nth in H1. exists j. split; [exact H1|exact H2].
  - intros (j & H1 & H2). split; [|exact H2]. apply nth_error_In with (n := j). apply combine3_nth. exact H1.
Qed.
Lemma first_pass out : mapM step1 rows = Ok out ->
  NoDup (map fst out) /\ forall n v, In (n, v) out <-> exists j e xj, feature A x j n e xj /\ (rc = false \/ may_serve e) /\ feasible_values E e xj ra rp true = Ok v.
Proof.
  intro H. apply mapM_ok in H.
  assert (HK : map fst out = map fst rows).
  { clear - H. induction H as [|[n [e xj]] [n' v'] l m H1 H2 IH]; [reflexivity|]. cbn [map fst]. f_equal; [|exact IH]. bnd H1 as r Hr. injection H1 as -> _. reflexivity. }
  split.
  - rewrite HK. destruct HW as ((_ & _ & HN) & _).
    assert (G : forall l : list (string * (element * Qc)), NoDup (map fst l) -> NoDup (map fst (filter (fun q => grid_included rc (fst (snd q))) l))).
    { induction l as [|q l IH]; cbn [filter map]; intro HD; [constructor|]. inversion HD as [|? ? H1 H2]; subst.
      destruct (grid_included rc (fst (snd q))); [|auto]. cbn [map]. constructor; [|auto]. intro Hin. apply H1.
      apply in_map_iff in Hin. destruct Hin as (q' & E1 & Hq). apply filter_In in Hq. apply in_map_iff. exists q'. tauto. }
    apply G. clear - HN. assert (K : forall (a : list string) (b : list (element * Qc)), NoDup a -> NoDup (map fst (combine a b))).
    { induction a as [|s a IH]; intros b HD; [constructor|]. destruct b as [|y b]; [constructor|]. inversion HD as [|? ? H1 H2]; subst.
      cbn. constructor; [|auto]. intro Hin. apply H1. apply in_map_iff in Hin. destruct Hin as ((s' & y') & E1 & Hin). cbn in E1. subst s'. eapply in_combine_l, Hin. }
    now apply K.
  - intros n v. split.
    + intro Hin. apply In_nth_error in Hin. destruct Hin as (k & Hk). apply Forall2_nth in H. destruct H as [HL HN].
      destruct (nth_error rows k) as [[n' [e xj]]|] eqn:Ek.
      2:{ apply nth_error_None in Ek. assert (k < length out)%nat by (apply nth_error_Some; congruence). lia. }
      specialize (HN _ _ _ Ek Hk). cbn in HN. bnd HN as v' Hv. injection HN as -> ->.
      apply nth_error_In in Ek. apply rows_in in Ek. destruct Ek as (j & F & Hg). exists j, e, xj. auto.
    + intros (j & e & xj & F & Hg & HF). assert (Hin : In (n, (e, xj)) rows) by (apply rows_in; eauto).
      apply In_nth_error in Hin. destruct Hin as (k & Ek). apply Forall2_nth in H. destruct H as [HL HN].
      destruct (nth_error out k) as [[n' v']|] eqn:Eo.
      2:{ apply nth_error_None in Eo. assert (k < length rows)%nat by (apply nth_error_Some; congruence). lia. }
      specialize (HN _ _ _ Ek Eo). cbn in HN. rewrite HF in HN. cbn in HN. injection HN as <- <-. eapply nth_error_In, Eo.
Qed.
Lemma second_pass names : forall out grid, fold_left over names (Ok out) = Ok grid -> NoDup (map fst out) ->
  NoDup (map fst grid) /\
  (forall n v, In (n, v) grid -> (~ In n names /\ In (n, v) out) \/ (In n names /\ exists j e xj, feature A x j n e xj /\ feasible_values E e xj ra rp false = Ok v)) /\
  (forall n v, ~ In n names -> In (n, v) out -> In (n, v) grid) /\
  (forall n, In n names -> exists v, In (n, v) grid).
Proof.
  induction names as [|n names IH]; intros out grid H HN.
  - cbn in H. injection H as <-. repeat split; auto. intros n [].
  - cbn [fold_left bind] in H. destruct (index_of n (as_names A)) as [j|] eqn:Ej; cbn [of_option bind] in H.
    2:{ rewrite fold_err in H by reflexivity. discriminate H. }
    destruct (nth_error (as_elems A) j) as [e|] eqn:Ee; [|rewrite fold_err in H by reflexivity; discriminate H].
    destruct (nth_error x j) as [xj|] eqn:Ex; [|rewrite fold_err in H by reflexivity; discriminate H].
    destruct (feasible_values E e xj ra rp false) as [v|y] eqn:Ev; cbn [bind] in H; [|rewrite fold_err in H by reflexivity; discriminate H].
    apply IH in H; [|now apply dset_keys]. destruct H as (H1 & H2 & H3 & H4). apply index_of_ok in Ej. split; [exact H1|]. split; [|split].
    + intros n' v' Hin. destruct (H2 n' v' Hin) as [[Hn Ho]|(Hn & K)].
      * apply In_dset in Ho; [|exact HN]. destruct Ho as [[-> ->]|[Hne Ho]].
        -- right. split; [now left|]. exists j, e, xj. unfold feature. auto.
        -- left. split; [|exact Ho]. intros [->|Hin']; [congruence|tauto].
      * right. split; [now right|exact K].
    + intros n' v' Hn Ho. apply H3; [intro; apply Hn; now right|]. apply dset_In_other; [|exact Ho]. intros ->. apply Hn. now left.
    + intros n' [<-|Hin]; [|now apply H4]. destruct (in_dec string_dec n names) as [Hi|Hi]; [now apply H4|]. exists v. apply H3; [exact Hi|]. apply dset_In_same.
Qed.
Lemma feature_fun j j' n e e' xj xj' : feature A x j n e xj -> feature A x j' n e' xj' -> j = j' /\ e = e' /\ xj = xj'.
Proof.
  intros (H1 & H2 & H3) (H1' & H2' & H3'). destruct HW as ((_ & _ & HN) & _).
  assert (J : j = j') by (apply (NoDup_nth_error (as_names A)); [exact HN|apply nth_error_Some; congruence|congruence]). subst j'. split; [reflexivity|split; congruence].
Qed.
Lemma no_cons_names : r_cons (as_cons A) = [] -> constrained_names E (as_cons A) = [].
Proof. intro Ec. unfold constrained_names. rewrite Ec. cbn. apply Permutation_nil. symmetry. apply (HOE []). Qed.
(** Both passes together. *)
Lemma grid_entries grid : feasible_grid E A x ra rp rc = Ok grid ->
  length x = as_len A /\ NoDup (map fst grid) /\
  (forall n v, In (n, v) grid -> exists j e xj, feature A x j n e xj /\ listed rc A j e /\
     ((constrained_at A j /\ feasible_values E e xj ra rp false = Ok v) \/ (~ constrained_at A j /\ feasible_values E e xj ra rp true = Ok v))) /\
  (forall j n e xj, feature A x j n e xj -> listed rc A j e -> In n (map fst grid)).
Proof.
  intro H. unfold feasible_grid in H. bnd H as u Hu. apply passert_ok in Hu. apply Nat.eqb_eq in Hu. bnd H as out Ho. pose proof Ho as Ho'. destruct (first_pass out Ho) as [HN HO]. split; [exact Hu|].
  assert (VF : forall n e xj, In (n, (e, xj)) rows -> exists v, feasible_values E e xj ra rp true = Ok v).
  { intros n e xj Hin. apply mapM_ok in Ho'. destruct (Forall2_In_l _ _ _ _ Ho' Hin) as ([n' v] & _ & R). cbn in R. bnd R as v' Hv. eauto. }
  assert (CN : forall j n, nth_error (as_names A) j = Some n -> (In n (constrained_names E (as_cons A)) <-> constrained_at A j)) by (intros j n Hn; exact (constrained_iff E A j n HOE HW Hn)).
  assert (G : (NoDup (map fst grid)) /\ (forall n v, In (n, v) grid -> (~ In n (constrained_names E (as_cons A)) /\ In (n, v) out) \/ (In n (constrained_names E (as_cons A)) /\ exists j e xj, feature A x j n e xj /\ feasible_values E e xj ra rp false = Ok v)) /\
    (forall n v, ~ In n (constrained_names E (as_cons A)) -> In (n, v) out -> In (n, v) grid) /\ (forall n, In n (constrained_names E (as_cons A)) -> exists v, In (n, v) grid)).
  { destruct (r_cons (as_cons A)) as [|q0 qs] eqn:Ec.
    - injection H as <-. rewrite (no_cons_names Ec). split; [exact HN|]. split; [intros n v Hin; left; split; [intros []|exact Hin]|]. split; [auto|]. intros n [].
    - exact (second_pass _ _ _ H HN). }
  destruct G as (G1 & G2 & G3 & G4). split; [exact G1|]. split.
  - intros n v Hin. destruct (G2 n v Hin) as [[Hn Hin']|(Hn & j & e & xj & F & HV)].
    + apply HO in Hin'. destruct Hin' as (j & e & xj & F & HG & HV). exists j, e, xj. split; [exact F|]. split; [destruct HG; [now left|right; now right]|]. right. split; [|exact HV]. rewrite <- (CN j n (proj1 F)). exact Hn.
    + apply (CN j n (proj1 F)) in Hn. exists j, e, xj. split; [exact F|]. split; [right; now left|]. now left.
  - intros j n e xj F HL. destruct (in_dec string_dec n (constrained_names E (as_cons A))) as [Hc|Hc].
    + destruct (G4 n Hc) as (v & Hv). apply in_map_iff. exists (n, v). auto.
    + assert (HG : rc = false \/ may_serve e). { destruct HL as [?|[HL|?]]; [now left| |now right]. elim Hc. now apply (CN j n (proj1 F)). }
      destruct (VF n e xj) as (v & Hv); [apply rows_in; eauto|]. apply in_map_iff. exists (n, v). split; [reflexivity|]. apply G3; [exact Hc|]. apply HO. exists j, e, xj. auto.
Qed.
Lemma grid_values grid j n e xj vals ps : feasible_grid E A x ra rp rc = Ok grid -> feature A x j n e xj -> representable e xj -> In (n, (vals, ps)) grid ->
  exists news, vals = (if ra then map (fun v => v - xj) news else news) /\ StronglySorted Qclt news /\
    (forall v, In v news <-> permitted e xj v /\ (constrained_at A j \/ improving e xj v)) /\ (if rp then Forall2 (fun v p => percentile E e v = Ok p) news ps else ps = []).
Proof.
  intros H F HR Hin. destruct (grid_entries grid H) as (_ & _ & G & _). destruct (G _ _ Hin) as (j' & e' & xj' & F' & _ & K). destruct (feature_fun _ _ _ _ _ _ _ F F') as (<- & <- & <-).
  assert (Hre : elem_reachable E e). { destruct HW as (_ & _ & HE' & _). rewrite Forall_forall in HE'. apply HE'. eapply nth_error_In, (proj1 (proj2 F)). }
  assert (D : exists d, feasible_values E e xj ra rp d = Ok (vals, ps) /\ (d = false <-> constrained_at A j)).
  { destruct K as [[K1 K2]|[K1 K2]]; [exists false; tauto|exists true; split; [exact K2|split; [discriminate|contradiction]]]. }
  destruct D as (d & HV & HD). pose proof (feasible_values_spec _ _ _ _ _ _ _ _ HV) as (_ & Ev & Ep & En). exists (feasible_x e xj d). split; [exact Ev|].
  split; [|split].
  - assert (Hf : feasible_values E e xj false false d = Ok (feasible_x e xj d, [])) by reflexivity. exact (proj1 (c10 E e xj false d _ _ Hre HR Hf)).
  - intro v. rewrite (feasible_x_In e xj d v HR). destruct d; intuition congruence.
  - destruct rp; auto.
Qed.
Lemma grid_succeeds : length x = as_len A -> (ra = true -> all_aligned A) -> (rp = true -> answers E A) -> exists grid, feasible_grid E A x ra rp rc = Ok grid.
Proof.
  intros Hx HAl HAn. pose proof (wf_len _ _ HW) as HLe. pose proof HW as ((_ & _ & Hnd) & _).
  assert (VT : forall j e xj d, nth_error (as_elems A) j = Some e -> exists v, feasible_values E e xj ra rp d = Ok v).
  { intros j e xj d He. unfold feasible_values, e_aligned. assert (P : negb ra || (match e_flip e with Some _ => true | None => false end) = true).
    { destruct ra; [|reflexivity]. specialize (HAl eq_refl j e He). destruct (e_flip e); [reflexivity|congruence]. }
    rewrite P. cbn [passert bind]. destruct rp; [|eauto]. destruct (mapM_total (percentile E e) (feasible_x e xj d)) as (qs & ->); [intros v _; now apply (HAn eq_refl j)|]. cbn [bind]. eauto. }
  unfold feasible_grid. rewrite (proj2 (Nat.eqb_eq _ _) Hx). cbn [passert bind].
  destruct (mapM_total step1 rows) as (out & Ho). { intros [n [e xj]] Hin. apply rows_in in Hin. destruct Hin as (j & F & _). destruct (VT j e xj true (proj1 (proj2 F))) as (v & ->). cbn. eauto. }
  rewrite Ho. cbn [bind]. destruct (r_cons (as_cons A)) as [|q0 qs]; [eauto|].
  assert (K : forall n, In n (constrained_names E (as_cons A)) -> In n (as_names A)) by (intros n Hn; destruct (constrained_pos E A n HOE HW Hn) as (j & Hj & _); eapply nth_error_In, Hj).
  revert out Ho K. generalize (constrained_names E (as_cons A)) as names. intros names out _. revert out. induction names as [|n names IH]; intros out K; [exists out; reflexivity|]. cbn [fold_left bind].
  destruct (In_nth_error _ _ (K n (or_introl eq_refl))) as (j & Hj). rewrite (index_of_nodup _ _ _ Hnd Hj). cbn [of_option bind].
  assert (L : (j < as_len A)%nat) by (apply nth_error_Some; congruence).
  destruct (nth_error (as_elems A) j) as [e|] eqn:Ee; [|apply nth_error_None in Ee; lia]. destruct (nth_error x j) as [xj|] eqn:Ex; [|apply nth_error_None in Ex; lia].
  destruct (VT j e xj false Ee) as (v & ->). cbn [bind]. apply IH. intros; apply K; now right.
Qed.
Lemma grid_dimension : length x <> as_len A -> feasible_grid E A x ra rp rc = Err AssertionError.
Proof. intro H. unfold feasible_grid. apply Nat.eqb_neq in H. rewrite H. reflexivity. Qed.
Lemma grid_unaligned : ra = true -> ~ all_aligned A -> exists err, feasible_grid E A x ra rp rc = Err err.
Proof.
  intros Hra HN. destruct (feasible_grid E A x ra rp rc) as [grid|err] eqn:H; [exfalso|eauto]. destruct (grid_entries grid H) as (Hx & ND & G & K). apply HN. intros j e He Q.
  pose proof (wf_len _ _ HW) as HLe. assert (L : (j < as_len A)%nat) by (rewrite <- HLe; apply nth_error_Some; congruence).
  destruct (nth_error (as_names A) j) as [n|] eqn:En; [|apply nth_error_None in En; unfold as_len in L; lia]. destruct (nth_error x j) as [xj|] eqn:Ex; [|apply nth_error_None in Ex; lia].
  assert (F : feature A x j n e xj) by (unfold feature; auto). assert (Hl : listed rc A j e) by (right; right; unfold may_serve; now rewrite Q).
  specialize (K j n e xj F Hl). apply in_map_iff in K. destruct K as ([n' [vals ps]] & Q1 & Hin). cbn in Q1. subst n'. destruct (G _ _ Hin) as (j' & e' & xj' & F' & _ & V). destruct (feature_fun _ _ _ _ _ _ _ F F') as (<- & <- & <-).
  assert (AL : e_aligned e = true) by (destruct V as [[_ V]|[_ V]]; apply feasible_values_spec in V; now apply V). unfold e_aligned in AL. rewrite Q in AL. discriminate AL.
Qed.
Lemma grid_features grid : feasible_grid E A x ra rp rc = Ok grid -> NoDup (map fst grid) /\ forall n, In n (map fst grid) <-> exists j e xj, feature A x j n e xj /\ listed rc A j e.
Proof.
  intro H. destruct (grid_entries grid H) as (_ & ND & G & K). split; [exact ND|]. intro n. split.
  - intro Hin. apply in_map_iff in Hin. destruct Hin as ([n' v] & Q & Hin). cbn in Q. subst n'. destruct (G _ _ Hin) as (j & e & xj & F & L & _). eauto.
  - intros (j & e & xj & F & L). eapply K; eassumption.
Qed.
End Grid.
