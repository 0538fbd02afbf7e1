(** Proofs about solver limits. *)
From Verif Require Import Proofs_num Spec_limits.
#[local] Open Scope Qc_scope.

Lemma bad_limit v : not_a_limit v -> parse_limit v = Err ValueError.
Proof.
  destruct v as [| [] |z|[q| | |]|z|s|l|l|l|t]; cbn; intro H; try reflexivity; try contradiction; try discriminate H.
  - destruct (Z.ltb_spec 0 z); [lia|reflexivity].
  - destruct (qlt_spec 0 q) as [K|K]; [exfalso; qlra|reflexivity].
Qed.
Lemma good_limit v q : number v q -> 0 < q -> parse_limit v = Ok (Fin q).
Proof.
  intros [->|[(z & -> & ->)|([] & -> & ->)]] H; cbn; [| |reflexivity|exfalso; exact (Qcle_not_lt 0 0 (Qcle_refl 0) H)].
  - now rewrite (proj2 (qlt_iff 0 q) H).
  - destruct (Z.ltb_spec 0 z) as [K|K]; [reflexivity|]. exfalso. apply qlt_iff in H. apply Qclt_not_le in H || (apply qlt_iff in H; apply Qclt_not_le in H). apply H. apply (qz_le z 0). lia.
Qed.
Lemma no_limit_parse v : no_limit v -> parse_limit v = Ok PosInf.
Proof. intros [->| ->]; reflexivity. Qed.

Lemma apply_ok k L s t n d s' : apply_limits k L s t n d = (s', Ok tt) ->
  exists m ft fn, li_mip s = Some m /\ parse_limit t = Ok ft /\ parse_limit n = Ok fn /\
    s' = {| li_time := Some ft; li_node := Some (PFloat fn); li_mip := Some (put_nodes k L fn (put_time k L ft m)) |}.
Proof.
  unfold apply_limits. destruct (li_mip s) as [m|] eqn:Em; [|intro H; apply pair_equal_spec in H; destruct H as [_ H]; discriminate H].
  assert (D : forall s1, set_display s d = (s1, Ok tt) -> exists v, s1 = with_lnode s (Some v)).
  { intros s1. unfold set_display. rewrite Em. destruct d; intro H; apply pair_equal_spec in H; destruct H as [<- H]; try discriminate H; eauto. }
  destruct (set_display s d) as [s1 [[]|e]] eqn:ED; [|intro H; apply pair_equal_spec in H; destruct H as [_ H]; discriminate H].
  destruct (D s1 eq_refl) as (v & ->). unfold set_time_limit. destruct (parse_limit t) as [ft|e]; [|intro H; apply pair_equal_spec in H; destruct H as [_ H]; discriminate H].
  cbn [li_mip with_lnode]. rewrite Em. unfold set_node_limit. destruct (parse_limit n) as [fn|e]; [|intro H; apply pair_equal_spec in H; destruct H as [_ H]; discriminate H].
  cbn. intro H. apply pair_equal_spec in H. destruct H as [<- _]. exists m, ft, fn. auto.
Qed.

Lemma put_time_cases k L q m : sl_time (put_time k L (Fin q) m) = Fin q \/ (k = CPX /\ lib_max_time L < q /\ sl_time (put_time k L (Fin q) m) = Fin (lib_max_time L)).
Proof. destruct k; cbn; [|now left]. destruct (qlt_spec (lib_max_time L) q) as [K|K]; [right|left]; auto. Qed.

Lemma c43_reject k L s t n d : not_a_limit t \/ not_a_limit n -> exists s' e, apply_limits k L s t n d = (s', Err e) /\
  (forall m, li_mip s = Some m -> (d = PNone \/ exists b, d = PBool b) -> e = ValueError).
Proof.
  intro H. destruct (apply_limits k L s t n d) as [s' [[]|e]] eqn:EA.
  - apply apply_ok in EA. destruct EA as (m & ft & fn & _ & P1 & P2 & _). destruct H as [H|H]; apply bad_limit in H; congruence.
  - exists s', e. split; [reflexivity|]. intros m Hm Hd. unfold apply_limits in EA. rewrite Hm in EA.
    assert (ED : exists v, set_display s d = (with_lnode s (Some v), Ok tt)). { unfold set_display. rewrite Hm. destruct Hd as [->|(b & ->)]; eauto. }
    destruct ED as (v & ED). rewrite ED in EA. unfold set_time_limit, set_node_limit in EA. cbn [li_mip with_lnode] in EA. rewrite Hm in EA.
    assert (PE : forall v e0, parse_limit v = Err e0 -> e0 = ValueError).
    { intros v0 e0. destruct v0 as [| [] |z|[q| | |]|z|s0|l|l|l|ty]; cbn; try congruence; [destruct (0 <? z)%Z; congruence|destruct (0 <? q); congruence]. }
    destruct (parse_limit t) eqn:P1; [|apply pair_equal_spec in EA; destruct EA as [_ EA]; injection EA as <-; eauto]. cbn in EA.
    destruct (parse_limit n) eqn:P2; [|apply pair_equal_spec in EA; destruct EA as [_ EA]; injection EA as <-; eauto]. apply pair_equal_spec in EA; destruct EA as [_ EA]; discriminate EA.
Qed.
Lemma c43_time k L s t n d s' : apply_limits k L s t n d = (s', Ok tt) ->
  exists m, li_mip s' = Some m /\
    (no_limit t -> runs_unlimited_time k L m /\ get_time_limit s' = Ok PosInf) /\
    (forall q, number t q -> 0 < q -> get_time_limit s' = Ok (Fin q) /\ (sl_time m = Fin q \/ (k = CPX /\ lib_max_time L < q /\ runs_unlimited_time k L m))).
Proof.
  intro H. apply apply_ok in H. destruct H as (m & ft & fn & Hm & P1 & P2 & ->). eexists. split; [reflexivity|]. split.
  - intro Ht. apply no_limit_parse in Ht. assert (ft = PosInf) by congruence. subst ft. split; [|reflexivity]. unfold runs_unlimited_time. destruct k; reflexivity.
  - intros q Hq Hp. pose proof (good_limit t q Hq Hp) as K. assert (ft = Fin q) by congruence. subst ft. split; [reflexivity|]. cbn [put_nodes sl_time]. destruct (put_time_cases k L q m) as [C|(-> & C1 & C2)]; [left; exact C|right]. auto.
Qed.
Lemma c43_nodes k L s t n d s' : apply_limits k L s t n d = (s', Ok tt) ->
  exists m, li_mip s' = Some m /\
    (no_limit n -> get_node_limit s' = Ok (PFloat PosInf) /\ (k = CPX -> runs_unlimited_nodes k L m)) /\
    (forall q, number n q -> 0 < q -> get_node_limit s' = Ok (PFloat (Fin q)) /\
       sl_nodes m = match k with CPX => Z.min (qfloor q) (lib_max_nodes L) | PyMIP => qfloor q end).
Proof.
  intro H. apply apply_ok in H. destruct H as (m & ft & fn & Hm & P1 & P2 & ->). eexists. split; [reflexivity|]. split.
  - intro Ht. apply no_limit_parse in Ht. assert (fn = PosInf) by congruence. subst fn. split; [reflexivity|]. intros ->. reflexivity.
  - intros q Hq Hp. pose proof (good_limit n q Hq Hp) as K. assert (fn = Fin q) by congruence. subst fn. split; [reflexivity|]. cbn [put_nodes sl_nodes]. unfold qtrunc. rewrite (proj2 (qle_iff 0 q)) by (apply Qclt_le_weak; exact Hp). destruct k; reflexivity.
Qed.
Lemma nodes_kept L ops : Forall nodes_untouched ops -> forall s, (forall m, li_mip s = Some m -> sl_nodes m = sl_nodes (lib_start L)) ->
  forall m, li_mip (fold_left (limit_step PyMIP L) ops s) = Some m -> sl_nodes m = sl_nodes (lib_start L).
Proof.
  induction 1 as [|o ops Ho _ IH]; intros s Hs; [exact Hs|]. cbn [fold_left]. apply IH. clear IH ops.
  assert (N : forall s v, no_limit v -> (forall m, li_mip s = Some m -> sl_nodes m = sl_nodes (lib_start L)) -> forall m, li_mip (fst (set_node_limit PyMIP L s v)) = Some m -> sl_nodes m = sl_nodes (lib_start L)).
  { intros s0 v Hv H0 m. unfold set_node_limit. rewrite (no_limit_parse v Hv). destruct (li_mip s0) eqn:E; cbn; [|rewrite E; discriminate]. intro Q. injection Q as <-. cbn. auto. }
  assert (T : forall s v, (forall m, li_mip s = Some m -> sl_nodes m = sl_nodes (lib_start L)) -> forall m, li_mip (fst (set_time_limit PyMIP L s v)) = Some m -> sl_nodes m = sl_nodes (lib_start L)).
  { intros s0 v H0 m. unfold set_time_limit. destruct (parse_limit v); [|exact (H0 m)]. destruct (li_mip s0) eqn:E; cbn; [|rewrite E; discriminate]. intro Q. injection Q as <-. cbn. auto. }
  assert (D : forall s v, li_mip (fst (set_display s v)) = li_mip s).
  { intros s0 v. unfold set_display. destruct v; try reflexivity; destruct (li_mip s0) eqn:E; cbn; congruence. }
  destruct o; cbn [limit_step].
  - intros m H. cbn in H. injection H as <-. reflexivity.
  - unfold apply_limits. destruct (li_mip s) eqn:E; [|cbn [fst]; intros m; rewrite E; discriminate]. pose proof (D s display) as D1. destruct (set_display s display) as [s1 [u|e]]; cbn [fst] in D1 |- *; [|intros m; rewrite D1, E; apply Hs].
    assert (H1 : forall m, li_mip s1 = Some m -> sl_nodes m = sl_nodes (lib_start L)) by (intro m; rewrite D1, E; apply Hs).
    pose proof (T s1 time H1) as T1. destruct (set_time_limit PyMIP L s1 time) as [s2 [u2|e2]]; cbn [fst] in T1 |- *; [|exact T1]. now apply N.
  - now apply T.
  - now apply N.
  - intro m. rewrite D. apply Hs.
Qed.

(** Python-MIP: a call without node limit after calls that had none. *)
Lemma c43_nodes_pymip L ops t n d s' : Forall nodes_untouched ops -> no_limit n ->
  apply_limits PyMIP L (fold_left (limit_step PyMIP L) ops new_limits) t n d = (s', Ok tt) ->
  exists m, li_mip s' = Some m /\ runs_unlimited_nodes PyMIP L m.
Proof.
  intros Ho Hn H. pose proof (apply_ok _ _ _ _ _ _ _ H) as (m & ft & fn & Hm & P1 & P2 & Es).
  exists (put_nodes PyMIP L fn (put_time PyMIP L ft m)). rewrite Es. split; [reflexivity|].
  assert (fn = PosInf) by (pose proof (no_limit_parse n Hn); congruence). subst fn.
  unfold runs_unlimited_nodes. cbn. eapply nodes_kept; [exact Ho| |exact Hm]. intros m0 H0. discriminate H0.
Qed.
(** An individual assigned afterwards clears a node limit as well. *)
Lemma c43_nodes_assign L s ops t n d s' : Forall nodes_untouched ops -> no_limit n ->
  apply_limits PyMIP L (fold_left (limit_step PyMIP L) (LAssign :: ops) s) t n d = (s', Ok tt) ->
  exists m, li_mip s' = Some m /\ runs_unlimited_nodes PyMIP L m.
Proof.
  intros Ho Hn H. pose proof (apply_ok _ _ _ _ _ _ _ H) as (m & ft & fn & Hm & P1 & P2 & Es).
  exists (put_nodes PyMIP L fn (put_time PyMIP L ft m)). rewrite Es. split; [reflexivity|].
  assert (fn = PosInf) by (pose proof (no_limit_parse n Hn); congruence). subst fn.
  unfold runs_unlimited_nodes. cbn. cbn [fold_left limit_step] in Hm. eapply nodes_kept; [exact Ho| |exact Hm]. intros m0 H0. cbn in H0. injection H0 as <-. reflexivity.
Qed.
(** Accepted calls: every pair of limits is accepted once an individual is assigned. *)
Lemma c43_accept k L s m t n d : li_mip s = Some m -> ~ not_a_limit t -> ~ not_a_limit n -> (d = PNone \/ exists b, d = PBool b) ->
  exists s', apply_limits k L s t n d = (s', Ok tt).
Proof.
  intros Hm Ht Hn Hd. assert (P : forall v, ~ not_a_limit v -> exists f, parse_limit v = Ok f).
  { intros v Hv. destruct v as [| [] |z|[q| | |]|z|s0|l|l|l|ty]; cbn in Hv |- *; try (now exfalso; apply Hv); try (eexists; reflexivity).
    - destruct (Z.ltb_spec 0 z); [eauto|exfalso; apply Hv; lia].
    - destruct (qlt_spec 0 q) as [K|K]; [eauto|exfalso; apply Hv; qlra]. }
  destruct (P t Ht) as (ft & P1). destruct (P n Hn) as (fn & P2). unfold apply_limits. rewrite Hm.
  assert (ED : exists v, set_display s d = (with_lnode s (Some v), Ok tt)). { unfold set_display. rewrite Hm. destruct Hd as [->|(b & ->)]; eauto. }
  destruct ED as (v & ->). unfold set_time_limit, set_node_limit. rewrite P1. cbn [li_mip with_lnode]. rewrite Hm. rewrite P2. cbn. eauto.
Qed.

(** A call with the default arguments, one with a node limit of 5. *)
Definition plain_call := LCall PNone PNone (PBool false).
Definition call5 := LCall PNone (PInt 5) (PBool false).
Lemma c43_stale_refuted L : exists ops s m, s = fold_left (limit_step PyMIP L) ops new_limits /\ ops = [LAssign; call5; plain_call] /\
  li_mip s = Some m /\ sl_nodes m = 5%Z /\ get_node_limit s = Ok (PFloat PosInf).
Proof. eexists _, _, _. split; [reflexivity|]. split; [reflexivity|]. split; [reflexivity|]. split; reflexivity. Qed.
Lemma c43_fraction_refuted k L : (0 < lib_max_nodes L)%Z -> exists s m, limits_reachable k L s /\ li_mip s = Some m /\
  get_node_limit s = Ok (PFloat (Fin (qfrac 1 2))) /\ sl_nodes m = 0%Z.
Proof.
  intro H. eexists _, _. split; [exists [LAssign; LCall PNone (PFloat (Fin (qfrac 1 2))) (PBool false)]; reflexivity|].
  cbn [fold_left limit_step]. unfold apply_limits, set_display, set_time_limit, set_node_limit. cbn [rebuild li_mip with_lmip with_lnode with_ltime fst].
  replace (parse_limit (PFloat (Fin (qfrac 1 2)))) with (Ok (Fin (qfrac 1 2))) by (vm_compute; reflexivity). cbn [parse_limit li_mip with_lnode with_ltime with_lmip fst].
  split; [reflexivity|]. split; [reflexivity|].
  assert (T : qtrunc (qfrac 1 2) = 0%Z) by (vm_compute; reflexivity).
  destruct k; cbn [put_nodes sl_nodes]; rewrite T; [lia|reflexivity].
Qed.
(** A failing call leaves the display flag in place of the node limit. *)
Lemma c43_flag_refuted k L : exists s m, limits_reachable k L s /\ li_mip s = Some m /\ get_node_limit s = Ok (PBool false).
Proof. eexists _, _. split; [exists [LAssign; LCall (PInt 0) PNone (PBool false)]; reflexivity|]. split; reflexivity. Qed.
Lemma c43_unreported k L ops : (forall o, In o ops -> o = LAssign) -> let s := fold_left (limit_step k L) ops new_limits in
  get_time_limit s = Err AttributeError /\ get_node_limit s = Err AttributeError.
Proof.
  intro H. cbn. assert (G : forall s, li_time s = None /\ li_node s = None -> li_time (fold_left (limit_step k L) ops s) = None /\ li_node (fold_left (limit_step k L) ops s) = None).
  { induction ops as [|o ops IH]; intros s Hs; [exact Hs|]. cbn [fold_left]. apply IH; [intros; apply H; now right|]. rewrite (H o) by now left. exact Hs. }
  destruct (G new_limits) as [G1 G2]; [split; reflexivity|]. unfold get_time_limit, get_node_limit. rewrite G1, G2. split; reflexivity.
Qed.
