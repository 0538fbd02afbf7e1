(** What subset limits limit, whatever the order of the features. *)
From Verif Require Import Proofs_props_element Proofs_props_actionset Spec_lineup Proofs_mip Proofs_info Proofs_vec Proofs_build Proofs_enum Proofs_session Proofs_recourse Proofs_subset Proofs_exchange Proofs_builder Proofs_builder2 Proofs_builder3 Proofs_builder5.
#[local] Open Scope list_scope.
#[local] Open Scope Qc_scope.

(** ** The order of the program's entries *)
Lemma dset_keys_new {V} k (v : V) d : ~ In k (map fst d) -> map fst (dset k v d) = map fst d ++ [k].
Proof.
  induction d as [|[k' v'] d IH]; intro H; [reflexivity|]. cbn [dset map fst app]. destruct (String.eqb_spec k k') as [->|N]; [exfalso; apply H; now left|].
  cbn [map fst]. rewrite IH; [reflexivity|]. intro K. apply H. now right.
Qed.
Lemma over_keys_app E A x names : forall out grid,
  fold_left (fun acc n => let! out := acc in
          let! j := of_option ValueError (index_of n (as_names A)) in
          match nth_error (as_elems A) j, nth_error x j with
          | Some e, Some xj => let! v := feasible_values E e xj true true false in Ok (dset n v out)
          | _, _ => Err KeyError
          end) names (Ok out) = Ok grid -> exists r, map fst grid = map fst out ++ r /\ forall n, In n r -> In n names /\ ~ In n (map fst out).
Proof.
  induction names as [|n names IH]; intros out grid H; [cbn in H; injection H as <-; exists []; rewrite app_nil_r; split; [reflexivity|intros n []]|]. cbn [fold_left] in H.
  match type of H with fold_left ?f _ ?a = _ => destruct a as [out'|y] eqn:Q; [|rewrite (fold_err f) in H by reflexivity; discriminate H] end.
  cbn [bind] in Q. bnd Q as j Hj. destruct (nth_error (as_elems A) j) as [e|]; [|discriminate Q]. destruct (nth_error x j) as [xj|]; [|discriminate Q]. bnd Q as v Hv. injection Q as <-.
  destruct (IH _ _ H) as (r & Hr & K). destruct (in_dec String.string_dec n (map fst out)) as [I|I].
  - rewrite (dset_keys_same n v out I) in Hr, K. exists r. split; [exact Hr|]. intros m Hm. destruct (K m Hm). split; [now right|assumption].
  - rewrite (dset_keys_new n v out I) in Hr, K. rewrite <- app_assoc in Hr. exists ([n] ++ r). split; [exact Hr|]. intros m [<-|Hm]; [split; [now left|exact I]|].
    destruct (K m Hm) as [K1 K2]. split; [now right|]. intro Q. apply K2. apply in_or_app. now left.
Qed.
Lemma filter_positions {T} (f : T -> bool) (l : list T) : exists P, Forall2 (fun a j => nth_error l j = Some a) (filter f l) P /\ StronglySorted lt P.
Proof.
  induction l as [|a l (P & HP & SS)]; [exists []; split; constructor|].
  assert (Q : Forall2 (fun b j => nth_error (a :: l) j = Some b) (filter f l) (map S P)).
  { clear SS. induction HP; cbn; constructor; auto. }
  assert (Q2 : StronglySorted lt (map S P)).
  { clear HP Q. induction SS as [|j P SS IH HF]; cbn; constructor; auto. rewrite Forall_forall in *. intros k Hk. apply in_map_iff in Hk. destruct Hk as (k' & <- & Hk'). specialize (HF k' Hk'). lia. }
  cbn [filter]. destruct (f a).
  - exists (0%nat :: map S P). split; [constructor; [reflexivity|exact Q]|]. constructor; [exact Q2|]. apply Forall_forall. intros k Hk. apply in_map_iff in Hk. destruct Hk as (k' & <- & _). lia.
  - exists (map S P). auto.
Qed.
Definition somes (l : list (option info)) : list info := flat_map (fun o => match o with Some i => [i] | None => [] end) l.
Lemma make_info_idx E ct names cn w x n a c i : make_info E ct names cn w x n a c = Ok (Some i) -> index_of n names = Some (i_idx i) /\ i_name i = n.
Proof.
  intro H. unfold make_info in H. destruct (Nat.ltb _ _); [discriminate H|]. cbv zeta in H.
  bnd H as u Hu. bnd H as idx Hi. bnd H as cf Hc. bnd H as xj Hx. bnd H as k Hk. bnd H as v Hv. injection H as <-. cbn. split; [|reflexivity].
  destruct (index_of n names) as [q|]; [cbn in Hi; injection Hi as <-; reflexivity|discriminate Hi].
Qed.
Lemma somes_sorted E ct names cn w x : NoDup names -> forall (g : dict gridentry) l P,
  Forall2 (fun p o => make_info E ct names cn w x (fst p) (fst (snd p)) (snd (snd p)) = Ok o) g l ->
  Forall2 (fun p j => nth_error names j = Some (fst p)) g P -> StronglySorted lt P ->
  StronglySorted lt (map i_idx (somes l)) /\ forall j, In j (map i_idx (somes l)) -> In j P.
Proof.
  intros HN g l P H. revert P. induction H as [|p o g l H1 H IH]; intros P HP SS; [split; [constructor|intros j []]|].
  inversion HP as [|? j ? P' Hj HP']; subst. inversion SS as [|? ? S1 S2]; subst. destruct (IH _ HP' S1) as [K1 K2]. unfold somes. cbn [flat_map]. fold (somes l).
  destruct o as [i|]; [|split; [exact K1|intros k Hk; right; auto]]. cbn [app map]. apply make_info_idx in H1. destruct H1 as [H1 _].
  assert (j = i_idx i) by (pose proof (eq_trans (eq_sym (index_of_nodup _ _ _ HN Hj)) H1) as Q; now injection Q). subst j. split.
  - constructor; [exact K1|]. rewrite Forall_forall in *. intros k Hk. apply S2. auto.
  - intros k [<-|Hk]; [now left|right; auto].
Qed.
Lemma Forall2_map_fst {V T} (R : string -> T -> Prop) (g : dict V) (l : list T) : Forall2 R (map fst g) l -> Forall2 (fun p j => R (fst p) j) g l.
Proof. revert l. induction g as [|p g IH]; cbn; intros l H; inversion H; subst; constructor; auto. Qed.
Lemma map_app_split {T U} (f : T -> U) l : forall a b, map f l = a ++ b -> exists l1 l2, l = l1 ++ l2 /\ map f l1 = a /\ map f l2 = b.
Proof.
  induction l as [|t l IH]; intros a b H; cbn in H.
  - symmetry in H. apply app_eq_nil in H. destruct H as [-> ->]. exists [], []. auto.
  - destruct a as [|u a]; [exists [], (t :: l); cbn in *; auto|]. cbn in H. injection H as <- H. destruct (IH _ _ H) as (l1 & l2 & -> & <- & <-). exists (t :: l1), l2. auto.
Qed.

Section Lineup.
Context (E : env) (A : action_set) (ct : cost_type) (w x : list Qc) (infos : list info).
Context (HOE : ok_env E) (HA : wf_aset E A) (HI : get_build_info E A ct w x = Ok infos) (HFl : flips_match A w).
Lemma compatible_helps e wj : In e (as_elems A) -> e_flip e = Some (if (as_y A =? 1)%Z then qsign wj else (- qsign wj)%Z) ->
  (compatible e = Some true <-> e_actionable e = true /\ can_help (as_y A) wj (e_step_dir e)).
Proof.
  intros He HF. assert (Hy : (as_y A = 1 \/ as_y A = -1)%Z) by apply HA.
  assert (RE : elem_reachable E e) by (destruct HA as (_ & _ & K & _); rewrite Forall_forall in K; auto).
  pose proof (c16 E e RE) as K. rewrite HF in K. rewrite K. clear K. unfold can_help, attains.
  assert (N : 0 < - wj <-> wj < 0) by (split; intro; qlra). assert (N' : - wj < 0 <-> 0 < wj) by (split; intro; qlra).
  destruct (qsign_spec wj) as [[W ->]|[[W ->]|[W ->]]]; destruct Hy as [-> | ->]; cbn; split; intros (H1 & H2); split; auto.
  all: try (destruct H2 as [H2 H3]; auto; try (now contradict H2)).
  all: try (destruct H2 as [[H2 H3]|[H2 H3]]; try (exfalso; qlra); split; [discriminate|assumption]).
  all: try (left; split; [assumption|qlra]); try (right; split; [assumption|qlra]).
  all: exfalso; rewrite W in H2; destruct H2 as [[_ H2]|[_ H2]]; discriminate H2.
Qed.
Lemma line_order : exists l r, map i_idx infos = l ++ r /\ StronglySorted lt l /\ (forall j, In j l -> helps A w j) /\ (forall j, In j r -> ~ helps A w j).
Proof.
  pose proof (build_info_spec E A ct w x infos HOE HA HI) as (LX & [WI _] & HF & _). rewrite Forall_forall in HF.
  pose proof HI as H. unfold get_build_info in H. cbv zeta in H. bnd H as grid Hg. bnd H as l Hl. bnd H as u Hu. injection H as <-. fold (somes l) in *.
  pose proof HA as ((_ & _ & Hnd) & _ & _). apply mapM_ok in Hl.
  unfold feasible_grid in Hg. bnd Hg as u2 Hu2. bnd Hg as out Ho. pose proof (output_spec _ _ _ _ HA Ho) as [HNo HOut]. apply mapM_ok in Ho.
  assert (KO : map fst out = map fst (filter (fun q => grid_included true (fst (snd q))) (combine (as_names A) (combine (as_elems A) x)))).
  { clear - Ho. induction Ho as [|[n [e xj]] [n' v'] l m H1 H2 IH]; [reflexivity|]. cbn. f_equal; [|exact IH]. bnd H1 as r Hr. injection H1 as -> _. reflexivity. }
  assert (KG : exists r, map fst grid = map fst out ++ r /\ forall n, In n r -> ~ In n (map fst out)).
  { destruct (r_cons (as_cons A)) as [|q0 qs]; [injection Hg as <-; exists []; rewrite app_nil_r; split; [reflexivity|intros n []]|].
    destruct (over_keys_app _ _ _ _ _ _ Hg) as (r & R1 & R2). exists r. split; [exact R1|]. intros n Hn. now apply R2. }
  destruct KG as (r & KG & KR). destruct (map_app_split _ _ _ _ KG) as (g1 & g2 & -> & G1 & G2).
  apply Forall2_app_inv_l in Hl. destruct Hl as (l1 & l2 & H1 & H2 & ->).
  unfold somes in *. rewrite flat_map_app in *. fold (somes l1) (somes l2) in *. rewrite map_app. exists (map i_idx (somes l1)), (map i_idx (somes l2)). split; [reflexivity|].
  destruct (filter_positions (fun q => grid_included true (fst (snd q))) (combine (as_names A) (combine (as_elems A) x))) as (P & HP & SP).
  assert (HP1 : Forall2 (fun p j => nth_error (as_names A) j = Some (fst p)) g1 P).
  { apply (Forall2_map_fst (fun n j => nth_error (as_names A) j = Some n)). rewrite G1, KO. clear - HP. induction HP as [|[n [e xj]] j q P Hj HP IH]; cbn; constructor; auto.
    apply combine3_nth in Hj. apply Hj. }
  destruct (somes_sorted E ct (as_names A) (constrained_names E (as_cons A)) w x Hnd g1 l1 P H1 HP1 SP) as [S1 _]. split; [exact S1|].
  assert (SRC : forall g l', Forall2 (fun p o => make_info E ct (as_names A) (constrained_names E (as_cons A)) w x (fst p) (fst (snd p)) (snd (snd p)) = Ok o) g l' -> forall i, In i (somes l') -> In (i_name i) (map fst g)).
  { clear. intros g l' H. induction H as [|p o g l' H1 H IH]; intros i Hi; [destruct Hi|]. unfold somes in Hi. cbn [flat_map] in Hi. apply in_app_or in Hi. destruct Hi as [Hi|Hi]; [|right; now apply IH].
    destruct o as [i'|]; [|destruct Hi]. destruct Hi as [->|[]]. apply make_info_idx in H1. left. symmetry. apply H1. }
  assert (CH : forall i, In i (somes l1 ++ somes l2) -> (helps A w (i_idx i) <-> In (i_name i) (map fst out))).
  { intros i Hi. destruct (HF i Hi) as (e & xj & EN). pose proof (en_elem _ _ _ _ _ _ _ _ EN) as He. pose proof (en_w _ _ _ _ _ _ _ _ EN) as Hw. pose proof (en_x _ _ _ _ _ _ _ _ EN) as Hx. pose proof (en_name _ _ _ _ _ _ _ _ EN) as Hn.
    destruct HFl as [_ HFl']. pose proof (compatible_helps e (i_coef i) (nth_error_In _ _ He) (HFl' _ _ _ He Hw)) as K. split.
    - intros (e' & wj & K1 & K2 & K3). assert (e' = e) by congruence. assert (wj = i_coef i) by congruence. subst e' wj.
      pose proof (proj2 K (conj (en_act _ _ _ _ _ _ _ _ EN) K3)) as C.
      rewrite KO. apply in_map_iff. exists (i_name i, (e, xj)). split; [reflexivity|]. apply filter_In. split; [apply nth_error_In with (n := i_idx i); apply combine3_nth; auto|]. cbn. unfold grid_included. now rewrite C.
    - intro Hin. apply in_map_iff in Hin. destruct Hin as ([n v] & Qn & Hin). cbn in Qn. subst n. apply HOut in Hin. destruct Hin as (j & e' & xj' & K1 & K2 & K3 & _ & C).
      assert (j = i_idx i) by (apply (proj1 (NoDup_nth_error _) Hnd); [apply nth_error_Some; congruence|congruence]). subst j. assert (e' = e) by congruence. subst e'.
      exists e, (i_coef i). split; [exact He|]. split; [exact Hw|]. now apply K. }
  split; intros j Hj; apply in_map_iff in Hj; destruct Hj as (i & <- & Hi).
  - apply CH; [apply in_or_app; now left|]. rewrite <- G1. exact (SRC _ _ H1 i Hi).
  - intro Hh. apply CH in Hh; [|apply in_or_app; now right]. apply (KR (i_name i)); [|exact Hh]. rewrite <- G2. exact (SRC _ _ H2 i Hi).
Qed.

Lemma attains_improving j e wj xj v : nth_error (as_elems A) j = Some e -> nth_error w j = Some wj -> attains (as_y A) (wj * (v - xj)) -> improving e xj v.
Proof.
  intros He Hw Ha. unfold improving. rewrite (proj2 HFl j e wj He Hw). assert (Hy : (as_y A = 1 \/ as_y A = -1)%Z) by apply HA.
  destruct (sign_move _ _ _ Hy Ha) as [S1 S2]. split; intro L; [specialize (S1 L)|specialize (S2 L)]; qlra.
Qed.
Lemma attains_compatible j e wj xj v : nth_error (as_elems A) j = Some e -> nth_error w j = Some wj -> permitted e xj v -> attains (as_y A) (wj * (v - xj)) -> compatible e = Some true.
Proof.
  intros He Hw Hp Ha. apply (compatible_helps e wj (nth_error_In _ _ He) (proj2 HFl j e wj He Hw)).
  assert (Hne : v <> xj). { intros ->. unfold attains in Ha. replace (wj * (xj - xj)) with 0 in Ha by ring. destruct (0 <? as_y A)%Z; discriminate Ha. }
  destruct Hp as [Hp|(P1 & _ & P2 & P3)]; [congruence|]. split; [exact P1|].
  assert (RE : elem_reachable E e) by (destruct HA as (_ & _ & K & _); rewrite Forall_forall in K; apply K; eapply nth_error_In, He).
  unfold can_help, attains in *.
  assert (M : forall p q, 0 < p -> 0 < q -> 0 < p * q) by (intros; now apply qmul_pos).
  destruct (Qc_dec v xj) as [[L|L]|L]; [| |congruence].
  - right. split; [intro K; rewrite K in P2; specialize (P2 eq_refl); qlra|]. destruct (0 <? as_y A)%Z.
    + destruct (qlt_spec 0 (- wj)) as [Q|Q]; [exact Q|]. exfalso. assert (0 <= wj * (xj - v)) by (apply qmul_nonneg; qlra). replace (wj * (v - xj)) with (- (wj * (xj - v))) in Ha by ring. qlra.
    + destruct (qlt_spec (- wj) 0) as [Q|Q]; [exact Q|]. exfalso. assert (0 <= - wj * (xj - v)) by (apply qmul_nonneg; qlra). replace (wj * (v - xj)) with (- wj * (xj - v)) in Ha by ring. qlra.
  - left. split; [intro K; rewrite K in P3; specialize (P3 eq_refl); qlra|]. destruct (0 <? as_y A)%Z.
    + destruct (qlt_spec 0 wj) as [Q|Q]; [exact Q|]. exfalso. assert (0 <= - wj * (v - xj)) by (apply qmul_nonneg; qlra). replace (- wj * (v - xj)) with (- (wj * (v - xj))) in H by ring. qlra.
    + destruct (qlt_spec wj 0) as [Q|Q]; [exact Q|]. exfalso. assert (0 <= wj * (v - xj)) by (apply qmul_nonneg; qlra). qlra.
Qed.
Lemma entry_attains i e xj k : entry_of E A ct w x i e xj -> ~ constrained_at A (i_idx i) -> (0 < k < nopt i)%nat -> attains (as_y A) (i_coef i * act i k).
Proof.
  intros EN HC Hk. pose proof (en_name _ _ _ _ _ _ _ _ EN) as Hn.
  assert (HNC : ~ In (i_name i) (constrained_names E (as_cons A))) by (intro K; apply HC; now apply (constrained_iff E A _ _ HOE HA Hn)).
  pose proof (en_dir _ _ _ _ _ _ _ _ EN HNC k Hk) as D. pose proof (isclose0_false _ (en_coef _ _ _ _ _ _ _ _ EN)) as NZ.
  assert (HY : (as_y A = 1 \/ as_y A = -1)%Z) by apply HA. unfold attains.
  assert (M : forall p q, 0 < p -> 0 < q -> 0 < p * q) by (intros; now apply qmul_pos). set (u := act i k) in *. set (v := i_coef i) in *. clearbody u v.
  revert D. destruct (qsign_spec v) as [[S1 S2]|[[S1 S2]|[S1 S2]]]; rewrite S2; destruct HY as [-> | ->]; cbn; intro D; try (exfalso; now apply NZ).
  - now apply M.
  - assert (G : 0 < v * - u) by (apply M; qlra). replace (v * - u) with (- (v * u)) in G by ring. qlra.
  - assert (G : 0 < - v * - u) by (apply M; qlra). replace (- v * - u) with (v * u) in G by ring. qlra.
  - assert (G : 0 < - v * u) by (apply M; qlra). replace (- v * u) with (- (v * u)) in G by ring. qlra.
Qed.
Lemma line_members j : In j (map i_idx infos) <-> takes_part A w x j.
Proof.
  pose proof (build_info_spec E A ct w x infos HOE HA HI) as (LX & [WI _] & HF & _ & (_ & _ & HC3) & HC4). rewrite Forall_forall in HF, WI. split.
  - intro Hj. apply in_map_iff in Hj. destruct Hj as (i & <- & Hi). destruct (HF i Hi) as (e & xj & EN). pose proof (WI i Hi) as W1. pose proof (wi_len _ W1) as L2.
    exists e, (i_coef i), xj, (xj + act i 1). split; [exact (en_elem _ _ _ _ _ _ _ _ EN)|]. split; [exact (en_w _ _ _ _ _ _ _ _ EN)|]. split; [exact (en_x _ _ _ _ _ _ _ _ EN)|]. split; [exact (en_rep _ _ _ _ _ _ _ _ EN)|].
    split; [apply (en_perm _ _ _ _ _ _ _ _ EN); lia|]. split.
    + intro Q. apply (proj2 (wi_pos _ W1 1%nat ltac:(lia))). replace (act i 1) with (xj + act i 1 - xj) by ring. rewrite Q. ring.
    + destruct (constrained_dec E A (i_idx i) HOE HA) as [C|C]; [now left|right]. replace (xj + act i 1 - xj) with (act i 1) by ring. apply (entry_attains i e xj 1 EN C). lia.
  - intros (e & wj & xj & v & He & Hw & Hx & HR & Hp & Hne & HD).
    assert (Lj : (j < length (as_names A))%nat) by (change (j < as_len A)%nat; rewrite <- (wf_len _ _ HA); apply nth_error_Some; congruence).
    destruct (nth_error (as_names A) j) as [n|] eqn:En; [|apply nth_error_None in En; lia].
    assert (G : exists i, In i infos /\ i_idx i = j); [|destruct G as (i & Hi & <-); now apply in_map].
    destruct (constrained_dec E A j HOE HA) as [C|C].
    + apply (HC3 j e xj n v); auto. now apply (constrained_iff E A j n HOE HA En).
    + destruct HD as [HD|HD]; [contradiction|]. apply (HC4 j e xj n v); auto.
      * eapply attains_compatible; eauto.
      * intro K. apply C. now apply (constrained_iff E A j n HOE HA En).
      * eapply attains_improving; eauto.
Qed.
Lemma line_up : lineup A w x (map i_idx infos).
Proof.
  split; [apply (build_info_spec E A ct w x infos HOE HA HI)|]. split; [exact line_members|exact line_order].
Qed.
(** A slot counts as used exactly when its nullifying option is not chosen. *)
Lemma lit_counts ch i : ch_ok infos ch -> In i infos -> (lit ch i = true <-> counts A x (avec (as_len A) infos ch) (i_idx i)).
Proof.
  intros Hc Hi. pose proof (build_info_spec E A ct w x infos HOE HA HI) as (LX & HW & HF & _). pose proof HW as [WI ND]. rewrite Forall_forall in HF, WI.
  destruct (HF i Hi) as (e & xj & EN). pose proof (WI i Hi) as Wi. pose proof (en_x _ _ _ _ _ _ _ _ EN) as Hx. pose proof (en_name _ _ _ _ _ _ _ _ EN) as Hn.
  assert (Lj : (i_idx i < as_len A)%nat) by (rewrite <- LX; apply nth_error_Some; congruence).
  pose proof (avec_nth infos (as_len A) ch _ Lj) as Ha. rewrite (info_at_In _ _ ND Hi) in Ha.
  pose proof (en_null _ _ _ _ _ _ _ _ EN) as K. pose proof (Hc i Hi) as Lc. unfold lit. rewrite negb_true_iff, Nat.eqb_neq.
  set (k := ch (i_idx i)) in *.
  assert (B : smem (i_name i) (constrained_names E (as_cons A)) = true <-> constrained_at A (i_idx i)).
  { rewrite smem_iff. apply (constrained_iff E A _ _ HOE HA Hn). }
  assert (Z0 : k <> 0%nat <-> act i k <> 0).
  { split; [intro Q; apply (wi_pos _ Wi); lia|]. intros Q ->. apply Q. exact (wi_a0 _ Wi). }
  assert (ZN : k = i_knull i <-> act i k = act i (i_knull i)).
  { split; [now intros ->|]. intro Q. apply (NoDup_nth (i_actions i) 0); [apply (wi_nodup _ Wi)|exact Lc|apply (wi_null _ Wi)|exact Q]. }
  destruct (smem (i_name i) (constrained_names E (as_cons A))) eqn:Es; [assert (C : constrained_at A (i_idx i)) by now apply B|assert (C : ~ constrained_at A (i_idx i)) by (intro Q; apply B in Q; discriminate Q)]; cbn [andb] in K.
  - destruct (qlt_spec 0 xj) as [Q|Q].
    + rewrite ZN, K. split.
      * intro N. exists xj, (act i k). split; [exact Hx|]. split; [exact Ha|]. left. split; [exact C|]. split; [exact Q|]. intro Q2. apply N. replace (act i k) with (xj + act i k - xj) by ring. rewrite Q2. ring.
      * intros (xj' & aj & K1 & K2 & D) Q2. rewrite Hx in K1. injection K1 as <-. rewrite Ha in K2. injection K2 as <-. destruct D as [(_ & _ & D)|(D & _)]; [apply D; rewrite Q2; ring|apply D; auto].
    + rewrite K, Z0. split.
      * intro N. exists xj, (act i k). split; [exact Hx|]. split; [exact Ha|]. right. split; [intros [_ Q2]; qlra|exact N].
      * intros (xj' & aj & K1 & K2 & D). rewrite Hx in K1. injection K1 as <-. rewrite Ha in K2. injection K2 as <-. destruct D as [(_ & D & _)|(_ & D)]; [qlra|exact D].
  - rewrite K, Z0. split.
    + intro N. exists xj, (act i k). split; [exact Hx|]. split; [exact Ha|]. right. split; [intros [Q2 _]; contradiction|exact N].
    + intros (xj' & aj & K1 & K2 & D). rewrite Hx in K1. injection K1 as <-. rewrite Ha in K2. injection K2 as <-. destruct D as [(D & _)|(_ & D)]; [contradiction|exact D].
Qed.
Lemma slots_iff ch : ch_ok infos ch -> (Forall (fun p => subset_ok infos ch (snd p)) (r_cons (as_cons A)) <-> limited A (map i_idx infos) x (avec (as_len A) infos ch)).
Proof.
  intro Hc. pose proof (build_info_spec E A ct w x infos HOE HA HI) as (LX & [WI ND] & _).
  pose proof HA as (_ & _ & _ & WN & ((_ & HK) & WC) & _).
  assert (SI : forall c, NoDup (c_indices c) -> (subset_ok infos ch c <-> exists fs used, Forall2 (fun j f => nth_error (map i_idx infos) j = Some f) (c_indices c) fs /\
    NoDup used /\ (forall f, In f used <-> In f fs /\ counts A x (avec (as_len A) infos ch) f) /\ (c_lb c <= Z.of_nat (length used) <= c_ub c)%Z)).
  { intros c Nc.
    assert (NF : forall fs, Forall2 (fun j f => nth_error (map i_idx infos) j = Some f) (c_indices c) fs -> NoDup fs).
    { revert Nc. generalize (c_indices c). clear - ND. intros js Nc fs H. induction H as [|j f js fs Hj H IH]; [constructor|]. inversion Nc as [|? ? N1 N2]; subst. constructor; auto.
      intro Hf. apply N1. clear - Hj H Hf ND. induction H as [|j' f' js fs Hj' H IH]; [destruct Hf|]. destruct Hf as [->|Hf]; [|right; auto]. left.
      apply (proj1 (NoDup_nth_error _) ND); [apply nth_error_Some; congruence|congruence]. }
    assert (UN : forall il, incl il infos -> forall u, In u (map i_idx (filter (lit ch) il)) <-> In u (map i_idx il) /\ counts A x (avec (as_len A) infos ch) u).
    { intros il Hil u. rewrite !in_map_iff. split.
      - intros (i & <- & Hi). apply filter_In in Hi. destruct Hi as [Hi Hl]. split; [eauto|]. apply lit_counts; auto.
      - intros ((i & <- & Hi) & Hu). exists i. split; [reflexivity|]. apply filter_In. split; [exact Hi|]. apply lit_counts; auto. }
    assert (IL : forall js il, Forall2 (fun j i => nth_error infos j = Some i) js il -> incl il infos).
    { clear. intros js il H. induction H; [intros ? []|]. intros q [<-|Hq]; [eapply nth_error_In; eauto|auto]. }
    assert (MI : forall js il, Forall2 (fun j i => nth_error infos j = Some i) js il -> Forall2 (fun j f => nth_error (map i_idx infos) j = Some f) js (map i_idx il)).
    { clear. intros js il H. induction H; cbn; constructor; auto. now rewrite nth_error_map, H. }
    assert (DF : forall il, NoDup (map i_idx il) -> NoDup (map i_idx (filter (lit ch) il))).
    { clear. intros il H. induction il as [|i il IH]; [constructor|]. cbn in H. inversion H as [|? ? H1 H2]; subst. cbn [filter]. destruct (lit ch i); [|auto]. cbn. constructor; [|auto].
      intro Q. apply H1. apply in_map_iff in Q. destruct Q as (i' & Q & Hi). apply filter_In in Hi. rewrite <- Q. apply in_map, Hi. }
    split.
    - intros (il & HF & HB). exists (map i_idx il), (map i_idx (filter (lit ch) il)). split; [now apply MI|]. split; [apply DF, NF, MI, HF|]. split; [apply UN, (IL _ _ HF)|]. now rewrite map_length.
    - intros (fs & used & HF & HN & HU & HB).
      assert (Hil : exists il, Forall2 (fun j i => nth_error infos j = Some i) (c_indices c) il /\ map i_idx il = fs).
      { clear - HF. induction HF as [|j f js fs Hj HF (il & I1 & I2)]; [exists []; split; [constructor|reflexivity]|]. rewrite nth_error_map in Hj. destruct (nth_error infos j) as [i|] eqn:Ei; [|discriminate Hj].
        injection Hj as <-. exists (i :: il). split; [now constructor|]. cbn. now rewrite I2. }
      destruct Hil as (il & I1 & <-). exists il. split; [exact I1|].
      assert (P : Permutation used (map i_idx (filter (lit ch) il))) by (apply NoDup_Permutation; [exact HN|apply DF, NF, HF|intro f; rewrite HU; symmetry; apply UN, (IL _ _ I1)]).
      apply Permutation_length in P. rewrite map_length in P. now rewrite <- P. }
  assert (ST : forall id c, stored (as_cons A) id c -> NoDup (c_indices c)).
  { intros id c Hst. destruct (WC _ _ Hst) as (_ & _ & _ & _ & _ & SO & _). revert SO. clear. intro SO. induction SO as [|j l SO IH HF]; constructor; auto. intro Hj. rewrite Forall_forall in HF. specialize (HF j Hj). lia. }
  rewrite Forall_forall. split.
  - intros H id c Hst. apply (SI c (ST _ _ Hst)). exact (H _ (dget_In _ _ _ Hst)).
  - intros H [id c] Hin. cbn [snd]. assert (Hst : stored (as_cons A) id c) by (apply dget_of_In; assumption). apply (SI c (ST _ _ Hst)). exact (H id c Hst).
Qed.
End Lineup.
