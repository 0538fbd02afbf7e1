(** C108: the order in which sets are iterated. *)
From Verif Require Import Proofs_props_element Proofs_props_actionset Spec_recourse Spec_runs Proofs_mip Proofs_info Proofs_vec Proofs_build Proofs_enum Proofs_session Proofs_recourse Proofs_subset Proofs_exchange Proofs_far Proofs_concrete Proofs_builder Proofs_builder2 Proofs_builder3 Proofs_builder4 Proofs_builder5 Proofs_scen Proofs_scen2 Proofs_builder6 Proofs_builder7 Proofs_builder8 Proofs_assign Proofs_assign2 Spec_audit Spec_flipset Proofs_audit Proofs_audit3 Proofs_audit4 Proofs_flipset Proofs_flipset3 Proofs_constrained.
#[local] Open Scope string_scope.
#[local] Open Scope list_scope.
#[local] Open Scope Qc_scope.

(** ** Dictionaries *)
Lemma dset_twice {V} a (u : V) d : dset a u (dset a u d) = dset a u d.
Proof. induction d as [|[k v] d IH]; cbn; [now rewrite String.eqb_refl|]. destruct (String.eqb_spec a k); cbn; [subst; now rewrite String.eqb_refl|]. destruct (String.eqb_spec a k); [congruence|]. now rewrite IH. Qed.
Lemma dset_swap {V} a (u : V) b v d : a <> b -> In a (map fst d) \/ In b (map fst d) -> dset a u (dset b v d) = dset b v (dset a u d).
Proof.
  intro N. induction d as [|[k w] d IH]; cbn; [tauto|]. intro H.
  destruct (String.eqb_spec b k) as [->|Nb].
  - cbn. destruct (String.eqb_spec a k); [congruence|]. cbn. now rewrite String.eqb_refl.
  - destruct (String.eqb_spec a k) as [->|Na]; cbn.
    + rewrite String.eqb_refl. destruct (String.eqb_spec b k); [congruence|]. reflexivity.
    + destruct (String.eqb_spec a k); [congruence|]. destruct (String.eqb_spec b k); [congruence|]. rewrite IH; [reflexivity|].
      destruct H as [[H|H]|[H|H]]; try congruence; auto.
Qed.
Lemma dset_grows {V} a (u : V) d n : In n (map fst d) -> In n (map fst (dset a u d)).
Proof. induction d as [|[k w] d IH]; cbn; [tauto|]. destruct (String.eqb_spec a k); cbn; intuition. Qed.

(** ** Overwriting in another order *)
Section OVER.
  Context {V : Type} (f : string -> res V).
  Definition over (acc : res (dict V)) (n : string) : res (dict V) := let! out := acc in let! v := f n in Ok (dset n v out).
  Lemma over_err l x : fold_left over l (Err x) = Err x.
  Proof. apply fold_err. reflexivity. Qed.
  Lemma over_perm l l' : Permutation l l' -> forall d g, (forall a b, In a l -> In b l -> a <> b -> In a (map fst d) \/ In b (map fst d)) ->
    fold_left over l (Ok d) = Ok g -> fold_left over l' (Ok d) = Ok g.
  Proof.
    induction 1 as [|x l l' P IH|x y l|l l' l'' P1 IH1 P2 IH2]; intros d g HK H.
    - exact H.
    - cbn [fold_left] in *. unfold over at 2 in H. unfold over at 2. cbn [bind] in *. destruct (f x) as [v|e]; cbn [bind] in *; [|rewrite over_err in H; discriminate H].
      apply IH; [|exact H]. intros a b Ha Hb N. destruct (HK a b) as [K|K]; auto using dset_grows; now right.
    - cbn [fold_left] in *. unfold over at 2 3 in H. unfold over at 2 3. cbn [bind] in *. destruct (f y) as [v|e] eqn:Ey; cbn [bind] in *; [|destruct (f x); cbn [bind] in *; rewrite over_err in H; discriminate H].
      destruct (f x) as [u|e] eqn:Ex; cbn [bind] in *; [|rewrite over_err in H; discriminate H].
      destruct (string_dec x y) as [Q|N].
      + subst y. assert (u = v) by congruence. subst u. exact H.
      + rewrite dset_swap; [exact H|congruence|]. apply HK; cbn; auto.
    - apply IH2; [|now apply IH1]. intros a b Ha Hb. apply HK; (eapply Permutation_in; [apply Permutation_sym, P1|assumption]).
  Qed.
End OVER.

(** ** The grid of a run *)
Lemma perm_names E E' r : ok_env E -> ok_env E' -> Permutation (constrained_names E r) (constrained_names E' r).
Proof. intros H H'. unfold constrained_names. etransitivity; [apply H|]. symmetry. apply H'. Qed.
Lemma smem_perm l l' n : Permutation l l' -> smem n l = smem n l'.
Proof.
  intro P. unfold smem. apply eq_true_iff_eq. rewrite !existsb_exists. split; intros (m & Hm & Q); exists m; (split; [|exact Q]); (eapply Permutation_in; [|exact Hm]); [exact P|now apply Permutation_sym].
Qed.
Lemma useful_compat E A w j n : wf_aset E A -> flips_match A w -> nth_error (as_names A) j = Some n -> useful A w j ->
  exists e, nth_error (as_elems A) j = Some e /\ compatible e = Some true.
Proof.
  intros HW [_ HF] Hn (e & wj & He & Hw & Ha & Hh). exists e. split; [exact He|]. specialize (HF _ _ _ He Hw).
  assert (HY : (as_y A = 1 \/ as_y A = -1)%Z) by apply HW.
  assert (Hre : elem_reachable E e). { destruct HW as (_ & _ & HE & _). rewrite Forall_forall in HE. apply HE. eapply nth_error_In, He. }
  pose proof (c16 E e Hre) as HC. rewrite HF in HC. apply HC. split; [exact Ha|].
  unfold can_help, attains in Hh. destruct (qsign_spec wj) as [[S1 S2]|[[S1 S2]|[S1 S2]]]; rewrite S2; destruct HY as [HY|HY]; rewrite HY in Hh |- *; cbn [Z.eqb Pos.eqb Z.opp Z.ltb Z.compare] in Hh |- *;
    destruct Hh as [[D Hh]|[D Hh]]; try (exfalso; qlra); split; lia.
Qed.
Lemma output_keys E A x out :
  mapM (fun q => let '(n, (e, xj)) := q in let! v := feasible_values E e xj true true true in Ok (n, v))
       (filter (fun q => grid_included true (fst (snd q))) (combine (as_names A) (combine (as_elems A) x))) = Ok out ->
  forall j n e xj, nth_error (as_names A) j = Some n -> nth_error (as_elems A) j = Some e -> nth_error x j = Some xj -> compatible e = Some true -> In n (map fst out).
Proof.
  intros H j n e xj E1 E2 E3 Hc. apply mapM_ok in H.
  assert (HK : map fst out = map fst (filter (fun q => grid_included true (fst (snd q))) (combine (as_names A) (combine (as_elems A) x)))).
  { clear - H. induction H as [|[n [e xj]] [n' v'] l m H1 H2 IH]; [reflexivity|]. cbn. f_equal; [|exact IH]. bnd H1 as r Hr. injection H1 as -> _. reflexivity. }
  rewrite HK. apply in_map_iff. exists (n, (e, xj)). split; [reflexivity|]. apply filter_In. split; [apply nth_error_In with (n := j); now apply combine3_nth|]. cbn [fst snd]. unfold grid_included. now rewrite Hc.
Qed.
Definition entry_value (E : env) (A : action_set) (x : list Qc) (n : string) : res gridentry :=
  let! j := of_option ValueError (index_of n (as_names A)) in
  match nth_error (as_elems A) j, nth_error x j with
  | Some e, Some xj => feasible_values E e xj true true false
  | _, _ => Err KeyError
  end.
Lemma over_grid E A x l d : fold_left (fun acc n => let! out := acc in
          let! j := of_option ValueError (index_of n (as_names A)) in
          match nth_error (as_elems A) j, nth_error x j with
          | Some e, Some xj => let! v := feasible_values E e xj true true false in Ok (dset n v out)
          | _, _ => Err KeyError
          end) l d = fold_left (over (entry_value E A x)) l d.
Proof.
  revert d. induction l as [|n l IH]; intro d; [reflexivity|]. cbn [fold_left]. rewrite IH. f_equal. unfold over, entry_value. destruct d as [d|]; [|reflexivity]. cbn [bind].
  destruct (index_of n (as_names A)) as [j|]; [|reflexivity]. cbn [of_option bind]. destruct (nth_error (as_elems A) j); [|reflexivity]. destruct (nth_error x j); reflexivity.
Qed.
Lemma values_runs E E' e xj a b c : kde E' = kde E -> nplog E' = nplog E -> feasible_values E' e xj a b c = feasible_values E e xj a b c.
Proof. destruct E as [k l s], E' as [k' l' s']. cbn. intros -> ->. reflexivity. Qed.
Lemma grid_runs E E' A w x g : other_run E E' -> wf_aset E A -> flips_match A w -> order_free A w ->
  feasible_grid E A x true true true = Ok g -> feasible_grid E' A x true true true = Ok g.
Proof.
  intros (HE & HE' & Hk & Hl) HW HF HO. unfold feasible_grid. destruct (Nat.eqb_spec (length x) (as_len A)) as [Lx|]; cbn [passert bind]; [|discriminate].
  set (F := filter (fun q => grid_included true (fst (snd q))) (combine (as_names A) (combine (as_elems A) x))).
  intro H. bnd H as out Ho.
  assert (Ho' : mapM (fun q => let '(n, (e, xj)) := q in let! v := feasible_values E' e xj true true true in Ok (n, v)) F = Ok out).
  { rewrite <- Ho. clear Ho. induction F as [|[n [e xj]] l IH]; [reflexivity|]. cbn [mapM]. now rewrite IH, (values_runs E E'). }
  rewrite Ho'. cbn [bind]. destruct (r_cons (as_cons A)) as [|q0 qs] eqn:Ec; [exact H|]. rewrite over_grid in H |- *.
  assert (HV : forall l d, fold_left (over (entry_value E' A x)) l d = fold_left (over (entry_value E A x)) l d).
  { induction l as [|n l IH]; intro d; [reflexivity|]. cbn [fold_left]. rewrite IH. f_equal. unfold over, entry_value. destruct d as [d|]; [|reflexivity]. cbn [bind].
    destruct (of_option ValueError (index_of n (as_names A))); [|reflexivity]. cbn [bind]. destruct (nth_error (as_elems A) a); [|reflexivity]. destruct (nth_error x a); [|reflexivity]. now rewrite (values_runs E E'). }
  rewrite HV. eapply over_perm; [apply perm_names; [exact HE|exact HE']| |exact H].
  intros a b Ha Hb N. destruct (constrained_pos _ _ _ HE HW Ha) as (i & Hi & Ci). destruct (constrained_pos _ _ _ HE HW Hb) as (j & Hj & Cj).
  assert (G : forall k n, nth_error (as_names A) k = Some n -> useful A w k -> In n (map fst out)).
  { intros k n Hn U. destruct (useful_compat E A w k n HW HF Hn U) as (e & He & Hc).
    destruct (nth_error x k) as [xk|] eqn:Ex.
    - eapply output_keys; eauto.
    - exfalso. apply nth_error_None in Ex. assert (k < length (as_names A))%nat by (apply nth_error_Some; congruence). unfold as_len in Lx. lia. }
  destruct (HO i j Ci Cj) as [U|U]; [intros ->; congruence|left|right]; eapply G; eauto.
Qed.
Lemma info_runs E E' A ct w x infos : other_run E E' -> wf_aset E A -> flips_match A w -> order_free A w ->
  get_build_info E A ct w x = Ok infos -> get_build_info E' A ct w x = Ok infos.
Proof.
  intros R HW HF HO H. unfold get_build_info in *. cbv zeta in *. bnd H as g Hg. rewrite (grid_runs E E' A w x g R HW HF HO Hg). cbn [bind].
  destruct R as (HE & HE' & Hk & Hl). pose proof (perm_names E E' (as_cons A) HE HE') as P. remember (constrained_names E (as_cons A)) as c. remember (constrained_names E' (as_cons A)) as c'.
  assert (M : forall n, smem n c' = smem n c) by (intro n; symmetry; now apply smem_perm).
  assert (Q : mapM (fun p => make_info E' ct (as_names A) c' w x (fst p) (fst (snd p)) (snd (snd p))) g = mapM (fun p => make_info E ct (as_names A) c w x (fst p) (fst (snd p)) (snd (snd p))) g).
  { clear H Hg. induction g as [|p g IH]; [reflexivity|]. cbn [mapM]. rewrite IH. f_equal. unfold make_info. rewrite M. unfold cost_up, cost_dn. rewrite Hl. reflexivity. }
  rewrite Q. bnd H as l Hl'. rewrite Hl'. cbn [bind].
  set (I := flat_map (fun o => match o with Some i => [i] | None => [] end) l) in *. replace (forallb (check_info (as_y A) c') I) with (forallb (check_info (as_y A) c) I); [exact H|].
  clear - M. induction I as [|i I IH]; [reflexivity|]. cbn [forallb]. rewrite IH. f_equal. unfold check_info. now rewrite M.
Qed.
Lemma set_x_runs E E' b x b0 : other_run E E' -> wf_aset E (bd_A b) -> flips_match (bd_A b) (bd_w b) -> order_free (bd_A b) (bd_w b) ->
  set_x E b x = (b0, Ok tt) -> set_x E' b x = (b0, Ok tt).
Proof.
  intros R HW HF HO H. destruct (set_x_ok _ _ _ _ H) as (ms & L & B & ->). unfold set_x. rewrite L, Nat.eqb_refl.
  unfold build in *. bnd B as infos HI. rewrite (info_runs E E' _ _ _ _ _ R HW HF HO HI). cbn [bind]. now rewrite B.
Qed.
(** ** Builders, audits, flipsets *)
Lemma order_free_sbf A A' w : same_but_flips A A' -> order_free A w -> order_free A' w.
Proof.
  intros S H j j' Hj Hj' N. pose proof S as (_ & C & Y & _). unfold constrained_at in Hj, Hj'. rewrite C in Hj, Hj'.
  assert (U : forall i, useful A w i -> useful A' w i).
  { intros i (e & wj & He & Hw & Ha & Hh). destruct (sbf_elem' _ _ _ _ S He) as (f & He'). exists (with_flip e f), wj. rewrite Y. auto. }
  destruct (H j j' Hj Hj' N); auto.
Qed.
Lemma runs_set_x E E' sv b x b0 : other_run E E' -> assigned E sv b x b0 -> flips_match (bd_A b) (bd_w b) -> order_free (bd_A b) (bd_w b) -> set_x E' b x = (b0, Ok tt).
Proof. intros R [HR HX] HF HO. destruct (reachable_sane _ _ _ HR) as [S1 _]. exact (set_x_runs E E' b x b0 R (reachable_wf _ _ S1) HF HO HX). Qed.
Lemma runs_create E E' k A a w t ct ox b : other_run E E' -> aset_reachable E A -> parse_classifier_args a = Ok (w, t) -> alignment_known A = false \/ flips_match A w -> order_free A w ->
  mk_builder E k A a ct ox = Ok b -> mk_builder E' k A a ct ox = Ok b.
Proof.
  intros R HA Hp HF HO H. destruct ox as [x|].
  - assert (exists b1, mk_builder E k A a ct None = Ok b1 /\ mk_builder E' k A a ct None = Ok b1 /\ set_x E b1 x = (b, Ok tt) /\ forall b', set_x E' b1 x = (b', Ok tt) -> mk_builder E' k A a ct (Some x) = Ok b') as (b1 & H1 & H2 & H3 & H4).
    { unfold mk_builder in *. rewrite Hp in *. cbn [bind] in *. bnd H as u Hu. rewrite Hu. cbn [bind]. bnd H as A' HA'. rewrite HA'. cbn [bind]. cbv zeta in *. eexists. split; [reflexivity|]. split; [reflexivity|].
      destruct (set_x E _ x) as [b2 r] eqn:Hx. bnd H as v Hv. injection H as ->. subst r. destruct v. split; [reflexivity|]. intros b' ->. reflexivity. }
    apply H4. pose proof (created_fresh _ _ _ _ _ _ _ _ HA Hp H1) as F. pose proof (fr_flips _ _ _ _ _ _ _ F HF) as FM. rewrite <- (fr_w _ _ _ _ _ _ _ F) in FM.
    apply (runs_set_x E E' (fun _ _ => SInfeasible)); [exact R| |exact FM|].
    + split; [|exact H3]. exists b1, []. split; [|reflexivity]. exists k, A, a, ct, None. auto.
    + rewrite (fr_w _ _ _ _ _ _ _ F). eapply order_free_sbf; [apply F|exact HO].
  - unfold mk_builder in *. exact H.
Qed.

Lemma runs_loop E E' sv l : other_run E E' -> forall b b' out, wf_aset E (bd_A b) -> flips_match (bd_A b) (bd_w b) -> order_free (bd_A b) (bd_w b) ->
  audit_loop E sv b l = (b', Ok out) -> audit_loop E' sv b l = (b', Ok out).
Proof.
  intro R. induction l as [|[i u] l IH]; intros b b' out HW HF HO H; [exact H|]. cbn [audit_loop] in *.
  destruct (set_x E b u) as [b1 [[]|e]] eqn:Hx; [|apply pair_equal_spec in H; destruct H as [_ H]; discriminate H].
  rewrite (set_x_runs E E' b u b1 R HW HF HO Hx). destruct (fit sv b1) as [[b2 s]|e] eqn:Hf; [|apply pair_equal_spec in H; destruct H as [_ H]; discriminate H].
  destruct (audit_loop E sv b2 l) as [b3 [o|e]] eqn:Hl; [|apply pair_equal_spec in H; destruct H as [_ H]; discriminate H].
  assert (SP : bd_A b2 = bd_A b /\ bd_w b2 = bd_w b).
  { destruct (fit_keeps _ _ _ _ Hf) as (_ & S2 & _ & S4 & _). destruct (set_x_ok _ _ _ _ Hx) as (ms & _ & _ & ->). cbn in S2, S4. auto. }
  destruct SP as [SA SW]. rewrite (IH b2 b3 o); [exact H| | | |exact Hl]; rewrite ?SA, ?SW; assumption.
Qed.
Lemma runs_audit {I} E E' sv b (X : list (I * list fl)) y b' out : other_run E E' -> builder_reachable E sv b -> flips_match (bd_A b) (bd_w b) -> order_free (bd_A b) (bd_w b) ->
  audit E sv b X y = (b', Ok out) -> audit E' sv b X y = (b', Ok out).
Proof.
  intros R HR HF HO H. destruct (reachable_sane _ _ _ HR) as [S1 _]. pose proof (reachable_wf _ _ S1) as HW. unfold audit in *. cbv zeta in *.
  match type of H with context [match ?p with Ok _ => _ | Err _ => _ end = _] => destruct p as [rows|e] end; [|apply pair_equal_spec in H; destruct H as [_ H]; discriminate H].
  destruct (audit_loop E sv b _) as [b2 [o|e]] eqn:Hl; [|apply pair_equal_spec in H; destruct H as [_ H]; discriminate H].
  rewrite (runs_loop E E' sv _ R b b2 o HW HF HO Hl). exact H.
Qed.
Lemma runs_audit_used {I} E E' sv k A w t b (X : list (I * list fl)) y b' out : other_run E E' -> aset_reachable E A -> auditor_used E sv k A w t b -> order_free A w ->
  audit E sv b X y = (b', Ok out) -> audit E' sv b X y = (b', Ok out).
Proof.
  intros R HA HU HO. destruct (used_fresh _ _ _ _ _ _ _ HA HU) as (K1 & F & FM). apply runs_audit; [exact R|exact K1| |]; rewrite (fr_w _ _ _ _ _ _ _ F); [exact FM|]. eapply order_free_sbf; [apply F|exact HO].
Qed.
Lemma runs_populate E E' sv srt k A x w t f fuel total et ct f' : other_run E E' -> aset_reachable E A -> flipset_reachable E sv srt k A x w t None f ->
  alignment_known A = false \/ flips_match A w -> order_free A w ->
  f_populate E sv srt fuel total et ct f = Some (f', Ok tt) -> f_populate E' sv srt fuel total et ct f = Some (f', Ok tt).
Proof.
  intros R HA (f0 & ops & HC & ->) HF HO. destruct (frame_created _ _ _ _ _ _ _ HC) as (F & _). apply (frame_run E sv srt k A x w t ops) in F. set (f := flipset_run E sv srt f0 ops) in *. clearbody f.
  unfold f_populate. destruct F. rewrite fm_A, fm_kind, fm_w, fm_t, fm_x. destruct (f_builder f) as [b|]; [auto|].
  destruct (mk_builder E k A (coef_args w t) ct (Some x)) as [b|e] eqn:Hb; [|intro H; injection H as _ H; discriminate H].
  rewrite (runs_create E E' k A _ w t ct (Some x) b R HA (coef_parse w t) HF HO Hb). auto.
Qed.

(** ** A verdict that depends on the order *)
Definition env_rev : env := {| kde := kde env0; nplog := nplog env0; set_order := @rev string |}.
Lemma rev_run : other_run env0 env_rev.
Proof. split; [exact env0_ok|]. split; [intro l; symmetry; apply Permutation_rev|]. split; reflexivity. Qed.
Definition x110 : list Qc := [z 1; z 1; z 0].
Definition w133 : list Qc := [z 1; z 3; z 3].
Definition ops_runs := [OIndexSet (IStr "a") "step_direction" (PInt (-1)); OIndexSet (IStr "b") "step_direction" (PInt (-1)); OAdd ["a"; "b"] (z 0) (z 1) (Some "one")].
Definition sc_runs E k ct := mk E tab3 ["a"; "b"; "c"] 1 ops_runs k w133 (- z 6) ct x110.
Definition runs_test (k : backend) (ct : cost_type) : bool :=
  sc_check (sc_runs env0 k ct) (fun b b0 => flipsb (bd_A b) w133 && fit_test b0 (fun r => match r with Some _ => true | None => false end) && x_test env_rev b x110 (fun r => match r with Some _ => false | None => true end)).
Lemma t1 : forallb (fun k => forallb (runs_test k) [CTotal; CLocal; CMax]) [CPX; PyMIP] = true.
Proof. vm_compute. reflexivity. Qed.
Lemma step_runs E E' A o : kde E' = kde E -> nplog E' = nplog E -> aset_step E' A o = aset_step E A o.
Proof. destruct E as [k l s], E' as [k' l' s']. cbn [kde nplog]. intros -> ->. destruct o; reflexivity. Qed.
Lemma reachable_runs E E' A : kde E' = kde E -> nplog E' = nplog E -> aset_reachable E A -> aset_reachable E' A.
Proof.
  intros Hk Hl (A0 & ops & HC & ->). exists A0, ops. split; [exact HC|]. unfold aset_run. clear HC. revert A0. induction ops as [|o ops IH]; intro A0; [reflexivity|]. cbn [fold_left]. rewrite (step_runs E E' A0 o Hk Hl). apply IH.
Qed.
Transparent sc_builder.
Lemma sc_builder_runs c b E' : kde E' = kde (sc_env c) -> nplog E' = nplog (sc_env c) -> sc_builder c = Ok b ->
  bd_kind b = sc_kind c /\ bd_w b = sc_w c /\ bd_cost b = sc_cost c /\ forall sv, builder_reachable E' sv b.
Proof.
  intros K L HB. unfold sc_builder in HB. bnd HB as A Hs. pose proof (sc_aset_reach _ _ Hs) as RA.
  pose proof (created_fresh _ _ _ _ _ _ _ _ RA (coef_parse (sc_w c) (sc_t c)) HB) as F. do 3 (split; [apply F|]). intro sv. exists b, []. split; [|reflexivity].
  exists (sc_kind c), A, (sc_args (sc_w c) (sc_t c)), (sc_cost c), None. split; [exact (reachable_runs _ E' A K L RA)|]. unfold mk_builder in *. exact HB.
Qed.
Opaque sc_builder.
Lemma runs_refuted : forall k ct, exists E' b b0 b0', other_run env0 E' /\ flips_match (bd_A b) (bd_w b) /\ bd_kind b = k /\ bd_cost b = ct /\
  (forall sv, assigned env0 sv b x110 b0 /\ assigned E' sv b x110 b0') /\
  forall sv, sound_solver sv -> finishing_solver sv -> (exists b1 s, fit sv b0 = Ok (b1, Some s)) /\ exists b1, fit sv b0' = Ok (b1, None).
Proof.
  intros k ct. assert (T : runs_test k ct = true).
  { pose proof t1 as T. rewrite forallb_forall in T. assert (Hk : In k [CPX; PyMIP]) by (destruct k; cbn; auto). specialize (T k Hk). rewrite forallb_forall in T. apply T. destruct ct; cbn; auto. }
  apply sc_check_ok in T. destruct T as (b & b0 & HR & T). apply andb_true_iff in T. destruct T as [T T3]. apply andb_true_iff in T. destruct T as [T1 T2].
  pose proof (sc_run_builder _ _ _ HR) as HB. pose proof (sc_assigned _ _ _ HR) as HA.
  assert (C : bd_kind b = k /\ bd_w b = w133 /\ bd_cost b = ct /\ forall sv, builder_reachable env_rev sv b).
  { exact (sc_builder_runs (sc_runs env0 k ct) b env_rev eq_refl eq_refl HB). }
  destruct C as (C1 & C2 & C3 & C4).
  assert (X : exists b0', set_x env_rev b x110 = (b0', Ok tt)).
  { unfold x_test in T3. destruct (set_x env_rev b x110) as [b0' [[]|e]]; [eauto|discriminate T3]. }
  destruct X as (b0' & Hx). exists env_rev, b, b0, b0'. split; [exact rev_run|]. split; [rewrite C2; now apply flipsb_ok|]. split; [exact C1|]. split; [exact C3|].
  split; [intro sv; split; [exact (HA sv)|split; [apply C4|exact Hx]]|]. intros sv HS HF. split.
  - destruct (sc_fit _ _ _ _ HR env0_ok T2 sv HS HF) as (b1 & [s|] & Hf & Ht); [eauto|discriminate Ht].
  - destruct rev_run as (_ & RE & _). destruct (x_test_ok env_rev sv b x110 _ RE HS HF (C4 sv) T3) as (b2 & b1 & [s|] & Hx' & Hf & Ht); [discriminate Ht|].
    assert (b2 = b0') by congruence. subst b2. eauto.
Qed.
(** Non-vacuity: constraints on useful features. *)
Definition usefulb (A : action_set) (w : list Qc) (j : nat) : bool :=
  match nth_error (as_elems A) j, nth_error w j with Some e, Some wj => e_actionable e && can_helpb (as_y A) wj (e_step_dir e) | _, _ => false end.
Lemma usefulb_ok A w j : usefulb A w j = true -> useful A w j.
Proof.
  unfold usefulb. destruct (nth_error (as_elems A) j) as [e|] eqn:He; [|discriminate]. destruct (nth_error w j) as [wj|] eqn:Hw; [|discriminate]. intro H. apply andb_true_iff in H. destruct H as [H1 H2].
  exists e, wj. split; [exact He|]. split; [exact Hw|]. split; [exact H1|now apply can_helpb_ok].
Qed.
Lemma order_free_all A w : forallb (usefulb A w) (seq 0 (length (as_elems A))) = true -> (forall j, constrained_at A j -> (j < length (as_elems A))%nat) -> order_free A w.
Proof. intros H L j j' Hj _ _. left. rewrite forallb_forall in H. apply usefulb_ok, H, in_seq. specialize (L j Hj). lia. Qed.
Lemma runs_case : forall k ct, exists E' b b0, bd_kind b = k /\ bd_cost b = ct /\ other_run env0 E' /\ set_order E' <> set_order env0 /\ flips_match (bd_A b) (bd_w b) /\ order_free (bd_A b) (bd_w b) /\ constrained_at (bd_A b) 0 /\ constrained_at (bd_A b) 1 /\
  (forall sv, assigned env0 sv b x100 b0).
Proof.
  intros k ct. assert (T : sc_check (sc_con k ct) (fun b b0 => flipsb (bd_A b) (bd_w b) && forallb (usefulb (bd_A b) (bd_w b)) (seq 0 (length (as_elems (bd_A b)))) && constrainedb (bd_A b) 0 && constrainedb (bd_A b) 1) = true) by (destruct k, ct; vm_compute; reflexivity).
  apply sc_check_ok in T. destruct T as (b & b0 & HR & T). do 3 (apply andb_true_iff in T; destruct T as [T ?]). pose proof (sc_assigned _ _ _ HR) as HA. destruct (sc_builder_runs (sc_con k ct) b env0 eq_refl eq_refl (sc_run_builder _ _ _ HR)) as (C1 & _ & C3 & _). exists env_rev, b, b0. split; [exact C1|]. split; [exact C3|]. split; [exact rev_run|]. split.
  { intro Q. assert (Q2 : set_order env_rev ["a"; "b"] = set_order env0 ["a"; "b"]) by (now rewrite Q). discriminate Q2. }
  split; [now apply flipsb_ok|]. split; [|split; [now apply constrainedb_ok|split; [now apply constrainedb_ok|exact HA]]].
  destruct (HA (fun _ _ => SInfeasible)) as [R _]. destruct (reachable_sane _ _ _ R) as [S1 _]. pose proof (reachable_wf _ _ S1) as HW.
  apply order_free_all; [assumption|]. intros j Hj. destruct (constrained_lt _ _ _ HW Hj) as (n & Hn). rewrite (wf_len _ _ HW). unfold as_len. apply nth_error_Some. congruence.
Qed.
