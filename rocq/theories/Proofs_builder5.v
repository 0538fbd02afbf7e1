(** Build information when every feature offers a change; user-level forms of C32, C34, C42. *)
From Verif Require Import Proofs_props_element Proofs_props_actionset Spec_recourse Proofs_mip Proofs_info Proofs_vec Proofs_build Proofs_enum Proofs_session Proofs_recourse Proofs_subset Proofs_exchange Proofs_far Proofs_concrete Proofs_builder Proofs_builder2 Proofs_builder3 Proofs_builder4.
#[local] Open Scope list_scope.
#[local] Open Scope Qc_scope.

Lemma map_fst_combine {B C} (l : list B) (m : list C) : length l = length m -> map fst (combine l m) = l.
Proof. revert m. induction l as [|a l IH]; intros [|c m] H; try discriminate H; [reflexivity|]. cbn. f_equal. apply IH. now injection H. Qed.

Lemma positions E A ct w x infos : ok_env E -> wf_aset E A -> all_offered A x -> get_build_info E A ct w x = Ok infos ->
  map i_idx infos = seq 0 (as_len A).
Proof.
  intros HOE HW HAll H. unfold get_build_info in H. cbv zeta in H. bnd H as grid Hg. bnd H as l Hl. bnd H as u Hu. injection H as <-.
  destruct (grid_spec _ _ _ _ HOE HW Hg) as (HL & [HN HG] & _ & _). pose proof (wf_len _ _ HW) as HLe. pose proof HW as ((_ & _ & Hnd) & _ & _).
  assert (HK : map fst grid = as_names A).
  { unfold feasible_grid in Hg. bnd Hg as u2 Hu2. bnd Hg as out Ho. apply passert_ok in Hu2. apply Nat.eqb_eq in Hu2.
    assert (HO : map fst out = as_names A).
    { rewrite filter_all in Ho.
      - apply mapM_ok in Ho. transitivity (map fst (combine (as_names A) (combine (as_elems A) x))).
        + clear -Ho. induction Ho as [|[n [e xj]] [m v] l l' H1 H2 IH]; [reflexivity|]. cbn in *. bnd H1 as v' Hv. injection H1 as -> ->. now rewrite IH.
        + apply map_fst_combine. rewrite combine_length. unfold as_len in *. lia.
      - intros [n [e xj]] Hin. apply In_nth_error in Hin. destruct Hin as (j & Hj). apply combine3_nth in Hj. destruct Hj as (_ & K2 & K3). cbn. unfold grid_included. now rewrite (proj1 (HAll _ _ _ K2 K3)). }
    destruct (r_cons (as_cons A)) as [|q0 qs] eqn:Ec; [injection Hg as <-; exact HO|].
    rewrite <- HO. eapply over_keys; [|exact Hg]. intros n Hn. rewrite HO.
    destruct (over_spec _ _ _ _ _ _ Hg) as (_ & H2 & _ & H4); [rewrite HO; exact Hnd|]. destruct (H4 n Hn) as (v & Hv). destruct (H2 n v Hv) as [[K _]|(_ & j & e & xj & K1 & _)]; [contradiction|]. eapply nth_error_In, K1. }
  apply mapM_ok in Hl.
  assert (HS : Forall2 (fun g o => exists i, o = Some i /\ index_of (fst g) (as_names A) = Some (i_idx i)) grid l).
  { apply Forall2_nth in Hl. destruct Hl as [HLl Hl]. apply Forall2_nth. split; [exact HLl|]. intros k [n [a c]] o Hk Ho. specialize (Hl _ _ _ Hk Ho). cbn [fst snd] in Hl.
    destruct (HG n (a, c) (nth_error_In _ _ Hk)) as (j & e & xj & d & K1 & K2 & K3 & K4 & K5). destruct (HAll _ _ _ K2 K3) as (_ & HR & v & P1 & P2 & P3).
    unfold make_info in Hl. destruct (Nat.ltb_spec (length a) 2) as [L|L].
    - exfalso. apply feasible_values_spec in K4. destruct K4 as (_ & Ea & _). cbv iota in Ea.
      assert (I1 : In v (feasible_x e xj d)) by (apply feasible_x_In; auto).
      assert (I2 : In xj (feasible_x e xj d)) by (apply feasible_x_In; [exact HR|]; split; [now left|]; intros _; apply improving_self).
      rewrite Ea, map_length in L. destruct (feasible_x e xj d) as [|v1 [|v2 r]]; [destruct I1| |cbn [length] in L; lia]. destruct I1 as [<-|[]], I2 as [->|[]]. now apply P3.
    - cbv zeta in Hl. bnd Hl as u1 U1. bnd Hl as idx Hidx. bnd Hl as cf Hcf. bnd Hl as xx Hxx. bnd Hl as kk Hkk. bnd Hl as u3 U3. injection Hl as <-. eexists. split; [reflexivity|]. cbn [fst i_idx].
      unfold of_option in Hidx. destruct (index_of n (as_names A)); congruence. }
  assert (HI : forall (m : nat) names, (forall k n, nth_error names k = Some n -> index_of n (as_names A) = Some (m + k)%nat) -> map fst grid = names ->
     map i_idx (flat_map (fun o => match o with Some i => [i] | None => [] end) l) = seq m (length names)).
  { clear -HS. induction HS as [|[n p] o grid l (i & -> & Hi) HS IH]; intros m names HK E.
    - cbn in E. subst. reflexivity.
    - cbn [map fst] in E. subst names. cbn [flat_map app map length seq]. f_equal.
      + specialize (HK 0%nat n eq_refl). cbn in Hi. rewrite Hi in HK. injection HK as ->. lia.
      + apply IH; [|reflexivity]. intros k n' Hk. rewrite (HK (S k) n' Hk). f_equal. lia. }
  unfold as_len. apply HI; [|exact HK]. intros k n Hk. now apply index_of_nodup.
Qed.
Lemma positions_nth infos n j : map i_idx infos = seq 0 n -> (j < n)%nat -> exists i, nth_error infos j = Some i /\ i_idx i = j.
Proof.
  intros H L. assert (Q : nth_error (map i_idx infos) j = Some j) by (rewrite H; rewrite nth_error_nth' with (d := 0%nat) by (rewrite seq_length; lia); now rewrite seq_nth by lia).
  rewrite nth_error_map in Q. destruct (nth_error infos j) as [i|]; [|discriminate Q]. exists i. split; [reflexivity|]. now injection Q.
Qed.

Section User.
Context (E : env) (sv : solver) (b : builder) (x : list Qc) (b0 : builder).
Context (HE : ok_env E) (HS : sound_solver sv) (HA : assigned E sv b x b0).
Lemma infos_all : all_offered (bd_A b) x -> forall ms, bd_mip b0 = Some ms -> length (ms_infos ms) = as_len (bd_A b).
Proof.
  intros HAll ms Hms. destruct (assigned_ready E sv b x b0 HE HA) as (ms' & R). assert (ms' = ms) by (pose proof (gd_mip _ _ _ (rd_good _ _ _ _ _ R)); congruence). subst ms'.
  assert (Q : map i_idx (ms_infos ms) = seq 0 (as_len (bd_A b))) by (eapply positions; eauto using rd_wf, rd_info).
  apply (f_equal (@length nat)) in Q. now rewrite map_length, seq_length in Q.
Qed.
(** Reported infeasible after a conclusive answer of the solver: nothing acceptable exists. *)
Lemma c42_user ms b1 a : density E -> log_ok E (bd_cost b) -> orderly E (bd_A b) (bd_w b) x -> flips_match (bd_A b) (bd_w b) -> regular E (bd_A b) x ->
  bd_mip b0 = Some ms -> conclusive (sv (bd_calls b0) (ms_mip ms)) -> fit sv b0 = Ok (b1, None) -> ~ acceptable b x a.
Proof.
  intros HD HL HU HFl HR Hms HC Hfit HAc. destruct (assigned_ready E sv b x b0 HE HA) as (ms' & R). pose proof (rd_good _ _ _ _ _ R) as G.
  assert (ms' = ms) by (pose proof (gd_mip _ _ _ G); congruence). subst ms'.
  destruct (helpful_choice E b x b0 HE ms a HD HL HU HFl HR R HAc) as (ch & Hch & _).
  destruct (fit_good sv b0 ms _ HS G) as (b1' & r & o & H1 & -> & _ & _ & _ & _ & _ & H). rewrite Hfit in H1. injection H1 as <- <-. exact (H HC ch Hch).
Qed.
(** Every change that is returned helps, unless the feature is under a constraint. *)
Lemma items_helpful l b1 s : session sv b0 l b1 -> In s l -> worthwhile (bd_A b) (bd_w b) (s_actions s).
Proof.
  intros Hs Hin. destruct (session_item E sv b x b0 HE HS HA _ _ _ Hs Hin) as (ms & ch & R & (Hc & _) & (Ha & _)).
  intros j wj aj Hw Hj Hne. rewrite Ha in Hj.
  assert (Lj : (j < as_len (bd_A b))%nat). { assert (Q : nth_error (avec (as_len (bd_A b)) (ms_infos ms) ch) j <> None) by congruence. apply nth_error_Some in Q. unfold avec in Q. now rewrite scatter_length in Q. }
  rewrite (avec_nth (ms_infos ms) (as_len (bd_A b)) ch j Lj) in Hj. apply (f_equal (fun o => match o with Some q => q | None => 0 end)) in Hj. cbn in Hj.
  destruct (info_at (ms_infos ms) j) as [i|] eqn:Ei; [|congruence]. apply info_at_Some in Ei. destruct Ei as [Hi Hij].
  destruct (info_ok_at _ _ _ _ _ _ _ (rd_ok _ _ _ _ _ R) Hi) as (e & xj & EN). pose proof (en_w _ _ _ _ _ _ _ _ EN) as Q. rewrite Hij in Q. assert (wj = i_coef i) by congruence. subst wj.
  assert (Hk : (0 < ch (i_idx i) < nopt i)%nat).
  { pose proof (Hc i Hi). pose proof (wfi' _ (rd_infos _ _ _ _ _ R) i Hi) as Wi. destruct (ch (i_idx i)) as [|k] eqn:Ek; [|lia]. rewrite <- Hij, Ek in Hj. rewrite (wi_a0 _ Wi) in Hj. congruence. }
  pose proof (en_dir _ _ _ _ _ _ _ _ EN) as HDir. pose proof (en_name _ _ _ _ _ _ _ _ EN) as Hnm. rewrite Hij in Hnm.
  destruct (constrained_dec E (bd_A b) j HE (rd_wf _ _ _ _ _ R)) as [HCo|HCo]; [now left|right].
  assert (HNC : ~ In (i_name i) (constrained_names E (as_cons (bd_A b)))) by (intro K; apply HCo; now apply (constrained_iff E (bd_A b) j _ HE (rd_wf _ _ _ _ _ R) Hnm)).
  specialize (HDir HNC _ Hk). rewrite Hij in *. subst aj.
  pose proof (rd_wf _ _ _ _ _ R) as HW. assert (HY : (as_y (bd_A b) = 1 \/ as_y (bd_A b) = -1)%Z) by apply HW.
  unfold attains. revert HDir. destruct (qsign_spec (i_coef i)) as [[S1 S2]|[[S1 S2]|[S1 S2]]]; rewrite S2; destruct HY as [-> | ->]; cbn; intro HDir.
  all: try (exfalso; apply (isclose0_false _ (en_coef _ _ _ _ _ _ _ _ EN)); exact S1).
  all: try (exfalso; apply (isclose0_false _ (en_coef _ _ _ _ _ _ _ _ EN)); exact S2).
  all: set (u := act i (ch j)) in *; set (v := i_coef i) in *; clearbody u v.
  all: try (apply mul_pos; assumption).
  all: try (assert (G1 : 0 < v * - u) by (apply mul_pos; qlra); replace (v * - u) with (- (v * u)) in G1 by ring; qlra).
  all: try (assert (G1 : 0 < - v * - u) by (apply mul_pos; qlra); replace (- v * - u) with (v * u) in G1 by ring; qlra).
  all: try (assert (G1 : 0 < - v * u) by (apply mul_pos; qlra); replace (- v * u) with (- (v * u)) in G1 by ring; qlra).
Qed.
Lemma fit_acceptable b1 s : fit sv b0 = Ok (b1, Some s) -> orderly E (bd_A b) (bd_w b) x -> flips_match (bd_A b) (bd_w b) -> acceptable b x (s_actions s).
Proof.
  intros Hf HO HFl. destruct (fit_some E sv b x b0 HE HS HA b1 s Hf) as (K1 & K2 & K3). split; [exact K1|]. split.
  - assert (Hses : session sv b0 ([s] ++ []) b1) by (eapply (ses_fit sv b0 b1 (Some s)); [exact Hf|constructor]). exact (items_helpful _ b1 s Hses (or_introl eq_refl)).
  - split; [exact K2|]. split; [exact K3|]. exact (fit_compliant E sv b x b0 HE HS HA b1 s Hf HO HFl).
Qed.
End User.

(** ** C35 *)
(** With cost type 'total' or 'local', assigning an individual without any possible change never succeeds. *)
Lemma c35_raises E sv b x : ok_env E -> builder_reachable E sv b -> bd_cost b <> CMax ->
  (forall a, permitted_action (bd_A b) x a -> n_changed a = 0%nat) -> snd (set_x E b x) <> Ok tt.
Proof.
  intros HE HB Hct HN HX. destruct (set_x E b x) as [b0 r] eqn:EX. cbn in HX. subst r. assert (HA : assigned E sv b x b0) by (split; assumption).
  destruct (assigned_ready E sv b x b0 HE HA) as (ms & R).
  assert (HI : exists i, In i (ms_infos ms)).
  { unfold set_x in EX. destruct (Nat.eqb _ _); [|apply pair_equal_spec in EX; destruct EX as [_ EX]; discriminate EX].
    destruct (build _ _ _ _ _ _ _ _ _) as [ms'|e] eqn:EB; [|apply pair_equal_spec in EX; destruct EX as [_ EX]; discriminate EX].
    apply pair_equal_spec in EX. destruct EX as [<- _]. pose proof (gd_mip _ _ _ (rd_good _ _ _ _ _ R)) as Q. cbn in Q. assert (ms' = ms) by congruence. subst ms'.
    unfold build in EB. bnd EB as infos Hi. bnd EB as subs Hs. cbv zeta in EB. destruct (bd_cost b); [| |congruence]; bnd EB as u Hu; injection EB as <-; cbn; destruct infos as [|i l]; try discriminate Hu; exists i; now left. }
  destruct HI as (i & Hi). pose proof (wfi' _ (rd_infos _ _ _ _ _ R) i Hi) as Wi.
  set (ch := fun j => if Nat.eqb j (i_idx i) then 1%nat else 0%nat).
  assert (Hn : forall i', In i' (ms_infos ms) -> (2 <= nopt i')%nat). { intros i' Hi'. apply (wi_len _ (wfi' _ (rd_infos _ _ _ _ _ R) i' Hi')). }
  assert (Hc : ch_ok (ms_infos ms) ch). { intros i' Hi'. unfold ch. specialize (Hn i' Hi'). destruct (Nat.eqb _ _); lia. }
  assert (HP : permitted_action (bd_A b) x (avec (as_len (bd_A b)) (ms_infos ms) ch)).
  { eapply avec_permitted; [exact (rd_ok _ _ _ _ _ R)|reflexivity|exact (rd_el _ _ _ _ _ R)|exact Hc]. }
  specialize (HN _ HP). assert (Lj : (i_idx i < as_len (bd_A b))%nat).
  { destruct (info_ok_at _ _ _ _ _ _ _ (rd_ok _ _ _ _ _ R) Hi) as (e & xj & EN). rewrite <- (rd_x _ _ _ _ _ R). apply nth_error_Some. rewrite (en_x _ _ _ _ _ _ _ _ EN). discriminate. }
  assert (Q : In (act i 1) (filter (fun v => negb (v =? 0)) (avec (as_len (bd_A b)) (ms_infos ms) ch))).
  { apply filter_In. split.
    - apply nth_error_In with (n := i_idx i). rewrite (avec_nth (ms_infos ms) (as_len (bd_A b)) ch _ Lj). rewrite (info_at_In _ _ (proj2 (rd_infos _ _ _ _ _ R)) Hi). unfold ch. now rewrite Nat.eqb_refl.
    - apply negb_true_iff. apply qeq_false. apply (wi_pos _ Wi). specialize (Hn i Hi). lia. }
  unfold n_changed in HN. destruct (filter _ _); [destruct Q|discriminate HN].
Qed.

(** With cost type 'max' and no constraints, an individual without any possible change is accepted. *)
Lemma np_insert_nil i (v : Qc) : np_insert [] i v = [v].
Proof. unfold np_insert. now rewrite firstn_nil, skipn_nil. Qed.
Lemma filter_le {B} (f : B -> bool) l : (length (filter f l) <= length l)%nat.
Proof. induction l as [|a l IH]; cbn; [lia|]. destruct (f a); cbn; lia. Qed.
Lemma still_short e xj : NoDup (e_grid e) -> (forall v, permitted e xj v -> v = xj) -> (length (feasible_x e xj true) <= 1)%nat.
Proof.
  intros HG HN. unfold feasible_x.
  set (x_new := if e_actionable e then _ else _). assert (L : (length x_new <= 1)%nat).
  { unfold x_new. clear x_new. destruct (e_actionable e) eqn:EA; [|cbn; lia].
    set (g := if (0 <? e_step_dir e)%Z then _ else _). assert (Hg : forall v, In v g -> v = xj).
    { intros v Hv. apply HN. right. split; [exact EA|]. unfold g in Hv. destruct (Z.ltb_spec 0 (e_step_dir e)); [|destruct (Z.ltb_spec (e_step_dir e) 0)].
      - apply filter_In in Hv. destruct Hv as [H1 H2]. qbool. split; [exact H1|]. split; [auto|lia].
      - apply filter_In in Hv. destruct Hv as [H1 H2]. qbool. split; [exact H1|]. split; [lia|auto].
      - split; [exact Hv|]. split; lia. }
    assert (Nd : NoDup g).
    { unfold g. destruct (0 <? e_step_dir e)%Z; [now apply NoDup_filter|]. destruct (e_step_dir e <? 0)%Z; [now apply NoDup_filter|exact HG]. }
    destruct (qmem xj g) eqn:Q.
    - destruct g as [|a [|c r]]; cbn; try lia. exfalso. inversion Nd as [|? ? N1 N2]; subst. apply N1. left. rewrite (Hg a), (Hg c); [reflexivity|right; now left|now left].
    - destruct g as [|a r].
      + rewrite np_insert_nil. cbn. lia.
      + exfalso. rewrite (Hg a (or_introl eq_refl)) in Q. cbn in Q. rewrite (proj2 (qeq_iff xj xj) eq_refl) in Q. discriminate Q. }
  destruct (e_flip e) as [f|]; [|exact L]. destruct (0 <? f)%Z; [|destruct (f <? 0)%Z; [|exact L]]; (eapply Nat.le_trans; [apply filter_le|exact L]).
Qed.
Lemma nothing_each A x j e xj v : length x = as_len A -> nothing_to_change A x -> nth_error (as_elems A) j = Some e -> nth_error x j = Some xj -> permitted e xj v -> v = xj.
Proof.
  intros L HN He Hx Hv. set (a := list_set j (v - xj) (repeat 0 (as_len A))).
  assert (Lj : (j < as_len A)%nat) by (rewrite <- L; apply nth_error_Some; congruence).
  assert (La : length a = as_len A) by (unfold a; now rewrite list_set_length, repeat_length).
  assert (Hj : nth_error a j = Some (v - xj)) by (unfold a; apply list_set_eq; now rewrite repeat_length).
  assert (HP : permitted_action A x a).
  { split; [exact La|]. intros k e' xk ak He' Hx' Ha. destruct (Nat.eq_dec k j) as [->|N].
    - assert (e' = e) by congruence. assert (xk = xj) by congruence. subst. replace ak with (v - xj) by congruence. now replace (xj + (v - xj)) with v by ring.
    - left. unfold a in Ha. rewrite list_set_neq in Ha by congruence. apply nth_error_In, repeat_spec in Ha. subst. ring. }
  specialize (HN _ HP). unfold n_changed in HN. destruct (Qc_eq_dec (v - xj) 0) as [Z|Z].
  - replace v with (v - xj + xj) by ring. rewrite Z. ring.
  - exfalso. assert (Q : In (v - xj) (filter (fun v => negb (v =? 0)) a)).
    { apply filter_In. split; [eapply nth_error_In, Hj|]. apply negb_true_iff. now apply qeq_false. }
    destruct (filter _ _); [destruct Q|discriminate HN].
Qed.
Lemma mapM_total {B C} (f : B -> res C) l : (forall b, In b l -> exists c, f b = Ok c) -> exists m, mapM f l = Ok m.
Proof.
  induction l as [|b l IH]; intro H; [exists []; reflexivity|]. destruct (H b (or_introl eq_refl)) as (c & Hc). destruct IH as (m & Hm); [intros; apply H; now right|].
  exists (c :: m). cbn. now rewrite Hc, Hm.
Qed.
Lemma c35_accepts E sv b x : ok_env E -> builder_reachable E sv b -> bd_cost b = CMax -> unconstrained (bd_A b) ->
  length x = length (bd_w b) -> alignment_known (bd_A b) = true -> answers E (bd_A b) -> nothing_to_change (bd_A b) x ->
  snd (set_x E b x) = Ok tt.
Proof.
  intros HE HB Hct HU HL HAl HAns HN. destruct (reachable_sane E sv b HB) as (HW0 & Lw); pose proof (reachable_wf _ _ HW0) as HW. pose proof (wf_len _ _ HW) as HLe.
  unfold set_x. rewrite HL, Nat.eqb_refl. unfold build, get_build_info. cbv zeta.
  assert (Hg : exists grid, feasible_grid E (bd_A b) x true true true = Ok grid /\ Forall (fun p => (length (fst (snd p)) <= 1)%nat) grid).
  { unfold feasible_grid. rewrite HU. rewrite (proj2 (Nat.eqb_eq (length x) (as_len (bd_A b)))) by congruence. cbn [passert bind].
    set (q := filter _ _).
    assert (HQ : forall n e xj, In (n, (e, xj)) q -> exists v, feasible_values E e xj true true true = Ok v /\ (length (fst v) <= 1)%nat).
    { intros n e xj Hin. apply filter_In in Hin. destruct Hin as [Hin _]. apply In_nth_error in Hin. destruct Hin as (j & Hj). apply combine3_nth in Hj. destruct Hj as (_ & K2 & K3).
      unfold feasible_values. assert (e_aligned e = true) as -> by (unfold alignment_known in HAl; rewrite forallb_forall in HAl; apply HAl; eapply nth_error_In, K2). cbn [negb orb passert bind].
      destruct (mapM_total (percentile E e) (feasible_x e xj true)) as (ps & ->); [intros v _; now apply (HAns j)|]. cbn [bind]. eexists. split; [reflexivity|]. cbn [fst]. rewrite map_length.
      apply still_short.
      - destruct HW as (_ & _ & HE' & _). rewrite Forall_forall in HE'. pose proof (reachable_inv _ _ (HE' e (nth_error_In _ _ K2))) as I. apply (ssorted_lt_NoDup _ (inv_grid _ _ I)).
      - intros v Hv. apply (nothing_each (bd_A b) x j e xj v); [now rewrite HL, Lw|exact HN|exact K2|exact K3|exact Hv]. }
    destruct (mapM_total (fun q => let '(n, (e, xj)) := q in let! v := feasible_values E e xj true true true in Ok (n, v)) q) as (grid & Hgr).
    { intros [n [e xj]] Hin. destruct (HQ n e xj Hin) as (v & Hv & _). rewrite Hv. cbn. eauto. }
    rewrite Hgr. cbn [bind]. exists grid. split; [reflexivity|]. apply mapM_ok in Hgr. rewrite Forall_forall. intros p Hp. apply In_nth_error in Hp. destruct Hp as (k & Hk).
    apply Forall2_nth in Hgr. destruct Hgr as [LL Hgr]. destruct (nth_error q k) as [[n [e xj]]|] eqn:Eq.
    - specialize (Hgr _ _ _ Eq Hk). cbn in Hgr. destruct (HQ n e xj (nth_error_In _ _ Eq)) as (v & Hv & Hlen). rewrite Hv in Hgr. cbn in Hgr. injection Hgr as <-. exact Hlen.
    - apply nth_error_None in Eq. assert (k < length grid)%nat by (apply nth_error_Some; congruence). rewrite <- LL in *. lia. }
  destruct Hg as (grid & -> & HF). cbn [bind].
  assert (HM : mapM (fun p => make_info E (bd_cost b) (as_names (bd_A b)) (constrained_names E (as_cons (bd_A b))) (bd_w b) x (fst p) (fst (snd p)) (snd (snd p))) grid = Ok (map (fun _ => None) grid)).
  { clear -HF. induction HF as [|p grid Hp HF IH]; [reflexivity|]. cbn [mapM map]. unfold make_info at 1. destruct (Nat.ltb_spec (length (fst (snd p))) 2); [|lia]. cbn [bind]. now rewrite IH. }
  rewrite HM. cbn [bind]. assert (HZ : flat_map (fun o : option info => match o with Some i => [i] | None => [] end) (map (fun _ => None) grid) = []) by (clear; induction grid; auto).
  rewrite HZ. cbn [forallb passert bind]. rewrite HU, Hct. reflexivity.
Qed.
