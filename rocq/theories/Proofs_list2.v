(** The list of items a new flipset gets, continued (C126). *)
From Verif Require Import Proofs_props_element Proofs_props_actionset Spec_list Spec_minimal Proofs_mip Proofs_info Proofs_vec Proofs_build Proofs_enum Proofs_session Proofs_recourse Proofs_subset Proofs_exchange Proofs_concrete Proofs_builder Proofs_builder2 Proofs_builder3 Proofs_builder4 Proofs_builder5 Proofs_builder6 Proofs_builder7 Proofs_builder8 Proofs_flipset Proofs_flipset2 Proofs_flipset3 Proofs_agree Proofs_minimal Proofs_list.
#[local] Open Scope list_scope.
#[local] Open Scope Qc_scope.

Lemma sbf_y A A1 : same_but_flips A A1 -> as_y A1 = as_y A.
Proof. intro SB. unfold same_but_flips in SB. tauto. Qed.
Lemma sbf_switches E A A1 x : same_but_flips A A1 -> switches_off E A x -> switches_off E A1 x.
Proof.
  intros SB H j e1 xj v n Hn HI He1 Hx Hp HP. destruct (sbf_elem _ _ _ _ SB He1) as (e & fl & He & ->).
  assert (EN : as_names A1 = as_names A /\ as_cons A1 = as_cons A) by (unfold same_but_flips in SB; tauto). destruct EN as [EN EC]. rewrite EN in Hn. rewrite EC in HI.
  exact (H j e xj v n Hn HI He Hx Hp HP).
Qed.
Lemma sbf_worth A A1 w a : same_but_flips A A1 -> worthwhile A w a -> worthwhile A1 w a.
Proof. intros SB H j wj aj H1 H2 H3. rewrite (sbf_y _ _ SB). destruct (H j wj aj H1 H2 H3) as [K|K]; [left; now apply (sbf_constrained _ _ j SB)|now right]. Qed.
Lemma populate_session sv b fuel total et b' l : populate sv fuel total et b = Some (Ok (b', l)) -> session sv b l b'.
Proof. intro H. rewrite <- (app_nil_r l). eapply ses_populate; [exact H|constructor]. Qed.
Lemma populate_enum sv b fuel total et b' l : populate sv fuel total et b = Some (Ok (b', l)) -> enumeration sv b (map (pair et) l) b'.
Proof. intro H. rewrite <- (app_nil_r (map _ l)). eapply en_populate; [exact H|constructor]. Qed.

(** What builder-level lists give for all ways. *)
Lemma trim_acceptable E k A w t ct b x a : ok_env E -> aset_reachable E A -> fresh E k A w t ct b -> length x = as_len A -> denied (as_y A) (score w t x) ->
  reaches A w t x a -> acceptable b x (trim E A w a).
Proof.
  intros HE HA F Lx HD (R1 & R2 & R3). pose proof (reachable_wf _ _ HA) as WF. pose proof (fr_len _ _ _ _ _ _ _ F) as Lw. pose proof (fr_sbf _ _ _ _ _ _ _ F) as SB.
  pose proof (trim_permitted E A w x Lw Lx a R1) as T1. pose proof (trim_side E A w x t Lw Lx a R1 R3) as T3.
  split; [now apply (sbf_permitted _ _ x _ SB)|]. rewrite (fr_w _ _ _ _ _ _ _ F), (fr_t _ _ _ _ _ _ _ F), (sbf_y _ _ SB).
  split; [apply (sbf_worth A); [exact SB|]; now apply (trim_worthwhile E A w x)|]. split; [|split; [exact T3|]].
  - unfold size_between. rewrite (fr_min _ _ _ _ _ _ _ F), (fr_max _ _ _ _ _ _ _ F).
    pose proof (changed_actionable A x (trim E A w a) (fr_elems _ _ _ _ _ _ _ F) Lx T1) as K.
    assert (N : (1 <= n_changed (trim E A w a))%nat).
    { destruct (n_changed (trim E A w a)) eqn:Z; [|lia]. exfalso. apply HD. replace x with (vadd x (trim E A w a)) at 1; [exact T3|].
      unfold n_changed in Z. apply length_zero_iff_nil in Z. pose proof (trim_len E A w x Lw Lx a) as TL. destruct R1 as [RL _]. rewrite RL in TL.
      assert (LL : length (trim E A w a) = length x) by (exact (eq_trans TL (eq_sym Lx))). clear -Z LL. revert x LL. induction (trim E A w a) as [|q l IH]; intros [|p x] LL; cbn in *; try discriminate LL; [reflexivity|].
      destruct (qeq_spec q 0) as [->|N]; [|discriminate Z]. cbn in Z. rewrite (IH Z x) by lia. f_equal. ring. }
    lia.
  - apply (sbf_compliant _ _ x _ SB). now apply (trim_compliant E A w x HE WF Lw Lx).
Qed.
Lemma covers_of E A w x et a a' : length w = as_len A -> length x = as_len A -> permitted_action A x a' -> rules_out et a (trim E A w a') -> covers et a a'.
Proof.
  intros Lw Lx HP. destruct et; cbn [rules_out covers].
  - intros (j & H1 & H2). exists j. split; [exact H1|]. exact (trim_changes E A w x Lw Lx a' j HP H2).
  - intros H j Hj. apply H in Hj. exact (trim_changes E A w x Lw Lx a' j HP Hj).
Qed.

Section List.
Context (E : env) (sv : solver) (srt : sorter) (k : backend) (A : action_set) (x w : list Qc) (t : Qc) (f f' : flipset) (fuel : nat) (total : option nat) (et : enum_type) (ct : cost_type).
Context (HE : ok_env E) (HS : sound_solver sv) (HF : finishing_solver sv) (HSr : ok_sorter srt) (HA : aset_reachable E A) (HFl : alignment_known A = false \/ flips_match A w).
Context (HD : denied (as_y A) (score w t x)) (HT : total <> Some 0%nat) (Hfu : (2 ^ as_len A < fuel)%nat) (HC : flipset_created k A x w t None f) (HP : f_populate E sv srt fuel total et ct f = Some (f', Ok tt)).

Lemma list_source : exists b b0 b1 l, fresh E k A w t ct b /\ flips_match (bd_A b) w /\ assigned E sv b x b0 /\ populate sv fuel total et b0 = Some (Ok (b1, l)) /\ f_items f' = map filed l /\ length x = as_len A.
Proof.
  assert (FR : flipset_reachable E sv srt k A x w t None f) by (exists f, []; split; [exact HC|reflexivity]).
  assert (F0 : f_builder f = None /\ f_items f = [] /\ scalar_keys (f_by f)). { pose proof HC as (a & Pa & HCr). unfold mk_flipset in HCr. rewrite Pa in HCr. cbn [bind] in HCr. injection HCr as <-. repeat split. }
  destruct F0 as (F1 & F2 & F3).
  destruct (c45 E sv srt k A x w t f fuel total et ct HE HS HSr HA FR HD F3 HT Hfu) as [(e & _ & _ & K)|(b0 & b1 & l & f1 & K1 & K2 & K3 & K4 & K5)]; [rewrite K in HP; discriminate HP|].
  pose proof HP as HP'. rewrite K3 in HP'. injection HP' as <-. destruct K1 as [K1|[_ K1]]; [congruence|].
  destruct (created_own E sv k A x w t ct b0 HA K1) as (b & Fb & HAs). exists b, b0, b1, l. split; [exact Fb|]. split; [exact (fr_flips _ _ _ _ _ _ _ Fb HFl)|]. split; [exact HAs|]. split; [exact K2|].
  split; [rewrite K4, F2; reflexivity|]. destruct (assigned_ready _ _ _ _ _ HE HAs) as (ms & R). rewrite (rd_x _ _ _ _ _ R). exact (sbf_len _ _ (fr_sbf _ _ _ _ _ _ _ Fb)).
Qed.
Lemma list_ways v : orderly E A w x -> In v (f_items f') -> reaches A w t x (fi_actions v) /\ flips w t x (fi_actions v) /\
  exists c cs, fi_cost v = Fin c /\ action_costs E ct A x (fi_actions v) cs /\ overall_cost ct cs c.
Proof.
  intros HO Hv. destruct list_source as (b & b0 & b1 & l & Fb & FM & HAs & Hp & El & Lx). rewrite El in Hv. apply in_map_iff in Hv. destruct Hv as (s & <- & Hs). cbn [filed fi_actions fi_cost].
  pose proof (populate_session _ _ _ _ _ _ _ Hp) as Ses. pose proof (fr_sbf _ _ _ _ _ _ _ Fb) as SB. pose proof (fr_w _ _ _ _ _ _ _ Fb) as Ew. pose proof (fr_t _ _ _ _ _ _ _ Fb) as Et.
  assert (O : on_side (as_y A) (score w t (vadd x (s_actions s)))). { pose proof (c26_thm E sv b x b0 l b1 s HE HS HAs Ses Hs) as K. now rewrite Ew, Et, (sbf_y _ _ SB) in K. }
  split; [split; [|split; [|exact O]]|].
  - apply (sbf_permitted _ _ x _ SB). exact (proj1 (c25_thm E sv b x b0 l b1 s HE HS HAs Ses Hs)) || exact (c25_thm E sv b x b0 l b1 s HE HS HAs Ses Hs).
  - apply (sbf_compliant _ _ x _ SB). apply (session_compliant E sv b x b0 HE HS HAs l b1 s Ses Hs).
    + rewrite Ew. now apply (sbf_orderly E A).
    + now rewrite Ew.
  - split; [now apply (denied_flips (as_y A))|]. exists (s_cost s), (s_costs s). split; [reflexivity|]. pose proof (fr_cost _ _ _ _ _ _ _ Fb) as Ec. rewrite <- Ec. split.
    + apply (sbf_costs' E _ A (bd_A b)); [exact SB|]. exact (item_costs E sv b x b0 HE HS HAs l b1 s Ses Hs).
    + exact (item_total E sv b x b0 HE HS HAs l b1 s Ses Hs (fun _ => HF)).
Qed.
Lemma list_distinct i j v v' : (k = CPX -> switches_off E A x) -> (i < j)%nat -> nth_error (f_items f') i = Some v -> nth_error (f_items f') j = Some v' -> ~ rules_out et (fi_actions v) (fi_actions v').
Proof.
  intros HX Hij Hi Hj. destruct list_source as (b & b0 & b1 & l & Fb & FM & HAs & Hp & El & Lx). rewrite El, nth_error_map in Hi, Hj.
  destruct (nth_error l i) as [s|] eqn:Ei; [|discriminate Hi]. destruct (nth_error l j) as [s'|] eqn:Ej; [|discriminate Hj]. injection Hi as <-. injection Hj as <-. cbn [filed fi_actions].
  pose proof (populate_enum _ _ _ _ _ _ _ Hp) as En.
  refine (c36_37 E sv b x b0 HE HS HAs (map (pair et) l) b1 i j et s et s' En Hij _ _ _); [now rewrite nth_error_map, Ei|now rewrite nth_error_map, Ej|].
  intros Q _. apply (sbf_switches E A); [exact (fr_sbf _ _ _ _ _ _ _ Fb)|]. apply HX. now rewrite <- (fr_kind _ _ _ _ _ _ _ Fb).
Qed.
Lemma list_sorted i j v v' c c' : ct <> CMax -> (i < j)%nat -> nth_error (f_items f') i = Some v -> nth_error (f_items f') j = Some v' -> fi_cost v = Fin c -> fi_cost v' = Fin c' -> c <= c'.
Proof.
  intros Hct Hij Hi Hj Hc Hc'. destruct list_source as (b & b0 & b1 & l & Fb & FM & HAs & Hp & El & Lx). rewrite El, nth_error_map in Hi, Hj.
  destruct (nth_error l i) as [s|] eqn:Ei; [|discriminate Hi]. destruct (nth_error l j) as [s'|] eqn:Ej; [|discriminate Hj]. injection Hi as <-. injection Hj as <-. cbn [filed fi_cost] in *.
  injection Hc as <-. injection Hc' as <-. pose proof (populate_enum _ _ _ _ _ _ _ Hp) as En.
  apply (c38_mono_thm E sv b x b0 (map (pair et) l) b1 i j et s et s' HE HS HF HAs); [now rewrite (fr_cost _ _ _ _ _ _ _ Fb)|exact En|exact Hij|now rewrite nth_error_map, Ei|now rewrite nth_error_map, Ej].
Qed.
Lemma list_cheapest i v c a cs : density E -> log_ok E ct -> orderly E A w x -> regular E A x -> (k = CPX -> switches_off E A x) -> ct <> CMax ->
  nth_error (f_items f') i = Some v -> fi_cost v = Fin c -> reaches A w t x a -> (forall i' v', (i' < i)%nat -> nth_error (f_items f') i' = Some v' -> ~ covers et (fi_actions v') a) ->
  action_costs E ct A x a cs -> c <= qsum cs.
Proof.
  intros HDe HL HO HR HX Hct Hi Hc Ha Hn Hcs. destruct list_source as (b & b0 & b1 & l & Fb & FM & HAs & Hp & El & Lx). rewrite El, nth_error_map in Hi.
  destruct (nth_error l i) as [s|] eqn:Ei; [|discriminate Hi]. injection Hi as <-. cbn [filed fi_cost] in Hc. injection Hc as <-.
  pose proof (populate_enum _ _ _ _ _ _ _ Hp) as En. pose proof (fr_sbf _ _ _ _ _ _ _ Fb) as SB. pose proof (fr_cost _ _ _ _ _ _ _ Fb) as Ec. pose proof (fr_w _ _ _ _ _ _ _ Fb) as Ew. pose proof (fr_len _ _ _ _ _ _ _ Fb) as Lw.
  pose proof (trim_acceptable E k A w t ct b x a HE HA Fb Lx HD Ha) as Acc. pose proof Ha as (Ha1 & _).
  destruct (trim_costs E A w x (reachable_wf _ _ HA) Lw Lx ct a cs HDe HL HR Ha1 Hcs) as (cs' & C1 & C2). apply (Qcle_trans _ (qsum cs')); [|exact C2].
  apply (c38_best_thm E sv b x b0 (map (pair et) l) b1 i et s (trim E A w a) cs' HE HS HF HDe); rewrite ?Ec, ?Ew; try assumption.
  - now apply (sbf_orderly E A).
  - now apply (sbf_regular E A).
  - intro Q. apply (sbf_switches E A); [exact SB|]. apply HX. now rewrite <- (fr_kind _ _ _ _ _ _ _ Fb).
  - now rewrite nth_error_map, Ei.
  - intros i' et' s' Hi' Hs'. rewrite nth_error_map in Hs'. destruct (nth_error l i') as [s0|] eqn:E0; [|discriminate Hs']. injection Hs' as <- <-. intro Q.
    apply (Hn i' (filed s0) Hi'); [now rewrite El, nth_error_map, E0|]. cbn [filed fi_actions]. now apply (covers_of E A w x).
  - now apply (sbf_costs E ct A).
Qed.
Lemma list_complete a : density E -> log_ok E ct -> orderly E A w x -> regular E A x -> (k = CPX -> switches_off E A x) ->
  total <> Some (length (f_items f')) -> reaches A w t x a -> exists v, In v (f_items f') /\ covers et (fi_actions v) a.
Proof.
  intros HDe HL HO HR HX Hto Ha. destruct list_source as (b & b0 & b1 & l & Fb & FM & HAs & Hp & El & Lx). rewrite El, map_length in Hto.
  pose proof (fr_sbf _ _ _ _ _ _ _ Fb) as SB. pose proof (fr_cost _ _ _ _ _ _ _ Fb) as Ec. pose proof (fr_w _ _ _ _ _ _ _ Fb) as Ew. pose proof (fr_len _ _ _ _ _ _ _ Fb) as Lw.
  pose proof (trim_acceptable E k A w t ct b x a HE HA Fb Lx HD Ha) as Acc. pose proof Ha as (Ha1 & _).
  destruct (c39_exh_thm E sv b x b0 [] b0 fuel total et l b1 (trim E A w a) HE HS HF HDe) as (et' & s' & K1 & K2); rewrite ?Ec, ?Ew; try assumption.
  - now apply (sbf_orderly E A).
  - now apply (sbf_regular E A).
  - intro Q. apply (sbf_switches E A); [exact SB|]. apply HX. now rewrite <- (fr_kind _ _ _ _ _ _ _ Fb).
  - constructor.
  - cbn [app] in K1. apply in_map_iff in K1. destruct K1 as (s & Es & Hs). injection Es as <- <-. exists (filed s). split; [rewrite El; now apply in_map|]. cbn [filed fi_actions]. now apply (covers_of E A w x).
Qed.
Lemma list_size n : total = Some n -> (length (f_items f') <= n)%nat.
Proof.
  intro Q. destruct list_source as (b & b0 & b1 & l & Fb & FM & HAs & Hp & El & Lx). rewrite El, map_length. rewrite Q in Hp.
  exact (c40_count_thm E sv b x b0 [] n b0 b1 fuel et l HE HS HAs (en_done sv b0) Hp).
Qed.
End List.
