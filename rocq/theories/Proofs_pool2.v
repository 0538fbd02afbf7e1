(** Proofs for C127: one list, divided. *)
From Verif Require Import Spec_pool Proofs_props_element Proofs_props_actionset Proofs_actionset Proofs_recourse Proofs_subset Proofs_concrete Proofs_scen Proofs_scen2 Proofs_flipset Proofs_flipset3 Proofs_builder Proofs_builder2 Proofs_builder3 Proofs_builder5 Proofs_builder6 Proofs_builder8 Proofs_shared Proofs_list2 Proofs_pool.
#[local] Open Scope list_scope.
#[local] Open Scope Qc_scope.

Lemma share_nth i : forall l p s, nth_error (share_of i l) p = Some s -> exists q et, nth_error l q = Some (Some i, (et, s)) /\ length (share_of i (firstn q l)) = p.
Proof.
  induction l as [|[o [et s0]] l IH]; intros p s H; [destruct p; discriminate H|]. unfold share_of in H. cbn [flat_map fst snd] in H. fold (share_of i l) in H.
  destruct o as [j|]; [destruct (Nat.eqb i j) eqn:Q; [apply Nat.eqb_eq in Q; subst j|]|].
  - destruct p as [|p]; cbn in H.
    + injection H as <-. exists 0%nat, et. split; reflexivity.
    + destruct (IH p s H) as (q & et' & H1 & H2). exists (S q), et'. split; [exact H1|]. unfold share_of. cbn [firstn flat_map fst snd]. rewrite Nat.eqb_refl. cbn [app length]. f_equal. exact H2.
  - destruct (IH p s H) as (q & et' & H1 & H2). exists (S q), et'. split; [exact H1|]. unfold share_of. cbn [firstn flat_map fst snd]. rewrite Q. exact H2.
  - destruct (IH p s H) as (q & et' & H1 & H2). exists (S q), et'. split; [exact H1|]. exact H2.
Qed.
Lemma share_in i l s : In s (share_of i l) <-> exists et, In (Some i, (et, s)) l.
Proof.
  unfold share_of. rewrite in_flat_map. split.
  - intros ([[j|] [et v]] & H1 & H2); cbn [fst snd] in H2; [|destruct H2]. destruct (Nat.eqb_spec i j) as [<-|]; [|destruct H2]. destruct H2 as [<-|[]]. eauto.
  - intros (et & H). exists (Some i, (et, s)). split; [exact H|]. cbn [fst snd]. rewrite Nat.eqb_refl. now left.
Qed.
Lemma rules_sym et a a' : rules_out et a a' -> rules_out et a' a.
Proof. destruct et; cbn [rules_out]; [intros (n & H1 & H2); exists n; auto|]. intros H n. symmetry. apply H. Qed.

Section Pool.
Context (E : env) (sv : solver) (srt : sorter) (b : builder) (x : list Qc) (b0 : builder) (ops : list pool_op).
Context (HE : ok_env E) (HS : sound_solver sv) (HA : assigned E sv b x b0) (HD : denied (as_y (bd_A b)) (score (bd_w b) (bd_t b) x)).
Context (HO : Forall (one_person b x) ops).
#[local] Notation s := (pool_run E sv srt {| po_b := b0; po_f := [] |} ops).

Lemma pool_one_list : exists l, enumeration sv b0 (map snd l) (po_b s) /\ (forall i f, nth_error (po_f s) i = Some f -> f_items f = map filed (share_of i l)) /\
  forall et, Forall (enumerates et) ops -> Forall (fun d => fst (snd d) = et) l.
Proof.
  destruct (together_start E sv srt b x b0 HE HS HA HD ops HO) as (l & (T1 & T2 & _) & K & _). exists l. split; [exact T1|]. split; [|exact K].
  intros i f Hi. now destruct (T2 i f Hi) as (_ & _ & Q).
Qed.
Lemma pool_permitted i f v : nth_error (po_f s) i = Some f -> In v (f_items f) ->
  permitted_action (bd_A b) x (fi_actions v) /\ on_side (as_y (bd_A b)) (score (bd_w b) (bd_t b) (vadd x (fi_actions v))).
Proof.
  intros Hi Hv. destruct pool_one_list as (l & T1 & T2 & _). rewrite (T2 i f Hi) in Hv. apply in_map_iff in Hv. destruct Hv as (r & <- & Hr). apply share_in in Hr. destruct Hr as (et & Hr).
  destruct (enumeration_session _ _ _ _ T1) as (ls & Hs & HIn). assert (Hin : In r ls) by (apply (HIn (et, r)); change (et, r) with (snd (Some i, (et, r))); now apply in_map).
  cbn [filed fi_actions]. split; [exact (c25_thm E sv b x b0 ls _ r HE HS HA Hs Hin)|exact (c26_thm E sv b x b0 ls _ r HE HS HA Hs Hin)].
Qed.
Lemma pool_distinct et i j f g p q v v' : Forall (enumerates et) ops -> (bd_kind b = CPX -> et = DistinctSubsets -> switches_off E (bd_A b) x) ->
  nth_error (po_f s) i = Some f -> nth_error (po_f s) j = Some g -> nth_error (f_items f) p = Some v -> nth_error (f_items g) q = Some v' -> (i <> j \/ p <> q) ->
  ~ rules_out et (fi_actions v) (fi_actions v').
Proof.
  intros HT HX Hi Hj Hp Hq HN. destruct pool_one_list as (l & T1 & T2 & T3). specialize (T3 et HT). rewrite Forall_forall in T3. rewrite (T2 i f Hi), nth_error_map in Hp. rewrite (T2 j g Hj), nth_error_map in Hq.
  destruct (nth_error (share_of i l) p) as [r|] eqn:Er; [|discriminate Hp]. destruct (nth_error (share_of j l) q) as [r'|] eqn:Er'; [|discriminate Hq]. injection Hp as <-. injection Hq as <-. cbn [filed fi_actions].
  destruct (share_nth _ _ _ _ Er) as (m & e1 & M1 & M2). destruct (share_nth _ _ _ _ Er') as (m' & e2 & M1' & M2').
  assert (N : m <> m'). { intro Q. subst m'. rewrite M1 in M1'. injection M1' as Q1 _ _. subst j. destruct HN as [HN|HN]; apply HN; congruence. }
  pose proof (T3 _ (nth_error_In _ _ M1)) as E1. pose proof (T3 _ (nth_error_In _ _ M1')) as E2. cbn in E1, E2. subst e1 e2.
  assert (K : nth_error (map snd l) m = Some (et, r)) by (rewrite nth_error_map; change (option nat * (enum_type * sol))%type with delivery; rewrite M1; reflexivity). assert (K' : nth_error (map snd l) m' = Some (et, r')) by (rewrite nth_error_map; change (option nat * (enum_type * sol))%type with delivery; rewrite M1'; reflexivity).
  destruct (Nat.lt_trichotomy m m') as [L|[L|L]]; [exact (c36_37 E sv b x b0 HE HS HA _ _ m m' et r et r' T1 L K K' HX)|contradiction|].
  intro R. apply rules_sym in R. exact (c36_37 E sv b x b0 HE HS HA _ _ m' m et r' et r T1 L K' K HX R).
Qed.

(** Exhaustion. *)
Section Complete.
Context (HF : finishing_solver sv) (HDe : density E) (HL : log_ok E (bd_cost b)).
Context (HOr : orderly E (bd_A b) (bd_w b) x) (HFl : flips_match (bd_A b) (bd_w b)) (HR : regular E (bd_A b) x) (HX : bd_kind b = CPX -> switches_off E (bd_A b) x).
Lemma enum_acceptable l c et r : enumeration sv b0 l c -> In (et, r) l -> acceptable b x (s_actions r).
Proof.
  intros H Hin. destruct (enumeration_session _ _ _ _ H) as (ls & Hs & HIn). apply HIn in Hin. cbn [snd] in Hin.
  split; [exact (c25_thm E sv b x b0 ls c r HE HS HA Hs Hin)|]. split; [exact (items_helpful E sv b x b0 HE HS HA ls c r Hs Hin)|].
  destruct (c31 E sv b x b0 HE HS HA ls c r Hs Hin) as [K _]. split; [exact K|]. split; [exact (c26_thm E sv b x b0 ls c r HE HS HA Hs Hin)|]. exact (session_compliant E sv b x b0 HE HS HA ls c r Hs Hin HOr HFl).
Qed.
Lemma nothing_left l c fuel total et l2 c2 fuel' total' et' l3 c3 : enumeration sv b0 l c -> populate sv fuel total et c = Some (Ok (c2, l2)) -> total <> Some (length l2) ->
  populate sv fuel' total' et' c2 = Some (Ok (c3, l3)) -> l3 = [].
Proof.
  intros H Hp Ht Hp3. destruct l3 as [|r l3]; [reflexivity|exfalso].
  pose proof (enumeration_trans _ _ _ _ H _ _ (populate_enum _ _ _ _ _ _ _ Hp)) as H2. pose proof (enumeration_trans _ _ _ _ H2 _ _ (populate_enum _ _ _ _ _ _ _ Hp3)) as H3.
  assert (Ac : acceptable b x (s_actions r)). { apply (enum_acceptable _ _ et' r H3). apply in_app_iff. right. now left. }
  destruct (c39_exh_thm E sv b x b0 l c fuel total et l2 c2 (s_actions r) HE HS HF HDe HL HA HOr HFl HR HX H Hp Ht Ac) as (e1 & r1 & I1 & R1).
  apply In_nth_error in I1. destruct I1 as (m & I1). set (l12 := l ++ map (pair et) l2) in *.
  assert (Lm : (m < length l12)%nat) by (apply nth_error_Some; congruence).
  refine (c36_37 E sv b x b0 HE HS HA _ _ m (length l12) e1 r1 et' r H3 Lm _ _ _ R1).
  - rewrite nth_error_app1 by exact Lm. exact I1.
  - rewrite nth_error_app2 by lia. rewrite Nat.sub_diag. reflexivity.
  - intros Q _. exact (HX Q).
Qed.
Lemma pool_populated i f fuel total et ct f' : nth_error (po_f s) i = Some f -> f_populate E sv srt fuel total et ct f = Some (f', Ok tt) ->
  exists l c l2, enumeration sv b0 (map snd l) (po_b s) /\ (forall i f, nth_error (po_f s) i = Some f -> kept b x (po_b s) l i f) /\ (forall i, (length (po_f s) <= i)%nat -> share_of i l = []) /\
    populate sv fuel total et (po_b s) = Some (Ok (c, l2)) /\ f_items f' = f_items f ++ map filed l2 /\ f_builder f' = Some c /\ (forall et, Forall (enumerates et) ops -> Forall (fun d => fst (snd d) = et) l) /\ (Forall through_flipsets ops -> Forall (fun d => exists i, fst d = Some i) l).
Proof.
  intros Hi Hf. destruct (together_start E sv srt b x b0 HE HS HA HD ops HO) as (l & (T1 & T2 & T3) & K & J). pose proof (T2 i f Hi) as KF.
  destruct (populate sv fuel total et (po_b s)) as [[[c l2]|e]|] eqn:Ep.
  - destruct (call_populate E sv srt b x b0 HE HS HA HD l _ i f fuel total et ct c l2 T1 KF Ep) as (f1 & r & Q1 & Q2 & Q3 & _). rewrite Q1 in Hf. injection Hf as -> _. exists l, c, l2. repeat (split; [first [assumption|reflexivity]|]). exact J.
  - unfold f_populate in Hf. rewrite (proj1 KF), Ep in Hf. discriminate Hf.
  - unfold f_populate in Hf. rewrite (proj1 KF), Ep in Hf. discriminate Hf.
Qed.
Lemma pool_exhausted i f fuel total et ct f' : nth_error (po_f s) i = Some f -> f_populate E sv srt fuel total et ct f = Some (f', Ok tt) ->
  total <> Some (length (f_items f') - length (f_items f))%nat ->
  forall j g fuel' total' et' ct' g' r, nth_error (po_f (pool_step E sv srt s (PUse i (FPopulate fuel total et ct)))) j = Some g -> f_populate E sv srt fuel' total' et' ct' g = Some (g', r) -> f_items g' = f_items g.
Proof.
  intros Hi Hf Ht j g fuel' total' et' ct' g' r Hj Hg. destruct (pool_populated i f fuel total et ct f' Hi Hf) as (l & c & l2 & T1 & T2 & T3 & Hp & Ei & Eb & _ & _).
  assert (Ht2 : total <> Some (length l2)). { rewrite Ei, app_length, map_length in Ht. replace (length (f_items f) + length l2 - length (f_items f))%nat with (length l2) in Ht by lia. exact Ht. }
  assert (T : together sv b x b0 s l) by (split; [exact T1|split; assumption]).
  destruct (together_step E sv srt b x b0 HE HS HA HD s l (PUse i (FPopulate fuel total et ct)) T I) as (l3 & (U1 & U2 & _) & _ & _).
  assert (EC : po_b (pool_step E sv srt s (PUse i (FPopulate fuel total et ct))) = c). { cbn [pool_step]. rewrite Hi. cbn [flipset_step]. rewrite Hf. cbn [lend po_b]. unfold behind. now rewrite Eb. }
  pose proof (U2 j g Hj) as KG. rewrite EC in *. destruct (populate sv fuel' total' et' c) as [[[c3 l4]|e]|] eqn:Ep.
  - destruct (call_populate E sv srt b x b0 HE HS HA HD (l ++ l3) c j g fuel' total' et' ct' c3 l4 U1 KG Ep) as (g1 & r1 & Q1 & _ & Q3 & _). rewrite Q1 in Hg. injection Hg as -> _. rewrite Q3.
    rewrite (nothing_left _ _ fuel total et l2 c fuel' total' et' l4 c3 T1 Hp Ht2 Ep). now rewrite app_nil_r.
  - unfold f_populate in Hg. rewrite (proj1 KG), Ep in Hg. injection Hg as <- _. reflexivity.
  - unfold f_populate in Hg. rewrite (proj1 KG), Ep in Hg. discriminate Hg.
Qed.
Lemma pool_complete i f fuel total et ct f' a : Forall through_flipsets ops -> Forall (enumerates et) ops -> nth_error (po_f s) i = Some f -> f_populate E sv srt fuel total et ct f = Some (f', Ok tt) ->
  total <> Some (length (f_items f') - length (f_items f))%nat -> acceptable b x a ->
  exists v, rules_out et (fi_actions v) a /\ (In v (f_items f') \/ exists j g, j <> i /\ nth_error (po_f s) j = Some g /\ In v (f_items g)).
Proof.
  intros HTh HEn Hi Hf Ht Ha. destruct (pool_populated i f fuel total et ct f' Hi Hf) as (l & c & l2 & T1 & T2 & T3 & Hp & Ei & Eb & K & J). specialize (K et HEn). specialize (J HTh). rewrite Forall_forall in K, J.
  assert (Ht2 : total <> Some (length l2)). { rewrite Ei, app_length, map_length in Ht. replace (length (f_items f) + length l2 - length (f_items f))%nat with (length l2) in Ht by lia. exact Ht. }
  destruct (c39_exh_thm E sv b x b0 _ _ fuel total et l2 c a HE HS HF HDe HL HA HOr HFl HR HX T1 Hp Ht2 Ha) as (e1 & r & I1 & R1). apply in_app_iff in I1. destruct I1 as [I1|I1].
  - apply in_map_iff in I1. destruct I1 as ([o [e2 r2]] & Q & I1). cbn [snd] in Q. injection Q as -> ->. pose proof (K _ I1) as Q. cbn in Q. subst e1. destruct (J _ I1) as (j & Q). cbn in Q. subst o. exists (filed r). split; [exact R1|].
    assert (Hin : In r (share_of j l)) by (apply share_in; eauto). destruct (nth_error (po_f s) j) as [g|] eqn:Hg; [|apply nth_error_None in Hg; rewrite (T3 j Hg) in Hin; destruct Hin].
    destruct (T2 j g Hg) as (_ & _ & EI). assert (Hv : In (filed r) (f_items g)) by (rewrite EI; now apply in_map).
    destruct (Nat.eq_dec j i) as [->|N]; [|right; eauto]. left. rewrite Ei. apply in_app_iff. left. rewrite Hi in Hg. now injection Hg as ->.
  - apply in_map_iff in I1. destruct I1 as (r2 & Q & I1). injection Q as <- <-. exists (filed r2). split; [exact R1|]. left. rewrite Ei. apply in_app_iff. right. now apply in_map.
Qed.
End Complete.
End Pool.

