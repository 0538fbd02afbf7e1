(** Flipsets and their builder: cost type (C60), order of the flat table (C61), supplied builders (C62). *)
From Verif Require Import Proofs_props_element Proofs_props_actionset Spec_flipset Proofs_vec Proofs_flipset Proofs_flipset2 Proofs_flipset3 Proofs_flipset4.
From Verif Require Import Proofs_mip Proofs_info Proofs_build Proofs_enum Proofs_session Proofs_recourse Proofs_subset Proofs_exchange Proofs_far Proofs_concrete Proofs_builder Proofs_builder2 Proofs_builder3 Proofs_builder4 Proofs_builder5 Proofs_scen Proofs_scen2 Proofs_builder6 Proofs_builder7 Proofs_builder8.
#[local] Open Scope list_scope.
#[local] Open Scope Qc_scope.

(** ** C60 *)
Lemma c60_ignored E sv srt fuel total et ct ct' f : f_builder f <> None -> f_populate E sv srt fuel total et ct f = f_populate E sv srt fuel total et ct' f.
Proof. intro H. unfold f_populate. destruct (f_builder f); [reflexivity|now contradict H]. Qed.
(** The costs of an action are determined by it. *)
Lemma costs_det E ct A x a cs cs' : length (as_elems A) = as_len A -> length a = as_len A -> length x = as_len A -> action_costs E ct A x a cs -> action_costs E ct A x a cs' -> cs = cs'.
Proof.
  intros Le La Lx (L1 & H1) (L2 & H2). apply nth_error_ext_local. intro j. destruct (nth_error cs j) as [c|] eqn:Ec, (nth_error cs' j) as [c'|] eqn:Ec'; try reflexivity.
  - assert (Hj : (j < as_len A)%nat). { rewrite <- La, <- L1. apply nth_error_Some. congruence. }
    destruct (nth_error (as_elems A) j) as [e|] eqn:Ee; [|apply nth_error_None in Ee; lia].
    destruct (nth_error x j) as [xj|] eqn:Ex; [|apply nth_error_None in Ex; lia]. destruct (nth_error a j) as [aj|] eqn:Ea; [|apply nth_error_None in Ea; lia].
    specialize (H1 j e xj aj c Ee Ex Ea Ec). specialize (H2 j e xj aj c' Ee Ex Ea Ec').
    destruct H1 as [[Z1 ->]|[N1 (p & q & P1 & Q1 & ->)]], H2 as [[Z2 ->]|[N2 (p' & q' & P2 & Q2 & ->)]]; try congruence; try reflexivity.
    rewrite P1 in P2. rewrite Q1 in Q2. injection P2 as <-. injection Q2 as <-. reflexivity.
  - exfalso. apply nth_error_None in Ec'. assert (j < length cs)%nat by (apply nth_error_Some; congruence). lia.
  - exfalso. apply nth_error_None in Ec. assert (j < length cs')%nat by (apply nth_error_Some; congruence). lia.
Qed.
Lemma largest_exists cs : cs <> [] -> exists m, largest cs m.
Proof.
  induction cs as [|c cs IH]; [congruence|]. intros _. destruct cs as [|c' cs]; [exists c; split; [now left|]; intros ? [<-|[]]; apply Qcle_refl|].
  destruct IH as (m & Hm & Hle); [discriminate|]. destruct (Qclt_le_dec c m) as [L|L].
  - exists m. split; [now right|]. intros q [<-|Hq]; [now apply Qclt_le_weak|now apply Hle].
  - exists c. split; [now left|]. intros q [<-|Hq]; [apply Qcle_refl|]. eapply Qcle_trans; [now apply Hle|exact L].
Qed.
Lemma populate_filed E sv srt fuel total et ct f b b' l k A x w t : ok_sorter srt -> frame k A x w t f -> length x = as_len A -> length w = as_len A -> scalar_keys (f_by f) ->
  match f_builder f with Some b => Ok b | None => mk_builder E (f_kind f) (f_A f) (coef_args (f_w f) (f_t f)) ct (Some (f_x f)) end = Ok b ->
  populate sv fuel total et b = Some (Ok (b', l)) -> Forall2 (filable A x w t) (map sol_item l) (map filed l) ->
  exists f', f_populate E sv srt fuel total et ct f = Some (f', Ok tt) /\ f_items f' = f_items f ++ map filed l /\ f_builder f' = Some b' /\ frame k A x w t f' /\ f_by f' = f_by f.
Proof.
  intros HS F HLx HLw HK Hb Hp HF. unfold f_populate. rewrite Hb, Hp. set (g := f_with_builder f (Some b')). assert (Fg : frame k A x w t g) by now apply frame_builder.
  destruct (add_ok k A x w t HLx HLw eq_refl srt g (map sol_item l) (map filed l) Fg HF) as (rows & _ & Hadd). rewrite Hadd. destruct (map filed l) as [|v vs]; [eexists; split; [reflexivity|]; split; [reflexivity|]; split; [reflexivity|]; destruct Fg; split; [now constructor|reflexivity]|].
  unfold f_resort. cbn [f_by f_df f_with_items f_inplace]. change (f_by g) with (f_by f). destruct HS as (S1 & _). destruct (S1 (f_by f) (relabel (map snd (f_df g) ++ rows)) HK) as (d & Hd & _). rewrite Hd.
  eexists. split; [reflexivity|]. destruct Fg. destruct (f_inplace g); (split; [reflexivity|]); (split; [reflexivity|]); (split; [now constructor|reflexivity]).
Qed.

Definition x000 : list Qc := [z 0; z 0; z 0].
Definition w111 : list Qc := [z 1; z 1; z 1].
Definition pairs3 : list (list Qc) := [[z 1; z 1; z 0]; [z 1; z 0; z 1]; [z 0; z 1; z 1]; [z 1; z 1; z 1]].
Definition test60 (b b0 : builder) : bool :=
  regularb env0 (bd_A b) (bd_w b) x000 && Nat.eqb (length (as_elems (bd_A b))) 3 && Nat.eqb (as_len (bd_A b)) 3 && (as_y (bd_A b) =? 1)%Z &&
  forallb (fun e => forallb (fun v => (v =? 0) || (v =? 1)) (targets e (z 0))) (as_elems (bd_A b)) &&
  forallb (fun a => acceptableb b x000 a && costs_test env0 CTotal (bd_A b) x000 a (fun cs => match cs with [c1; c2; c3] => (c1 <? qsum cs) && (c2 <? qsum cs) && (c3 <? qsum cs) | _ => false end)) pairs3 &&
  pop_test b0 1 DistinctSubsets (fun _ => true).
Lemma c60_refuted : exists A x w t f, aset_reachable env0 A /\ as_y A = 1%Z /\ denied 1 (score w t x) /\ flipset_created PyMIP A x w t None f /\
  forall sv srt fuel, sound_solver sv -> finishing_solver sv -> ok_sorter srt -> (8 < fuel)%nat ->
  exists f1 f2 v vs c cs m, f_populate env0 sv srt fuel (Some 1%nat) DistinctSubsets CTotal f = Some (f1, Ok tt) /\
    f_populate env0 sv srt fuel (Some 1%nat) DistinctSubsets CMax f1 = Some (f2, Ok tt) /\ f_items f2 = f_items f1 ++ v :: vs /\
    fi_cost v = Fin c /\ action_costs env0 CMax A x (fi_actions v) cs /\ largest cs m /\ m < c.
Proof.
  destruct (mk_check env0 tab3 ["a"; "b"; "c"] 1 [] PyMIP w111 (- z 2) CTotal x000 test60) as (A & b & b0 & HRe & _ & Hmk & FR & HAs & H); [vm_compute; reflexivity|].
  unfold test60 in H. do 6 (apply andb_true_iff in H; destruct H as [H ?]). apply regularb_ok in H. destruct H as (R1 & R2 & R3 & _). apply Nat.eqb_eq in H4, H5. apply Z.eqb_eq in H3. rewrite forallb_forall in H1, H2.
  pose proof (fr_sbf _ _ _ _ _ _ _ FR) as SB. pose proof (sbf_len _ _ SB) as SL. pose proof SB as (_ & _ & Sy & _). rewrite SL in H4. rewrite Sy in H3. pose proof (fr_w _ _ _ _ _ _ _ FR) as Ew. pose proof (fr_t _ _ _ _ _ _ _ FR) as Et. pose proof (fr_cost _ _ _ _ _ _ _ FR) as Ec.
  assert (HD : denied 1 (score w111 (- z 2) x000)) by (apply deniedb; vm_compute; reflexivity).
  exists A, x000, w111, (- z 2), (new_flipset PyMIP A x000 w111 (- z 2) None). split; [exact HRe|]. split; [exact H3|]. split; [exact HD|]. split; [apply new_created|].
  intros sv srt fuel HS HF HSo Hfu. pose proof (HAs sv) as HA.
  destruct (c39_term_thm env0 sv b x000 b0 [] b0 fuel (Some 1%nat) DistinctSubsets env0_ok HS HA (en_done _ _) ltac:(discriminate) ltac:(rewrite SL, H4; exact Hfu)) as (b1 & l1 & Hp1 & _).
  assert (L1 : length l1 = 1%nat). { destruct (assigned_ready _ sv _ _ _ env0_ok HA) as (ms & R). exact (proj1 (pop_test_ok sv b0 ms _ 1 DistinctSubsets _ fuel b1 l1 HS HF (rd_good _ _ _ _ _ R) H0 Hp1)). }
  assert (E1 : enumeration sv b0 (map (pair DistinctSubsets) l1) b1). { rewrite <- (app_nil_r (map _ l1)). eapply en_populate; [exact Hp1|constructor]. }
  destruct (c39_term_thm env0 sv b x000 b0 _ b1 fuel (Some 1%nat) DistinctSubsets env0_ok HS HA E1 ltac:(discriminate) ltac:(rewrite SL, H4; exact Hfu)) as (b2 & l2 & Hp2 & _).
  assert (HSes : session sv b0 (l1 ++ l2 ++ []) b2) by (eapply ses_populate; [exact Hp1|]; eapply ses_populate; [exact Hp2|constructor]).
  assert (Facts : forall s, In s (l1 ++ l2 ++ []) -> In (s_actions s) pairs3 /\ filable A x000 w111 (- z 2) (sol_item s) (filed s) /\ action_costs env0 CTotal (bd_A b) x000 (s_actions s) (s_costs s) /\ s_cost s = qsum (s_costs s)).
  { intros s Hs. pose proof (c25_thm env0 sv b _ b0 _ b2 s env0_ok HS HA HSes Hs) as P1. pose proof (c26_thm env0 sv b _ b0 _ b2 s env0_ok HS HA HSes Hs) as P2. destruct (c31_thm env0 sv b _ b0 _ b2 s env0_ok HS HA HSes Hs) as (P3 & _ & P4).
    rewrite Sy, H3, Ew, Et in P2. pose proof (c29_costs env0 sv b _ b0 _ b2 s env0_ok HS HA ltac:(rewrite Ec; discriminate) HSes Hs) as [P5 P6]. rewrite Ec in P5. split; [|split; [|auto]].
    - destruct P1 as [LA P1]. rewrite SL, H4 in LA. destruct (s_actions s) as [|a1 [|a2 [|a3 [|? ?]]]] eqn:Ea; try discriminate LA.
      destruct (as_elems (bd_A b)) as [|e1 [|e2 [|e3 [|? ?]]]] eqn:Ee; try discriminate H5.
      assert (V : forall j e aj, nth_error [e1; e2; e3] j = Some e -> nth_error [a1; a2; a3] j = Some aj -> nth_error x000 j = Some (z 0) -> aj = 0 \/ aj = 1).
      { intros j e aj He Ha Hx. specialize (P1 j e (z 0) aj He Hx Ha). apply targets_ok in P1. specialize (H2 e (nth_error_In _ _ He)). rewrite forallb_forall in H2. specialize (H2 _ P1).
        replace (z 0 + aj) with aj in H2 by (change (z 0) with 0; ring). apply orb_true_iff in H2. destruct H2 as [Q|Q]; qbool; auto. }
      assert (V1 := V 0%nat _ _ eq_refl eq_refl eq_refl). assert (V2 := V 1%nat _ _ eq_refl eq_refl eq_refl). assert (V3 := V 2%nat _ _ eq_refl eq_refl eq_refl). clear -V1 V2 V3 P2.
      destruct V1 as [->| ->], V2 as [->| ->], V3 as [->| ->]; try (unfold pairs3; cbn [In]; change (z 0) with 0; change (z 1) with 1; tauto); exfalso; apply on_sideb_iff in P2; vm_compute in P2; discriminate P2.
    - destruct P1 as [LA _]. rewrite SL in LA. apply sol_filable; auto. eapply denied_flips; [|exact P2]. exact HD. }
  assert (FA : forall l, (forall s, In s l -> In s (l1 ++ l2 ++ [])) -> Forall2 (filable A x000 w111 (- z 2)) (map sol_item l) (map filed l)).
  { induction l as [|s l IH]; intro Q; constructor; [apply (Facts s), Q; now left|apply IH; intros; apply Q; now right]. }
  set (f := new_flipset _ _ _ _ _ _). assert (F0 : frame PyMIP A x000 w111 (- z 2) f) by (now constructor).
  destruct (populate_filed env0 sv srt fuel (Some 1%nat) DistinctSubsets CTotal f b0 b1 l1 _ _ _ _ _ HSo F0 (eq_sym H4) (eq_sym H4) eq_refl Hmk Hp1) as (f1 & Hf1 & I1 & B1 & F1 & K1). { apply FA. intros s Hs. apply in_app_iff. now left. }
  destruct (populate_filed env0 sv srt fuel (Some 1%nat) DistinctSubsets CMax f1 b1 b2 l2 _ _ _ _ _ HSo F1 (eq_sym H4) (eq_sym H4) ltac:(rewrite K1; reflexivity) ltac:(rewrite B1; reflexivity) Hp2) as (f2 & Hf2 & I2 & _). { apply FA. intros s Hs. apply in_app_iff. right. apply in_app_iff. now left. }
  destruct l2 as [|s2 l2].
  - exfalso. assert (Acc : forall a, In a pairs3 -> acceptable b x000 a). { intros a Ha. specialize (H1 a Ha). apply andb_true_iff in H1. now apply acceptableb_ok. }
    destruct l1 as [|s1 [|? ?]]; try discriminate L1.
    assert (RO : forall a, In a pairs3 -> same_features (s_actions s1) a).
    { intros a Ha. destruct (c39_exh_thm env0 sv b x000 b0 _ b1 fuel (Some 1%nat) DistinctSubsets [] b2 a env0_ok HS HF env0_density ltac:(rewrite Ec; intro LQ; discriminate LQ) HA (unconstrained_orderly _ _ _ _ R1) R2 R3 (fun _ => c37_unconstrained _ _ _ env0_ok R1) E1 Hp2 ltac:(discriminate) (Acc a Ha)) as (et' & s' & Hin & Hr). destruct Hin as [Q|[]]. injection Q as <- <-. exact Hr. }
    pose proof (RO [z 1; z 1; z 0] ltac:(cbn; auto)) as Q1. pose proof (RO [z 1; z 0; z 1] ltac:(cbn; auto)) as Q2.
    assert (C : changes [z 1; z 1; z 0] 1) by (exists (z 1); split; [reflexivity|intro Q; vm_compute in Q; discriminate Q]). apply Q1, Q2 in C. destruct C as (q & Hq & N). injection Hq as <-. now apply N.
  - destruct (Facts s2) as (P1 & _ & P2 & P3). { apply in_app_iff. right. now left. } specialize (H1 _ P1). apply andb_true_iff in H1. destruct H1 as [_ H1]. apply costs_test_ok in H1. destruct H1 as (cs & Hcs & Hm).
    assert (LA : length (s_actions s2) = 3%nat). { clear -P1. unfold pairs3 in P1. cbn [In] in P1. destruct P1 as [<-|[<-|[<-|[<-|[]]]]]; reflexivity. }
    assert (Q : s_costs s2 = cs). { eapply costs_det; [| | |exact P2|exact Hcs]; rewrite ?SL, ?H4; auto. } 
    destruct cs as [|c1 [|c2 [|c3 [|? ?]]]]; try discriminate Hm. destruct (largest_exists [c1; c2; c3] ltac:(discriminate)) as (m & Hmx).
    exists f1, f2, (filed s2), (map filed l2), (s_cost s2), [c1; c2; c3], m. split; [exact Hf1|]. split; [exact Hf2|]. split; [exact I2|]. split; [reflexivity|]. split; [exact (sbf_costs' env0 CTotal A _ _ _ _ SB Hcs)|]. split; [exact Hmx|].
    rewrite P3, Q. do 2 (apply andb_true_iff in Hm; destruct Hm as [Hm ?]). destruct Hmx as [[<-|[<-|[<-|[]]]] _]; now apply qlt_iff.
Qed.
(** The builder of a flipset whose populate calls all used cost type [ct]. *)
Definition own_ct E sv k A (x w : list Qc) (t : Qc) (ct : cost_type) (f : flipset) : Prop :=
  match f_builder f with
  | None => True
  | Some b1 => exists b b0 l, fresh E k A w t ct b /\ assigned E sv b x b0 /\ enumeration sv b0 l b1
  end.
Lemma sort_builder srt f q : f_builder (fst (f_sort srt f q)) = f_builder f.
Proof.
  destruct q as [|names ip ax|names]; [apply resort_builder| |].
  - cbn. destruct (all_some names) as [[|c ks]|]; try reflexivity. destruct ax; [|reflexivity]. destruct (srt _ _); [|reflexivity]. cbn. now destruct ip.
  - destruct names as [|n names]; [apply resort_builder|]. cbn -[all_some]. destruct (all_some _) as [[|c ks]|]; try reflexivity. destruct (srt _ _); reflexivity.
Qed.
Lemma own_ct_source E sv k A x w t ct f b : aset_reachable E A -> own_ct E sv k A x w t ct f ->
  match f_builder f with Some b => Ok b | None => mk_builder E k A (coef_args w t) ct (Some x) end = Ok b ->
  exists b2 b0 l, fresh E k A w t ct b2 /\ assigned E sv b2 x b0 /\ enumeration sv b0 l b.
Proof.
  intros HR H Hb. unfold own_ct in H. destruct (f_builder f) as [b1|]; [injection Hb as <-; exact H|].
  destruct (created_own E sv k A x w t ct b HR Hb) as (b' & H1 & H2). exists b', b, []. split; [exact H1|]. split; [exact H2|constructor].
Qed.
Lemma own_ct_step E sv srt k A x w t ct f o : aset_reachable E A -> frame k A x w t f -> own_ct E sv k A x w t ct f -> uses_cost ct o -> own_ct E sv k A x w t ct (flipset_step E sv srt f o).
Proof.
  intros HR F H U. destruct o as [fuel total et ct'|q|l|]; cbn [flipset_step].
  - cbn in U. subst ct'. unfold f_populate. destruct F. rewrite fm_A, fm_kind, fm_w, fm_t, fm_x. pose proof (fun b => own_ct_source E sv k A x w t ct f b HR H) as K.
    destruct (match f_builder f with Some b => _ | None => _ end) as [b|e]; [|exact H]. specialize (K b eq_refl). destruct K as (b2 & b0 & l0 & K1 & K2 & K3).
    destruct (populate sv fuel total et b) as [[[b' l]|e]|] eqn:Hp; [|exists b2, b0, l0; auto|exact H].
    pose proof (add_builder srt (f_with_builder f (Some b')) (map sol_item l)) as Q. destruct (f_add srt (f_with_builder f (Some b')) (map sol_item l)) as [f' r]. cbn [fst] in Q.
    unfold own_ct. rewrite Q. cbn. exists b2, b0, (l0 ++ map (pair et) l). do 2 (split; [assumption|]). eapply enumeration_trans; [exact K3|].
    rewrite <- (app_nil_r (map (pair et) l)). eapply en_populate; [exact Hp|constructor].
  - unfold own_ct. rewrite sort_builder. exact H.
  - unfold own_ct. rewrite add_builder. exact H.
  - unfold own_ct, to_flat_df. pose proof (resort_builder srt f) as Q. destruct (f_resort srt f) as [f' [u|e]]; cbn in Q |- *; rewrite Q; exact H.
Qed.
Lemma own_ct_run E sv srt k A x w t ct f0 ops : aset_reachable E A -> flipset_created k A x w t None f0 -> Forall (uses_cost ct) ops ->
  frame k A x w t (flipset_run E sv srt f0 ops) /\ own_ct E sv k A x w t ct (flipset_run E sv srt f0 ops).
Proof.
  intros HR H HU. destruct (frame_created _ _ _ _ _ _ _ H) as (F & _ & _ & Hb & _). assert (O : own_ct E sv k A x w t ct f0) by (unfold own_ct; now rewrite Hb). clear H Hb.
  revert f0 F O. induction HU as [|o ops U HU IH]; intros f0 F O; [split; assumption|]. cbn. apply IH; [now apply frame_step|now apply own_ct_step].
Qed.
Lemma c60_same E sv srt k A x w t f0 ops fuel total et ct f' : ok_env E -> sound_solver sv -> finishing_solver sv -> ok_sorter srt -> aset_reachable E A ->
  flipset_created k A x w t None f0 -> Forall (uses_cost ct) ops ->
  f_populate E sv srt fuel total et ct (flipset_run E sv srt f0 ops) = Some (f', Ok tt) ->
  exists vs, f_items f' = f_items (flipset_run E sv srt f0 ops) ++ vs /\
    forall v, In v vs -> exists c cs, fi_cost v = Fin c /\ action_costs E ct A x (fi_actions v) cs /\ overall_cost ct cs c.
Proof.
  intros HE HS HF HSo HR HC HU H. destruct (own_ct_run E sv srt k A x w t ct f0 ops HR HC HU) as [F O]. set (f := flipset_run E sv srt f0 ops) in *. clearbody f. clear HC HU f0 ops.
  unfold f_populate in H. pose proof F as []. rewrite fm_A, fm_kind, fm_w, fm_t, fm_x in H. pose proof (fun b => own_ct_source E sv k A x w t ct f b HR O) as K.
  destruct (match f_builder f with Some b => _ | None => _ end) as [b|e]; [|discriminate H]. destruct (K b eq_refl) as (b2 & b0 & l0 & FR & HA & HEn). clear K.
  destruct (populate sv fuel total et b) as [[[b' l]|e]|] eqn:Hp; try discriminate H.
  pose proof (fr_sbf _ _ _ _ _ _ _ FR) as SB. assert (HLw : length w = as_len A) by exact (fr_len _ _ _ _ _ _ _ FR).
  assert (HLx : length x = as_len A). { pose proof HA as [_ HA2]. destruct (set_x_ok _ _ _ _ HA2) as (ms & EL & _). rewrite EL, (fr_w _ _ _ _ _ _ _ FR). exact HLw. }
  assert (HEn' : enumeration sv b0 (l0 ++ map (pair et) l) b'). { eapply enumeration_trans; [exact HEn|]. rewrite <- (app_nil_r (map (pair et) l)). eapply en_populate; [exact Hp|constructor]. }
  destruct (enumeration_session _ _ _ _ HEn') as (ls & HSes & HIn).
  injection H as H. assert (Fg : frame k A x w t (f_with_builder f (Some b'))) by now apply frame_builder.
  destruct (mapM (validate_item (f_with_builder f (Some b'))) (map sol_item l)) as [vs|e] eqn:Ev; [|unfold f_add in H; rewrite Ev in H; discriminate H].
  apply (validated_filable k A x w t HLx HLw eq_refl _ _ _ Fg) in Ev. destruct (add_ok k A x w t HLx HLw eq_refl srt _ _ _ Fg Ev) as (rows & _ & Hadd). rewrite Hadd in H. exists vs. split.
  - destruct vs as [|v vs]; [injection H as <-; reflexivity|]. unfold f_resort in H. destruct (srt _ _); [|discriminate H]. injection H as <-. cbn. now destruct (f_inplace f).
  - intros v Hv. assert (Hs : exists s, In s l /\ filable A x w t (sol_item s) v). { clear -Ev Hv. remember (map sol_item l) as its eqn:El. revert l El. induction Ev as [|i v' its vs H _ IH]; intros l El; [destruct Hv|]. destruct l as [|s l]; [discriminate El|]. injection El as -> ->. destruct Hv as [->|Hv]; [exists s; split; [now left|exact H]|]. destruct (IH Hv l eq_refl) as (s' & ? & ?). exists s'. split; [now right|assumption]. }
    destruct Hs as (s & Hs & (W & _)). destruct W as (_ & Wa & Wc & _). cbn [sol_item it_actions it_cost] in Wa, Wc.
    assert (Ea : fi_actions v = s_actions s). { injection Wa as Wa. symmetry in Wa. clear -Wa. revert Wa. generalize (fi_actions v) as a, (s_actions s) as a'. induction a as [|u a IH]; intros [|u' a'] E2; try discriminate E2; [reflexivity|]. cbn in E2. assert (Fin u = Fin u' /\ map Fin a = map Fin a') as [Q1 Q2] by (split; congruence). f_equal; [congruence|now apply IH]. }
    assert (Hin : In s ls). { apply (HIn (et, s)). apply in_app_iff. right. now apply in_map. }
    pose proof (item_costs E sv b2 x b0 HE HS HA ls b' s HSes Hin) as P1. pose proof (item_total E sv b2 x b0 HE HS HA ls b' s HSes Hin (fun _ => HF)) as P2. rewrite (fr_cost _ _ _ _ _ _ _ FR) in P1, P2.
    exists (s_cost s), (s_costs s). split; [congruence|]. rewrite Ea. split; [exact (sbf_costs' _ _ _ _ _ _ _ SB P1)|exact P2].
Qed.

(** ** C61 *)
Lemma c61_single E sv srt order k A x w t f items vs f1 f2 r : ok_sorter srt -> ok_order order -> length x = as_len A -> length w = as_len A ->
  flipset_reachable E sv srt k A x w t None f -> f_items f = [] -> Forall2 (filable A x w t) items vs -> vs <> [] ->
  f_add srt f items = (f1, Ok tt) -> to_flat_df srt order f1 = (f2, r) -> (forall e, r <> Err e) ->
  exists lines, r = Ok (Some lines) /\ StronglySorted (fun a b => (fl_item a <= fl_item b)%nat) lines /\
    Permutation lines (flat_map (fun p => change_lines (as_names A) x (fst p) (fi_actions (snd p))) (combine (seq 0 (length vs)) vs)).
Proof.
  intros HS HO HLx HLw HF HI HA HN Hadd Hr HE.
  destruct (inv_reachable k A x w t HLx HLw eq_refl E sv srt None f HS HF) as [F (_ & its & rows0 & H1 & H2 & H3)]. rewrite HI in H1. apply Permutation_sym, Permutation_nil in H1. subst its. inversion H2; subst rows0. cbn in H3. apply Permutation_sym, Permutation_nil in H3.
  destruct (add_ok k A x w t HLx HLw eq_refl srt f items vs F HA) as (rows & HR & Hadd'). rewrite Hadd in Hadd'. destruct vs as [|v vs]; [congruence|]. rewrite H3, HI in Hadd'. cbn [map app] in Hadd'.
  unfold f_resort in Hadd'. cbn [f_by f_df f_with_items f_inplace f_items] in Hadd'. destruct (srt (f_by f) (relabel rows)) as [d|e] eqn:Ed; [|discriminate Hadd']. injection Hadd' as Hf1. pose proof HS as (_ & S2 & _). apply S2 in Ed.
  assert (Hd1 : Permutation (f_df f1) (relabel rows)). { rewrite Hf1. destruct (f_inplace f); [exact Ed|apply Permutation_refl]. }
  unfold to_flat_df, f_resort in Hr. destruct (srt (f_by f1) (f_df f1)) as [d2|e] eqn:Ed2; [|injection Hr as _ <-; exfalso; now apply (HE e)]. apply S2 in Ed2.
  set (f1' := if f_inplace f1 then _ else f1) in Hr. assert (Hd2 : Permutation (f_df f1') (relabel rows)). { unfold f1'. destruct (f_inplace f1); [cbn; now rewrite Ed2|exact Hd1]. }
  destruct (f_df f1') as [|p d'] eqn:E1. { apply Permutation_nil in Hd2. inversion HR; subst. discriminate Hd2. }
  injection Hr as _ <-. rewrite <- E1 in *. exists (order (flat_lines (f_df f1'))). split; [reflexivity|]. destruct (HO (flat_lines (f_df f1'))) as [O1 O2]. split; [exact O2|]. rewrite O1. eapply flat_lines_change; eauto.
Qed.

(** ** C62 *)
Definition not_permittedb (A : action_set) (x a : list Qc) : bool :=
  existsb (fun p => negb (existsb (qeq (fst (snd p) + snd (snd p))) (targets (fst p) (fst (snd p))))) (zip3 (as_elems A) x a).
Lemma zip3_inv {B C D} (l : list B) (m : list C) (n : list D) q : In q (zip3 l m n) -> exists j, nth_error l j = Some (fst q) /\ nth_error m j = Some (fst (snd q)) /\ nth_error n j = Some (snd (snd q)).
Proof.
  unfold zip3. revert m n. induction l as [|u l IH]; intros [|v m] [|w n]; cbn; try now intros [].
  intros [<-|H]; [exists 0%nat; auto|]. destruct (IH m n H) as (j & Hj). exists (S j). exact Hj.
Qed.
Lemma not_permittedb_ok A x a : not_permittedb A x a = true -> ~ permitted_action A x a.
Proof.
  unfold not_permittedb. intros H [_ K]. apply existsb_exists in H. destruct H as (q & Hq & N). apply zip3_inv in Hq. destruct Hq as (j & H1 & H2 & H3). specialize (K _ _ _ _ H1 H2 H3). apply targets_ok in K.
  apply negb_true_iff in N. apply Bool.not_true_iff_false in N. apply N. apply existsb_exists. eexists. split; [exact K|]. now apply qeq_iff.
Qed.
Definition x30 : list Qc := [z 3; z 0].
Lemma c62_refuted : exists A x x' w t b0 f, aset_reachable env0 A /\ as_y A = 1%Z /\ denied 1 (score w t x) /\
  mk_builder env0 PyMIP A (coef_args w t) CTotal (Some x') = Ok b0 /\ flipset_created PyMIP A x w t (Some b0) f /\
  forall sv srt fuel, sound_solver sv -> finishing_solver sv -> ok_sorter srt -> (4 < fuel)%nat ->
  exists f' v, f_populate env0 sv srt fuel (Some 1%nat) DistinctSubsets CTotal f = Some (f', Ok tt) /\ f_items f' = [v] /\ ~ permitted_action A x (fi_actions v).
Proof.
  destruct (mk_check env0 tab2 ["a"; "b"] 1 [] PyMIP w11 (- z 4) CTotal x01 (fun b b0 => pop_test b0 1 DistinctSubsets (fun l => match l with [a] => Nat.eqb (length a) 2 && (0 <? score w11 (- z 4) (vadd x30 a)) && not_permittedb (bd_A b) x30 a | _ => false end) && Nat.eqb (as_len (bd_A b)) 2 && (as_y (bd_A b) =? 1)%Z)) as (A & b & b0 & HRe & _ & Hmk & FR & HAs & H); [vm_compute; reflexivity|].
  do 2 (apply andb_true_iff in H; destruct H as [H ?]). apply Nat.eqb_eq in H1. apply Z.eqb_eq in H0.
  pose proof (fr_sbf _ _ _ _ _ _ _ FR) as SB. pose proof (sbf_len _ _ SB) as SL. pose proof SB as (_ & _ & Sy & _). rewrite SL in H1. rewrite Sy in H0.
  exists A, x30, x01, w11, (- z 4), b0, (new_flipset PyMIP A x30 w11 (- z 4) (Some b0)). split; [exact HRe|]. split; [exact H0|]. split; [apply deniedb; vm_compute; reflexivity|]. split; [exact Hmk|]. split; [apply new_created|].
  intros sv srt fuel HS HF HSo Hfu. destruct (pop_forced env0 b x01 b0 _ _ _ env0_ok HAs H ltac:(discriminate) sv fuel HS HF ltac:(rewrite SL, H1; cbn; lia)) as (b1 & l & Hp & HL & HT & HEn).
  destruct l as [|s [|? ?]]; try discriminate HL. cbn [map] in HT. do 2 (apply andb_true_iff in HT; destruct HT as [HT ?]). apply Nat.eqb_eq in HT.
  destruct (enumeration_session _ _ _ _ HEn) as (ls & HSes & HIn). destruct (c31_thm env0 sv b x01 b0 ls b1 s env0_ok HS (HAs sv) HSes ltac:(apply (HIn (DistinctSubsets, s)); now left)) as (P3 & _ & P4).
  set (f := new_flipset _ _ _ _ _ _). assert (F0 : frame PyMIP A x30 w11 (- z 4) f) by (now constructor).
  destruct (populate_filed env0 sv srt fuel (Some 1%nat) DistinctSubsets CTotal f b0 b1 [s] _ _ _ _ _ HSo F0 (eq_sym H1) (eq_sym H1) eq_refl eq_refl Hp) as (f' & Hf & HI & _).
  { constructor; [|constructor]. assert (Sx : score w11 (- z 4) x30 = - (1)) by (apply Qc_is_canon; reflexivity). split; [|cbn [fi_actions filed]; intro Q; unfold prediction in Q].
    - repeat split; [cbn; lia|now apply n_changed_pos|]. right. exists (s_cost s). auto.
    - rewrite Sx in Q. unfold qsign in Q. rewrite H3 in Q. vm_compute in Q. discriminate Q. }
  exists f', (filed s). split; [exact Hf|]. split; [exact HI|]. intro K. apply (sbf_permitted _ _ _ _ SB) in K. revert K. now apply not_permittedb_ok.
Qed.

(** ** C63: the flipped column *)
Lemma row_flag f g v r i : f_x g = f_x f -> f_w g = f_w f -> f_t g = f_t f -> validate_item f i = Ok v -> item_row g v = Ok r -> r_flipped r = true.
Proof.
  intros Ex Ew Et H Hr. unfold validate_item in H. destruct (it_feasible i), (it_actions i), (it_cost i); try discriminate H. bnd H as q Hq. bnd H as u1 H1. bnd H as u2 H2. injection H as <-.
  unfold validate_action in Hq. bnd Hq as u3 H3. bnd Hq as q' Hq'. bnd Hq as u4 H4. bnd Hq as y Hy. bnd Hq as h Hh. bnd Hq as u5 H5. injection Hq as ->. apply passert_ok in H5.
  unfold item_row in Hr. cbn [fi_actions] in Hr. unfold f_predict, f_score, f_yhat in Hr. rewrite Ex, Ew, Et in Hr. fold (f_score f q) in Hr. fold (f_predict f q) in Hr. rewrite Hh in Hr. cbn [bind] in Hr.
  bnd Hr as n1 N1. bnd Hr as n2 N2. bnd Hr as n3 N3. bnd Hr as s Hs. fold (f_yhat f) in Hr. rewrite Hy in Hr. cbn [bind] in Hr. injection Hr as <-. cbn.
  apply negb_true_iff in H5. apply negb_true_iff. apply Bool.not_true_iff_false in H5. apply Bool.not_true_iff_false. intro K. apply H5. apply qeq_iff in K. apply qeq_iff. symmetry. exact K.
Qed.
Lemma rows_flag f g items l rows : f_x g = f_x f -> f_w g = f_w f -> f_t g = f_t f -> Forall2 (fun i v => validate_item f i = Ok v) items l -> Forall2 (fun v r => item_row g v = Ok r) l rows -> Forall (fun r => r_flipped r = true) rows.
Proof.
  intros E1 E2 E3 Ev. revert rows. induction Ev as [|i v items l Hi _ IH]; intros rows Er; inversion Er; subst; constructor; [eapply (row_flag f g); eauto|auto].
Qed.
Definition flag_inv (f : flipset) : Prop := Forall (fun p => r_flipped (snd p) = true) (f_df f).
Lemma flag_perm d d' : Permutation d' d -> Forall (fun p : nat * frow => r_flipped (snd p) = true) d -> Forall (fun p => r_flipped (snd p) = true) d'.
Proof. intros P H. rewrite Forall_forall in *. intros p Hp. apply H. eapply Permutation_in; eauto. Qed.
Lemma flag_resort srt f : ok_sorter srt -> flag_inv f -> flag_inv (fst (f_resort srt f)).
Proof. intros (_ & S2 & _) H. unfold f_resort. destruct (srt _ _) as [d|e] eqn:Ed; [|exact H]. cbn. destruct (f_inplace f); [|exact H]. eapply flag_perm; [exact (S2 _ _ _ Ed)|exact H]. Qed.
Lemma flag_relabel rows : Forall (fun r => r_flipped r = true) rows -> Forall (fun p => r_flipped (snd p) = true) (relabel rows).
Proof. intro H. rewrite <- (relabel_snd rows) in H. now rewrite Forall_map in H. Qed.
Lemma flag_add srt f items : ok_sorter srt -> flag_inv f -> flag_inv (fst (f_add srt f items)).
Proof.
  intros S H. unfold f_add. destruct (mapM (validate_item f) items) as [l|e] eqn:Ev; [|exact H]. unfold add_to_df. destruct l as [|v0 l0]; [exact H|]. set (l := v0 :: l0) in *. set (g := f_with_items f _ _).
  destruct (mapM (item_row g) l) as [rows|e] eqn:Er; [|exact H]. apply (flag_resort srt _ S). unfold flag_inv. cbn [f_df f_with_items g]. apply flag_relabel. apply Forall_app. split.
  - unfold flag_inv in H. now rewrite Forall_map.
  - apply mapM_ok in Ev, Er. eapply (rows_flag f g); eauto; reflexivity.
Qed.
Lemma flag_step E sv srt f o : ok_sorter srt -> flag_inv f -> flag_inv (flipset_step E sv srt f o).
Proof.
  intros S H. pose proof S as (_ & S2 & _). destruct o as [fuel total et ct|q|l|]; cbn [flipset_step].
  - unfold f_populate. destruct (match f_builder f with Some b => _ | None => _ end) as [b|e]; [|exact H]. destruct (populate _ _ _ _ _) as [[[b' l]|e]|]; [|exact H|exact H].
    pose proof (flag_add srt (f_with_builder f (Some b')) (map sol_item l) S H) as K. destruct (f_add srt (f_with_builder f (Some b')) (map sol_item l)) as [f' r]. exact K.
  - destruct q as [|names ip ax|names].
    + now apply flag_resort.
    + cbn. destruct (all_some names) as [[|c ks]|]; try exact H. destruct ax; [|exact H]. destruct (srt _ _) as [d|] eqn:Ed; [|exact H]. unfold flag_inv. cbn. destruct ip; [eapply flag_perm; [exact (S2 _ _ _ Ed)|exact H]|exact H].
    + destruct names as [|n names]; [now apply flag_resort|]. cbn -[all_some]. destruct (all_some _) as [[|c ks]|]; try exact H. destruct (srt _ _) as [d|] eqn:Ed; [|exact H]. unfold flag_inv. cbn. eapply flag_perm; [exact (S2 _ _ _ Ed)|exact H].
  - now apply flag_add.
  - unfold to_flat_df. pose proof (flag_resort srt f S H) as K. destruct (f_resort srt f) as [f' [u|e]]; exact K.
Qed.
Lemma c63_always E sv srt k A x w t ob f p : ok_sorter srt -> flipset_reachable E sv srt k A x w t ob f -> In p (f_df f) -> r_flipped (snd p) = true.
Proof.
  intros S (f0 & ops & H & ->). destruct (frame_created _ _ _ _ _ _ _ H) as (_ & _ & E2 & _). assert (K : flag_inv f0) by (unfold flag_inv; rewrite E2; constructor). clear H E2.
  assert (K' : flag_inv (flipset_run E sv srt f0 ops)). { revert f0 K. induction ops as [|o ops IH]; intros f0 K; [exact K|]. cbn. apply IH. now apply flag_step. }
  unfold flag_inv in K'. rewrite Forall_forall in K'. apply K'.
Qed.
Lemma c63_refuted : exists A x w t a i f, aset_reachable env0 A /\ length x = as_len A /\ length w = as_len A /\ flipset_created PyMIP A x w t None f /\
  wf_item (as_len A) i a (Fin 1) /\ ~ flips w t x a /\
  forall srt, ok_sorter srt -> exists f' r, f_add srt f [i] = (f', Ok tt) /\ map snd (f_df f') = [r] /\
    describes w t x (as_names A) {| fi_actions := a; fi_cost := Fin 1 |} r /\ r_flipped r = true.
Proof.
  destruct case_aset as (A & HR & HL & _). set (x := [z 3; z 3]). set (w := [z 1; z 1]). set (a := [- z 1; z 0]). set (t := - z 3). set (f := new_flipset PyMIP A x w t None).
  assert (W : wf_item (as_len A) (an_item a 1) a (Fin 1)). { rewrite HL. apply two_item; [reflexivity|vm_compute; reflexivity|reflexivity]. }
  exists A, x, w, t, a, (an_item a 1), f. split; [exact HR|]. split; [now rewrite HL|]. split; [now rewrite HL|]. split; [apply new_created|]. split; [exact W|]. split; [intro K; apply K; vm_compute; reflexivity|].
  intros srt HS. set (sv := (fun _ _ => SUnknown) : solver). pose proof (created_reachable env0 sv srt _ _ _ _ _ _ _ (new_created PyMIP A x w t None)) as HF. fold f in HF.
  assert (FA : Forall2 (filable A x w t) [an_item a 1] [{| fi_actions := a; fi_cost := Fin 1 |}]).
  { constructor; [|constructor]. split; [exact W|]. cbn [fi_actions]. intro Q. assert (Q' : (score w t x =? qz (prediction w t (vadd x a))) = true) by now apply qeq_iff. vm_compute in Q'. discriminate Q'. }
  destruct (c48_all env0 sv srt PyMIP A x w t None f HS (eq_sym HL) (eq_sym HL) HF _ _ FA) as [H1 H2]. specialize (H2 eq_refl).
  pose proof (step_reachable env0 sv srt _ _ _ _ _ _ _ (FAdd [an_item a 1]) HF) as HF'. cbn [flipset_step] in HF'. destruct (f_add srt f [an_item a 1]) as [f' r'] eqn:Ea. cbn [fst snd] in H1, H2, HF'. subst r'.
  destruct (c46 env0 sv srt PyMIP A x w t None f' HS (eq_sym HL) (eq_sym HL) HF') as (its & P1 & P2). rewrite H1 in P1. cbn in P1. apply Permutation_sym, Permutation_length_1_inv in P1. subst its.
  inversion P2 as [|? r ? rs D1 D2 E1 E2]; subst. inversion D2; subst. exists f', r. split; [reflexivity|]. split; [now rewrite <- E2|]. split; [exact D1|].
  destruct (f_df f') as [|p [|? ?]] eqn:Ed; try discriminate E2. cbn in E2. injection E2 as ->. apply (c63_always env0 sv srt PyMIP A x w t None f' p HS HF'). rewrite Ed. now left.
Qed.

(** C62 for a supplied builder that was created for the flipset's own individual. *)
Lemma c62_own E sv srt k A x w t ct b0 f0 ops fuel total et ct' f' : ok_env E -> sound_solver sv -> ok_sorter srt -> aset_reachable E A ->
  mk_builder E k A (coef_args w t) ct (Some x) = Ok b0 -> flipset_created k A x w t (Some b0) f0 ->
  f_populate E sv srt fuel total et ct' (flipset_run E sv srt f0 ops) = Some (f', Ok tt) ->
  exists l, map fi_actions (f_items f') = (map fi_actions (f_items (flipset_run E sv srt f0 ops)) ++ map s_actions l)%list /\
    forall s, In s l -> permitted_action A x (s_actions s) /\ on_side (as_y A) (score w t (vadd x (s_actions s))).
Proof.
  intros HE HS HSo HR Hmk HC H.
  assert (KK : frame k A x w t (flipset_run E sv srt f0 ops) /\ f_builder (flipset_run E sv srt f0 ops) <> None /\ own_ct E sv k A x w t ct (flipset_run E sv srt f0 ops)).
  { clear H. destruct (frame_created _ _ _ _ _ _ _ HC) as (F & _ & _ & Hb & _). assert (O : own_ct E sv k A x w t ct f0).
    { unfold own_ct. rewrite Hb. destruct (created_own E sv k A x w t ct b0 HR Hmk) as (b & H1 & H2). exists b, b0, []. split; [exact H1|]. split; [exact H2|constructor]. }
    assert (N : f_builder f0 <> None) by (rewrite Hb; discriminate). clear HC Hb. revert f0 F O N. induction ops as [|o ops IH]; intros f0 F O N; [auto|]. cbn. apply IH; [now apply frame_step| |].
    - destruct o as [fu to e c|q|l|]; [|apply own_ct_step; auto; exact I..]. cbn [flipset_step]. rewrite (c60_ignored E sv srt fu to e c ct f0 N). apply (own_ct_step E sv srt k A x w t ct f0 (FPopulate fu to e ct)); auto. reflexivity.
    - destruct o as [fu to e c|q|l|]; cbn [flipset_step].
      + unfold f_populate. destruct (f_builder f0) as [b|] eqn:Eb; [|congruence]. destruct (populate sv fu to e b) as [[[b' l]|]|]; [|discriminate|congruence].
        pose proof (add_builder srt (f_with_builder f0 (Some b')) (map sol_item l)) as Q. destruct (f_add srt _ _). cbn [fst] in Q. rewrite Q. discriminate.
      + now rewrite sort_builder.
      + now rewrite add_builder.
      + unfold to_flat_df. pose proof (resort_builder srt f0) as Q. destruct (f_resort srt f0) as [f1 [u|e]]; cbn in Q |- *; now rewrite Q. }
  destruct KK as (F & N & O). set (f := flipset_run E sv srt f0 ops) in *. clearbody f. clear HC f0 ops Hmk. rewrite (c60_ignored E sv srt fuel total et ct' ct f N) in H.
  unfold f_populate in H. pose proof F as []. rewrite fm_A, fm_kind, fm_w, fm_t, fm_x in H. pose proof (fun b => own_ct_source E sv k A x w t ct f b HR O) as K.
  destruct (match f_builder f with Some b => _ | None => _ end) as [b|e]; [|discriminate H]. destruct (K b eq_refl) as (b2 & b1 & l0 & FR & HA & HEn). clear K.
  destruct (populate sv fuel total et b) as [[[b' l]|e]|] eqn:Hp; try discriminate H.
  pose proof (fr_sbf _ _ _ _ _ _ _ FR) as SB. pose proof SB as (_ & _ & Sy & _). assert (HLw : length w = as_len A) by exact (fr_len _ _ _ _ _ _ _ FR).
  assert (HLx : length x = as_len A). { pose proof HA as [_ HA2]. destruct (set_x_ok _ _ _ _ HA2) as (ms & EL & _). rewrite EL, (fr_w _ _ _ _ _ _ _ FR). exact HLw. }
  assert (HEn' : enumeration sv b1 (l0 ++ map (pair et) l) b'). { eapply enumeration_trans; [exact HEn|]. rewrite <- (app_nil_r (map (pair et) l)). eapply en_populate; [exact Hp|constructor]. }
  destruct (enumeration_session _ _ _ _ HEn') as (ls & HSes & HIn).
  injection H as H. assert (Fg : frame k A x w t (f_with_builder f (Some b'))) by now apply frame_builder.
  destruct (mapM (validate_item (f_with_builder f (Some b'))) (map sol_item l)) as [vs|e] eqn:Ev; [|unfold f_add in H; rewrite Ev in H; discriminate H].
  apply (validated_filable k A x w t HLx HLw eq_refl _ _ _ Fg) in Ev. destruct (add_ok k A x w t HLx HLw eq_refl srt _ _ _ Fg Ev) as (rows & _ & Hadd). rewrite Hadd in H. exists l. split.
  - assert (HI : f_items f' = f_items f ++ vs). { destruct vs as [|v vs]; [injection H as <-; reflexivity|]. unfold f_resort in H. destruct (srt _ _); [|discriminate H]. injection H as <-. cbn. now destruct (f_inplace f). }
    rewrite HI, map_app. f_equal. clear -Ev. remember (map sol_item l) as its eqn:El. revert l El. induction Ev as [|i v its vs W _ IH]; intros [|s l] El; try discriminate El; [reflexivity|]. injection El as -> ->. cbn [map]. f_equal; [|now apply IH].
    destruct W as ((_ & Wa & _) & _). cbn [sol_item it_actions] in Wa. injection Wa as Wa. symmetry in Wa. clear -Wa. revert Wa. generalize (fi_actions v) as a, (s_actions s) as a'. induction a as [|u a IH]; intros [|u' a'] E2; try discriminate E2; [reflexivity|]. cbn in E2. assert (Fin u = Fin u' /\ map Fin a = map Fin a') as [Q1 Q2] by (split; congruence). f_equal; [congruence|now apply IH].
  - intros s Hs. assert (Hin : In s ls). { apply (HIn (et, s)). apply in_app_iff. right. now apply in_map. }
    pose proof (c25_thm E sv b2 x b1 ls b' s HE HS HA HSes Hin) as P1. pose proof (c26_thm E sv b2 x b1 ls b' s HE HS HA HSes Hin) as P2. rewrite Sy, (fr_w _ _ _ _ _ _ _ FR), (fr_t _ _ _ _ _ _ _ FR) in P2. split; [now apply (sbf_permitted _ _ _ _ SB)|exact P2].
Qed.
