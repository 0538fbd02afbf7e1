(** Flipsets under a tolerance. *)
From Verif Require Import Proofs_num Proofs_props_element Proofs_props_actionset Spec_tolerance Proofs_mip Proofs_info Proofs_vec Proofs_build Proofs_enum Proofs_tol Proofs_registry
  Proofs_actionset Proofs_recourse Proofs_subset Proofs_session Proofs_far Proofs_builder Proofs_builder2 Proofs_builder3 Proofs_exchange Proofs_concrete Proofs_scen Proofs_scen2 Proofs_solver Proofs_builder6 Proofs_builder7 Proofs_builder8 Proofs_tol2 Proofs_tol3 Proofs_tol4 Proofs_tol5 Proofs_tol6 Proofs_tol7.
From Verif Require Import Spec_audit Proofs_audit Proofs_audit2 Proofs_audit3 Proofs_audit4 Proofs_tol8 Proofs_tol9.
From Verif Require Import Spec_flipset Proofs_flipset Proofs_flipset3 Proofs_agree.
#[local] Open Scope list_scope.
#[local] Open Scope Qc_scope.

Lemma F2_in {A B} (P : A -> B -> Prop) l m a : Forall2 P l m -> In a l -> exists b, P a b.
Proof. intro F. induction F as [|p q l m H F IH]; intro Hin; [destruct Hin|]. destruct Hin as [<-|K]; eauto. Qed.
Lemma fine_change d M A x a g : permitted_action A x g -> length x = as_len A -> length (as_elems A) = as_len A -> (1 <= n_changed g)%nat -> close_to d M A a g -> coarse d M A x -> (1 <= n_changed a)%nat.
Proof.
  intros [HL HP] Hx He Hn [Hl HC] HB. apply n_changed_pos in Hn. destruct Hn as (j & gj & Hg & Hz).
  assert (Lj : (j < as_len A)%nat) by (rewrite <- HL; apply nth_error_Some; congruence).
  destruct (nth_error (as_elems A) j) as [e|] eqn:Ee; [|apply nth_error_None in Ee; lia]. destruct (nth_error x j) as [xj|] eqn:Ex; [|apply nth_error_None in Ex; lia].
  destruct (nth_error a j) as [aj|] eqn:Ea; [|apply nth_error_None in Ea; lia].
  apply n_changed_pos. exists j, aj. split; [exact Ea|]. intros ->. pose proof (HC j e 0 gj Ee Ea Hg) as K1. pose proof (HB j e xj (xj + gj) Ee Ex (HP j e xj gj Ee Ex Hg)) as K2.
  replace (xj + gj - xj) with gj in K2 by ring. replace (0 - gj) with (- gj) in K1 by ring. assert (N : xj + gj <> xj) by (intro Q; apply Hz; replace gj with (xj + gj - xj) by ring; rewrite Q; ring).
  specialize (K2 N). apply qabs_le in K1. destruct K1 as [K1 K3]. assert (qabs gj <= d * (1 + M * qz (1 + Z.of_nat (length (e_grid e))))) by (apply qabs_le; split; qlra). qlra.
Qed.

Theorem tol_flipset E sv srt k A x w t f d M fuel total et ct b0 : ok_env E -> solver_within d sv -> d <= atol -> ok_sorter srt -> aset_reachable E A ->
  flipset_created k A x w t None f -> mk_builder E k A (coef_args w t) ct (Some x) = Ok b0 -> fine_for d A -> changes_up_to M A x -> total <> Some 0%nat -> (2 ^ as_len A < fuel)%nat ->
  exists b2 l, populate sv fuel total et b0 = Some (Ok (b2, l)) /\ (forall n, total = Some n -> (length l <= n)%nat) /\
    (forall s, In s l -> exists g, permitted_action A x g /\ (1 <= n_changed g)%nat /\ close_to d M A (s_actions s) g /\ on_side_within d (as_y A) (score w t (vadd x (s_actions s))) /\
       (coarse d M A x -> (1 <= n_changed (s_actions s))%nat)) /\
    ((exists f', f_populate E sv srt fuel total et ct f = Some (f', Ok tt) /\ f_items f' = map filed l) \/
     (exists f' e s, f_populate E sv srt fuel total et ct f = Some (f', Err e) /\ f_items f' = [] /\ In s l /\
        (n_changed (s_actions s) = 0%nat \/ s_cost s <= 0 \/ score w t x = qz (prediction w t (vadd x (s_actions s)))))).
Proof.
  intros HE HS Ha HSr HA HCr Hm HD HM HT Hfu. destruct (created_own E sv k A x w t ct b0 HA Hm) as (b & Fb & HAs). pose proof (fr_sbf _ _ _ _ _ _ _ Fb) as SB. pose proof SB as (_ & _ & S3 & _).
  pose proof (fr_w _ _ _ _ _ _ _ Fb) as Ew. pose proof (fr_t _ _ _ _ _ _ _ Fb) as Et. pose proof (fr_len _ _ _ _ _ _ _ Fb) as HLw.
  assert (HLx : length x = as_len A). { destruct HAs as [_ HAx]. destruct (set_x_ok _ _ _ _ HAx) as (ms & EL & _). rewrite EL, Ew. exact HLw. }
  destruct (tol_populate E sv b x b0 d M fuel total et HE HS Ha HAs (sbf_fine _ _ _ SB HD) (sbf_changes _ _ _ _ SB HM) HT) as (b2 & l & gs & Hp & _ & HF2 & HTl & _); [now rewrite (sbf_len _ _ SB)|].
  exists b2, l. split; [exact Hp|]. split; [exact HTl|].
  assert (Facts : forall s, In s l -> exists g, permitted_action A x g /\ (1 <= n_changed g)%nat /\ close_to d M A (s_actions s) g /\ on_side_within d (as_y A) (score w t (vadd x (s_actions s))) /\
       (coarse d M A x -> (1 <= n_changed (s_actions s))%nat)).
  { intros s Hs. destruct (F2_in _ _ _ _ HF2 Hs) as (g & P1 & P2 & P3 & P4). rewrite S3, Ew, Et in P4. apply (sbf_permitted _ _ _ _ SB) in P1. apply (sbf_close _ _ _ _ _ _ SB) in P3.
    assert (P5 : (1 <= n_changed g)%nat) by (destruct P2; lia). exists g. split; [exact P1|]. split; [exact P5|]. split; [exact P3|]. split; [exact P4|].
    intro HB. eapply fine_change; eauto. exact (wf_len _ _ (reachable_wf _ _ HA)). }
  split; [exact Facts|].
  assert (FP : exists f1, f_populate E sv srt fuel total et ct f = Some (f_add srt f1 (map sol_item l)) /\ frame k A x w t f1 /\ f_items f1 = [] /\ f_by f1 = [KSize; KCost; KScore]).
  { destruct (frame_created _ _ _ _ _ _ _ HCr) as (F & _). destruct HCr as (a & Pa & H). unfold mk_flipset in H. rewrite Pa in H. cbn [bind] in H. injection H as <-. unfold f_populate. cbn [f_builder f_kind f_A f_w f_t f_x]. rewrite Hm, Hp.
    eexists. split; [reflexivity|]. split; [now apply frame_builder|]. split; reflexivity. }
  destruct FP as (f1 & FP & F1 & I1 & B1). rewrite FP.
  assert (DEC : Forall (fun s => filable A x w t (sol_item s) (filed s)) l \/ exists s, In s l /\ (n_changed (s_actions s) = 0%nat \/ s_cost s <= 0 \/ score w t x = qz (prediction w t (vadd x (s_actions s))))).
  { clear -Facts HLx. induction l as [|s l IH]; [left; constructor|].
    destruct IH as [IH|(s' & Hs' & K)]; [intros s' Hs'; apply Facts; now right| |right; exists s'; split; [now right|exact K]].
    destruct (Facts s (or_introl eq_refl)) as (g & (PL & _) & _ & (CL & _) & _).
    destruct (Nat.eq_dec (n_changed (s_actions s)) 0) as [Z|NZ]; [right; exists s; split; [now left|auto]|].
    destruct (qlt_spec 0 (s_cost s)) as [Pc|Pc]; [|right; exists s; split; [now left|auto]].
    destruct (Qc_eq_dec (score w t x) (qz (prediction w t (vadd x (s_actions s))))) as [Q|Q]; [right; exists s; split; [now left|auto]|].
    left. constructor; [|exact IH]. split; [|exact Q]. cbn [filed fi_actions fi_cost]. repeat split; [congruence|apply n_changed_pos; lia|]. right. exists (s_cost s). auto. }
  destruct DEC as [HAcc|(s & Hs & K)].
  - left. assert (HAcc' : Forall2 (filable A x w t) (map sol_item l) (map filed l)) by (clear -HAcc; induction HAcc; constructor; auto).
    destruct (add_ok k A x w t HLx HLw eq_refl srt f1 (map sol_item l) (map filed l) F1 HAcc') as (rows & _ & Hadd). rewrite Hadd.
    destruct (map filed l) as [|v vs]; [eexists; split; [reflexivity|]; cbn; now rewrite I1|]. unfold f_resort. cbn [f_by f_df f_with_items f_inplace]. destruct HSr as (S1 & _).
    destruct (S1 (f_by f1) (relabel (map snd (f_df f1) ++ rows))) as (dd & Hd & _); [rewrite B1; reflexivity|]. rewrite Hd. eexists. split; [reflexivity|]. rewrite I1. now destruct (f_inplace f1).
  - right. destruct (mapM (validate_item f1) (map sol_item l)) as [vs|e] eqn:Ev.
    + exfalso. pose proof (validated_filable k A x w t HLx HLw eq_refl f1 _ _ F1 Ev) as HFl.
      assert (HX : exists v, filable A x w t (sol_item s) v) by (eapply F2_in; [exact HFl|now apply in_map]). destruct HX as (v & HV). destruct HV as [(V1 & V2 & V3 & V4 & V5 & V6) HV]. 
      assert (Ea : fi_actions v = s_actions s).
      { cbn in V2. assert (Q : finite_all (map Fin (fi_actions v)) = finite_all (map Fin (s_actions s))) by (injection V2 as V2; now rewrite V2). rewrite !finite_all_fin in Q. congruence. }
      rewrite Ea in *. cbn in V3. destruct K as [K|[K|K]].
      * apply n_changed_pos in V5. lia.
      * injection V3 as V3. destruct V6 as [V6|(c & V6 & Pc)]; rewrite V6 in V3; [discriminate V3|]. injection V3 as <-. qlra.
      * contradiction.
    + exists f1, e, s. split; [unfold f_add; now rewrite Ev|]. auto.
Qed.

(** ** What a tolerance can do to a flipset *)
Lemma right_made E k A w t x ct b0 d s ms : aset_reachable E A -> mk_builder E k A (coef_args w t) ct (Some x) = Ok b0 -> ok_env E -> right_test d s b0 = true -> bd_mip b0 = Some ms -> valid_within d (ms_mip ms) (SOptimal s false).
Proof.
  intros HAr HMk HE HT Hm. unfold right_test in HT. rewrite Hm in HT. apply andb_true_iff in HT. destruct HT as [HT H3]. apply andb_true_iff in HT. destruct HT as [H1 H2].
  split; [now apply meets_withinb_ok|]. intros s' Hs. destruct ideal_solver_exists as (sv & SS & SF).
  destruct (created_own E sv k A x w t ct b0 HAr HMk) as (b & _ & HAs). destruct (assigned_ready _ sv _ _ _ HE HAs) as (ms' & R). pose proof (gd_mip _ _ _ (rd_good _ _ _ _ _ R)) as Q. rewrite Hm in Q. injection Q as <-.
  destruct (fit_test_ok sv b0 ms _ _ SS SF (rd_good _ _ _ _ _ R) H3) as (b1 & r & Hf & Ht). pose proof (fit_sol _ _ _ _ _ Hm Hf) as K. specialize (SS (bd_calls b0) (ms_mip ms)).
  pose proof (finishing_good sv _ _ _ SF (rd_good _ _ _ _ _ R)) as HC.
  destruct (sv (bd_calls b0) (ms_mip ms)) as [a [|]|a| |]; try (destruct HC; fail).
  - destruct SS as [_ SS]. specialize (SS s' Hs). destruct r as [si|]; [|discriminate Ht]. cbn [view] in Ht. qbool.
    unfold solution_info in K. destruct (bd_kind b0); cbn [exposed] in K; injection K as ->; cbn [s_cost] in Ht; (destruct (bd_cost b0); [| |discriminate H2]); qlra.
  - exfalso. specialize (SS s'). congruence.
Qed.
Definition coarseb (d M : Qc) (A : action_set) (x : list Qc) : bool := forall_at (as_elems A) x (fun e xj => forallb (fun v => (v =? xj) || (d * (1 + M * qz (1 + Z.of_nat (length (e_grid e)))) <? qabs (v - xj))) (targets e xj)).
Lemma coarseb_ok d M A x : coarseb d M A x = true -> coarse d M A x.
Proof.
  intros H j e xj v He Hx HP N. pose proof (forall_at_ok _ _ _ _ _ _ H He Hx) as K. cbn beta in K. rewrite forallb_forall in K. specialize (K v (targets_ok _ _ _ HP)).
  apply orb_true_iff in K. destruct K as [K|K]; qbool; [contradiction|exact K].
Qed.
Definition d8 : Qc := qfrac 1 100000000.
Definition e9 : Qc := qfrac 1 1000000000.
Lemma d8_0 : 0 <= d8.
Proof. apply qle_iff; vm_compute; reflexivity. Qed.
(** Feature 0 moves by [n], less [e]; feature 1 stays. *)
Definition short (n : nat) (e : Qc) : assignment := fun v => match v with VU 0 j => if Nat.eqb j n then 1 else 0 | VU 1 0 => 1 | VA 0 => qz (Z.of_nat n) - e | _ => 0 end.
Definition sol_test (b0 : builder) (s : assignment) (t : sol -> bool) : bool :=
  match bd_mip b0 with Some ms => match solution_info (bd_kind b0) (bd_cost b0) (length (bd_w b0)) ms (SOptimal s false) with Some i => t i | None => false end | None => false end.
Lemma sol_test_ok E k A w t x ct b0 d s T : aset_reachable E A -> mk_builder E k A (coef_args w t) ct (Some x) = Ok b0 -> ok_env E -> 0 <= d -> right_test d s b0 = true -> sol_test b0 s T = true ->
  exists sv b1 i, solver_within d sv /\ finishing_solver sv /\ fit sv b0 = Ok (b1, Some i) /\ T i = true.
Proof.
  intros HAr HMk HE Hd HR HT. unfold sol_test in HT. destruct (bd_mip b0) as [ms|] eqn:Hm; [|discriminate HT]. destruct (solution_info _ _ _ _ _) as [i|] eqn:HS; [|discriminate HT].
  pose proof (right_made E k A w t x ct b0 d s ms HAr HMk HE HR Hm) as HV. destruct ideal_solver_exists as (sv & SS & SF).
  exists (prefers d s sv). eexists _, i. split; [now apply prefers_within|]. split; [now apply prefers_finishing|]. split; [|exact HT].
  unfold fit, solve_mip. rewrite Hm. cbn [bind]. rewrite (prefers_at _ _ _ _ _ HV). unfold get_solution. cbn [with_mip bd_mip bd_sol bd_kind bd_cost bd_w with_call bind]. rewrite HS. reflexivity.
Qed.
Definition made_case (c : scenario) (test : action_set -> builder -> bool) : bool :=
  ok_and (sc_aset c) (fun A => ok_and (mk_builder (sc_env c) (sc_kind c) A (coef_args (sc_w c) (sc_t c)) (sc_cost c) (Some (sc_x c))) (test A)).
Lemma made_case_ok c test : made_case c test = true -> exists A b0, aset_reachable (sc_env c) A /\ mk_builder (sc_env c) (sc_kind c) A (coef_args (sc_w c) (sc_t c)) (sc_cost c) (Some (sc_x c)) = Ok b0 /\ test A b0 = true.
Proof. unfold made_case. intro H. apply ok_and_true in H. destruct H as (A & HA & H). apply ok_and_true in H. destruct H as (b & Hb & H). exists A, b. split; [exact (sc_aset_reach _ _ HA)|auto]. Qed.

(** The item is refused, and with it all others. *)
Theorem tol_lost k et : exists sv A f, solver_within d8 sv /\ finishing_solver sv /\ aset_reachable env0 A /\ unconstrained A /\ fine_for d8 A /\ changes_up_to (z 3) A x01 /\ coarse d8 (z 3) A x01 /\ denied (as_y A) (score [z 1; z 1] (- z 2) x01) /\
  flipset_created k A x01 [z 1; z 1] (- z 2) None f /\
  forall srt fuel total, ok_sorter srt -> total <> Some 0%nat -> (4 < fuel)%nat -> exists f' e, f_populate env0 sv srt fuel total et CTotal f = Some (f', Err e) /\ f_items f' = [].
Proof.
  assert (HT : made_case (sc2 k CTotal (- z 2)) (fun A b0 => unconstrainedb A && (as_y A =? 1)%Z && Nat.eqb (as_len A) 2 && fineb d8 A && changesb (z 3) A x01 && coarseb d8 (z 3) A x01 && right_test d8 (short 1 e9) b0 &&
     sol_test b0 (short 1 e9) (fun i => prediction [z 1; z 1] (- z 2) (vadd x01 (s_actions i)) =? -1)%Z) = true) by (destruct k; vm_compute; reflexivity).
  apply made_case_ok in HT. destruct HT as (A & b0 & HA & HM & HT). do 7 (apply andb_true_iff in HT; destruct HT as [HT ?]).
  change (sc_env (sc2 k CTotal (- z 2))) with env0 in *. change (sc_kind (sc2 k CTotal (- z 2))) with k in *. change (sc_w (sc2 k CTotal (- z 2))) with [z 1; z 1] in *. change (sc_t (sc2 k CTotal (- z 2))) with (- z 2) in *.
  change (sc_cost (sc2 k CTotal (- z 2))) with CTotal in *. change (sc_x (sc2 k CTotal (- z 2))) with x01 in *. apply Z.eqb_eq in H5. apply Nat.eqb_eq in H4.
  destruct (sol_test_ok env0 k A _ _ _ _ b0 d8 _ _ HA HM env0_ok d8_0 H0 H) as (sv & b1 & i & S1 & S2 & Hf & Hi). apply Z.eqb_eq in Hi.
  destruct (flipset_made k A x01 [z 1; z 1] (- z 2)) as (f & Hc). exists sv, A, f. split; [exact S1|]. split; [exact S2|]. split; [exact HA|]. split; [now apply unconstrainedb_ok|]. split; [now apply fineb_ok|]. split; [now apply changesb_ok|].
  split; [now apply coarseb_ok|]. split; [rewrite H5; apply deniedb; vm_compute; reflexivity|]. split; [exact Hc|].
  intros srt fuel total HSr HTo Hfu.
  destruct (tol_flipset env0 sv srt k A x01 _ _ f d8 (z 3) fuel total et CTotal b0 env0_ok S1 ltac:(apply Qcle_refl) HSr HA Hc HM (fineb_ok _ _ H3) (changesb_ok _ _ _ H2) HTo) as (b2 & l & Hp & _ & _ & K); [rewrite H4; exact Hfu|].
  pose proof (populate_first _ _ _ _ _ _ _ _ _ Hp Hf) as PF. cbn iota in PF. destruct PF as (l' & ->).
  destruct K as [(f' & K1 & K2)|(f' & e & s & K1 & K2 & _)]; [exfalso|eauto].
  destruct Hc as (a & Pa & HCr). unfold mk_flipset in HCr. rewrite Pa in HCr. cbn [bind] in HCr. injection HCr as <-. unfold f_populate in K1. cbn [f_builder f_kind f_A f_w f_t f_x] in K1. rewrite HM, Hp in K1.
  unfold f_add in K1. cbn [map mapM] in K1. unfold validate_item at 1 in K1. cbn [sol_item it_feasible it_actions it_cost] in K1. unfold validate_action in K1. rewrite map_length in K1. cbn [f_n f_with_builder] in K1.
  destruct (Nat.eqb (length (s_actions i)) (as_len A)) eqn:EL; [|discriminate K1]. cbn [bind] in K1. rewrite finite_all_fin in K1. cbn [bind] in K1.
  destruct (passert (Nat.leb 1 _)); [|discriminate K1]. cbn [bind] in K1. unfold f_yhat, f_predict, f_score, np_add, np_dot in K1. cbn [f_w f_x f_t f_with_builder] in K1. apply Nat.eqb_eq in EL.
  change (length x01) with 2%nat in K1. rewrite EL, H4 in K1. cbn [Nat.eqb length bind] in K1.
  assert (LV : length (vadd x01 (s_actions i)) = 2%nat) by (destruct (s_actions i) as [|p [|q [|? ?]]]; cbn in EL; try (rewrite H4 in EL; discriminate EL); reflexivity).
  rewrite LV in K1. cbn [Nat.eqb bind] in K1. unfold prediction in Hi. replace (- z 2 + dot [z 1; z 1] (vadd x01 (s_actions i))) with (score [z 1; z 1] (- z 2) (vadd x01 (s_actions i))) in K1 by (unfold score; ring). rewrite Hi in K1.
  assert (Q : negb (- z 2 + dot [z 1; z 1] x01 =? qz (-1)) = false) by (vm_compute; reflexivity). rewrite Q in K1. discriminate K1.
Qed.

(** The item is filed although it changes nothing. *)
Theorem tol_not_flipped k et : exists sv A f a c, solver_within d8 sv /\ finishing_solver sv /\ aset_reachable env0 A /\ unconstrained A /\ fine_for d8 A /\ changes_up_to (z 3) A x01 /\ coarse d8 (z 3) A x01 /\ as_y A = 1%Z /\
  prediction [z 1; z 1] (- z 3) x01 = (-1)%Z /\ prediction [z 1; z 1] (- z 3) (vadd x01 a) = (-1)%Z /\ flipset_created k A x01 [z 1; z 1] (- z 3) None f /\
  forall srt fuel, ok_sorter srt -> (4 < fuel)%nat -> exists f', f_populate env0 sv srt fuel (Some 1%nat) et CTotal f = Some (f', Ok tt) /\ f_items f' = [{| fi_actions := a; fi_cost := Fin c |}].
Proof.
  assert (HT : made_case (sc2 k CTotal (- z 3)) (fun A b0 => unconstrainedb A && (as_y A =? 1)%Z && Nat.eqb (as_len A) 2 && fineb d8 A && changesb (z 3) A x01 && coarseb d8 (z 3) A x01 && right_test d8 (short 2 e9) b0 &&
     sol_test b0 (short 2 e9) (fun i => (prediction [z 1; z 1] (- z 3) (vadd x01 (s_actions i)) =? -1)%Z && negb (Nat.eqb (n_changed (s_actions i)) 0) && (0 <? s_cost i))) = true) by (destruct k; vm_compute; reflexivity).
  apply made_case_ok in HT. destruct HT as (A & b0 & HA & HM & HT). do 7 (apply andb_true_iff in HT; destruct HT as [HT ?]).
  change (sc_env (sc2 k CTotal (- z 3))) with env0 in *. change (sc_kind (sc2 k CTotal (- z 3))) with k in *. change (sc_w (sc2 k CTotal (- z 3))) with [z 1; z 1] in *. change (sc_t (sc2 k CTotal (- z 3))) with (- z 3) in *.
  change (sc_cost (sc2 k CTotal (- z 3))) with CTotal in *. change (sc_x (sc2 k CTotal (- z 3))) with x01 in *. apply Z.eqb_eq in H5. apply Nat.eqb_eq in H4.
  destruct (sol_test_ok env0 k A _ _ _ _ b0 d8 _ _ HA HM env0_ok d8_0 H0 H) as (sv & b1 & i & S1 & S2 & Hf & Hi). do 2 (apply andb_true_iff in Hi; destruct Hi as [Hi ?]). apply Z.eqb_eq in Hi. apply negb_true_iff, Nat.eqb_neq in H7. qbool.
  destruct (flipset_made k A x01 [z 1; z 1] (- z 3)) as (f & Hc). exists sv, A, f, (s_actions i), (s_cost i). split; [exact S1|]. split; [exact S2|]. split; [exact HA|]. split; [now apply unconstrainedb_ok|]. split; [now apply fineb_ok|]. split; [now apply changesb_ok|].
  split; [now apply coarseb_ok|]. split; [exact H5|]. split; [vm_compute; reflexivity|]. split; [exact Hi|]. split; [exact Hc|].
  intros srt fuel HSr Hfu.
  destruct (tol_flipset env0 sv srt k A x01 _ _ f d8 (z 3) fuel (Some 1%nat) et CTotal b0 env0_ok S1 ltac:(apply Qcle_refl) HSr HA Hc HM (fineb_ok _ _ H3) (changesb_ok _ _ _ H2) ltac:(discriminate)) as (b2 & l & Hp & Hl & _ & K); [rewrite H4; exact Hfu|].
  pose proof (populate_first _ _ _ _ _ _ _ _ _ Hp Hf) as PF. cbn iota in PF. destruct PF as (l' & ->). specialize (Hl _ eq_refl). cbn [length] in Hl. destruct l' as [|? ?]; [|cbn in Hl; lia].
  destruct K as [(f' & K1 & K2)|(f' & e & s & K1 & K2 & Hin & K)]; [exists f'; split; [exact K1|exact K2]|exfalso].
  destruct Hin as [<-|[]]. destruct K as [K|[K|K]]; [contradiction|qlra|]. rewrite Hi in K. assert (Q : (score [z 1; z 1] (- z 3) x01 =? qz (-1)) = false) by (vm_compute; reflexivity). rewrite K in Q. vm_compute in Q. discriminate Q.
Qed.
(** A case that meets all hypotheses. *)
Lemma tol_flipset_case k ct : exists A b0 f, aset_reachable env0 A /\ flipset_created k A x01 [z 1; z 1] (- z 3) None f /\ mk_builder env0 k A (coef_args [z 1; z 1] (- z 3)) ct (Some x01) = Ok b0 /\
  fine_for d8 A /\ changes_up_to (z 3) A x01 /\ coarse d8 (z 3) A x01 /\ as_len A = 2%nat /\ exists sv, solver_within d8 sv /\ finishing_solver sv.
Proof.
  assert (HT : made_case (sc2 k ct (- z 3)) (fun A b0 => Nat.eqb (as_len A) 2 && fineb d8 A && changesb (z 3) A x01 && coarseb d8 (z 3) A x01) = true) by (destruct k, ct; vm_compute; reflexivity).
  apply made_case_ok in HT. destruct HT as (A & b0 & HA & HM & HT). do 3 (apply andb_true_iff in HT; destruct HT as [HT ?]). apply Nat.eqb_eq in HT.
  destruct (flipset_made k A x01 [z 1; z 1] (- z 3)) as (f & Hc). destruct ideal_solver_exists as (sv & SS & SF).
  exists A, b0, f. split; [exact HA|]. split; [exact Hc|]. split; [exact HM|]. split; [now apply fineb_ok|]. split; [now apply changesb_ok|]. split; [now apply coarseb_ok|]. split; [exact HT|].
  exists sv. split; [apply sound_within; [exact d8_0|exact SS]|exact SF].
Qed.
