(** Concrete pools for C127. *)
From Verif Require Import Spec_pool Proofs_props_element Proofs_props_actionset Proofs_actionset Proofs_recourse Proofs_subset Proofs_concrete Proofs_scen Proofs_scen2 Proofs_flipset Proofs_flipset3 Proofs_builder Proofs_builder2 Proofs_builder3 Proofs_builder5 Proofs_builder6 Proofs_builder7 Proofs_builder8 Proofs_shared Proofs_list2 Proofs_pool Proofs_pool2.
#[local] Open Scope list_scope.
#[local] Open Scope Qc_scope.

Definition pair_ops (b : builder) (x : list Qc) : list pool_op :=
  [PNew (bd_kind b) (bd_A b) x (coef_args (bd_w b) (bd_t b)); PNew (bd_kind b) (bd_A b) x (coef_args (bd_w b) (bd_t b))].
Lemma pair_one b x : Forall (one_person b x) (pair_ops b x).
Proof. repeat constructor; apply coef_parse. Qed.
Lemma pair_first E sv srt b x b0 fuel total et ct : ok_env E -> sound_solver sv -> finishing_solver sv -> density E -> log_ok E (bd_cost b) -> assigned E sv b x b0 -> denied (as_y (bd_A b)) (score (bd_w b) (bd_t b) x) ->
  orderly E (bd_A b) (bd_w b) x -> flips_match (bd_A b) (bd_w b) -> regular E (bd_A b) x -> (bd_kind b = CPX -> switches_off E (bd_A b) x) -> (exists a, acceptable b x a) ->
  (2 ^ as_len (bd_A b) < fuel)%nat -> total <> Some 0%nat ->
  exists f g f' r, po_f (pool_run E sv srt {| po_b := b0; po_f := [] |} (pair_ops b x)) = [f; g] /\ f_populate E sv srt fuel total et ct f = Some (f', r) /\ f_items f' <> [] /\ f_items f = [] /\ f_items g = [] /\
    (ok_sorter srt -> r = Ok tt) /\ forall ct', total = None -> forall s, s = pool_run E sv srt {| po_b := b0; po_f := [] |} (pair_ops b x ++ [PUse 0 (FPopulate fuel total et ct); PUse 1 (FPopulate fuel total et ct')]) ->
      exists f1 g1, po_f s = [f1; g1] /\ f_items f1 = f_items f' /\ f_items g1 = [].
Proof.
  intros HE HS HF HDe HL HA HD HOr HFl HR HX (a & Ha) Hfu HT.
  destruct (c39_term_thm E sv b x b0 [] b0 fuel total et HE HS HA (en_done sv b0) HT Hfu) as (c & l2 & Hp & _).
  assert (EM : mk_flipset (bd_kind b) (bd_A b) x (coef_args (bd_w b) (bd_t b)) (Some b0) = Ok {| f_A := bd_A b; f_n := as_len (bd_A b); f_names := as_names (bd_A b); f_kind := bd_kind b; f_x := x; f_w := bd_w b; f_t := bd_t b; f_builder := Some b0;
        f_items := []; f_df := []; f_by := [KSize; KCost; KScore]; f_inplace := true |}). { unfold mk_flipset. rewrite coef_parse. reflexivity. }
  set (f0 := {| f_A := bd_A b |}) in EM.
  assert (E2 : pool_run E sv srt {| po_b := b0; po_f := [] |} (pair_ops b x) = {| po_b := b0; po_f := [f0; f0] |}). { unfold pool_run, pair_ops. cbn [fold_left pool_step po_b po_f]. rewrite EM. cbn [lend map app po_b po_f]. rewrite EM. reflexivity. }
  assert (K0 : kept b x b0 [] 0 f0). { split; [reflexivity|]. split; [|reflexivity]. exists (bd_kind b), (bd_A b). split; [reflexivity|now constructor]. }
  destruct (call_populate E sv srt b x b0 HE HS HA HD [] b0 0 f0 fuel total et ct c l2 (en_done sv b0) K0 Hp) as (f' & r & P1 & P2 & P3 & (kf & Af & EAf & Ff)).
  exists f0, f0, f', r. split; [now rewrite E2|]. split; [exact P1|].
  assert (NE : l2 <> []).
  { intro Q. subst l2. destruct (c39_exh_thm E sv b x b0 [] b0 fuel total et [] c a HE HS HF HDe HL HA HOr HFl HR HX (en_done sv b0) Hp HT Ha) as (e1 & r1 & [] & _). }
  split; [rewrite P3; cbn; destruct l2; [now elim NE|discriminate]|]. split; [reflexivity|]. split; [reflexivity|]. split.
  - intro HSr. revert P1. unfold f_populate. cbn [f0 f_builder]. rewrite Hp. set (g0 := f_with_builder _ _). unfold f_add. destruct (mapM (validate_item g0) (map sol_item l2)) as [vs|e] eqn:Em; [|intro Q; injection Q as Q1 Q2; rewrite <- Q1 in P3; cbn in P3; destruct l2; [now elim NE|discriminate P3]].
    destruct (lens E sv b x b0 HE HA) as [Lx Lw]. assert (F0 : frame (bd_kind b) (bd_A b) x (bd_w b) (bd_t b) g0) by now constructor.
    pose proof (validated_filable _ _ _ _ _ Lx Lw eq_refl _ _ _ F0 Em) as HV. pose proof (filable_lengths (bd_A b) x (bd_w b) (bd_t b) _ _ HV) as HVL.
    unfold add_to_df. destruct vs as [|v vs]; [intro Q; now injection Q|].
    destruct (rows_ok _ _ _ _ _ Lx Lw eq_refl (f_with_items g0 (f_items g0 ++ v :: vs) (f_df g0)) (v :: vs) (frame_items _ _ _ _ _ _ _ _ F0) HVL) as (rows & R1 & _). rewrite R1. unfold f_resort. cbn [f_by f_df f_with_items f_inplace].
    destruct HSr as (S1 & _). destruct (S1 (f_by g0) (relabel (map snd (f_df g0) ++ rows)) eq_refl) as (d & Hd & _). rewrite Hd. intro Q. now injection Q.
  - intros ct' HN s Es. subst total. unfold pool_run in Es. rewrite fold_left_app in Es. unfold pool_run in E2. rewrite E2 in Es. cbn [fold_left pool_step po_f po_b nth_error flipset_step] in Es. rewrite P1 in Es. unfold behind at 1 in Es. rewrite P2 in Es. cbn [list_set lend map po_b po_f nth_error] in Es.
    set (g := f_with_builder f0 (Some c)) in Es.
    assert (KG : kept b x c (map (fun v => (Some 0%nat, (et, v))) l2) 1 g). { split; [reflexivity|]. split; [exists (bd_kind b), (bd_A b); split; [reflexivity|now constructor]|]. rewrite share_other by discriminate. reflexivity. }
    assert (En : enumeration sv b0 (map snd (map (fun v => (Some 0%nat, (et, v))) l2)) c) by (rewrite snd_own; exact (populate_enum _ _ _ _ _ _ _ Hp)).
    destruct (c39_term_thm E sv b x b0 _ c fuel None et HE HS HA En HT Hfu) as (c3 & l3 & Hp3 & _).
    assert (L3 : l3 = []) by (eapply (nothing_left E sv b x b0 HE HS HA HF HDe HL HOr HFl HR HX [] b0 fuel None et l2 c); [constructor|exact Hp|discriminate|exact Hp3]). subst l3.
    destruct (call_populate E sv srt b x b0 HE HS HA HD _ c 1 g fuel None et ct' c3 [] En KG Hp3) as (g1 & r1 & Q1 & Q2 & Q3 & _). cbn [list_set] in Es. rewrite Q1 in Es. unfold behind in Es. rewrite Q2 in Es. subst s. cbn [lend po_f map list_set].
    exists (f_with_builder (f_with_builder f' (Some c)) (Some c3)), (f_with_builder g1 (Some c3)). split; [reflexivity|]. split; [reflexivity|]. cbn [f_with_builder f_items]. rewrite Q3. reflexivity.
Qed.

Lemma pool_case k ct : exists b x b0, (forall sv, assigned env0 sv b x b0) /\ bd_kind b = k /\ bd_cost b = ct /\ denied (as_y (bd_A b)) (score (bd_w b) (bd_t b) x) /\ unconstrained (bd_A b) /\ flips_match (bd_A b) (bd_w b) /\ regular env0 (bd_A b) x /\ acceptable b x [z 2; z 0] /\ acceptable b x [z 1; z 1] /\
  Forall (one_person b x) (pair_ops b x) /\ as_len (bd_A b) = 2%nat.
Proof.
  assert (HT : ok_and (sc_run (sc2 k ct (- z 3))) (fun p => let b := fst p in case_pre k ct b && acceptableb b x01 [z 2; z 0] && acceptableb b x01 [z 1; z 1] && Nat.eqb (as_len (bd_A b)) 2 && deniedb' b x01) = true) by (destruct k, ct; vm_compute; reflexivity).
  apply ok_and_true in HT. destruct HT as ([b b0] & Hr & HT). cbv zeta in HT. cbn [fst] in HT. do 4 (apply andb_true_iff in HT; destruct HT as [HT ?]).
  apply case_pre_ok in HT. destruct HT as ((UN & PO & PF & _) & RG & _ & Pk & Pc). apply acceptableb_ok in H1, H2. apply Nat.eqb_eq in H0. apply deniedb'_ok in H.
  exists b, x01, b0. split; [exact (sc_assigned _ _ _ Hr)|]. repeat (split; [assumption|]). split; [apply pair_one|exact H0].
Qed.
Lemma pair_alone E sv srt b0 k A x a f g : po_f (pool_run E sv srt {| po_b := b0; po_f := [] |} [PNew k A x a; PNew k A x a]) = [f; g] -> po_f (pool_run E sv srt {| po_b := b0; po_f := [] |} [PNew k A x a]) = [f].
Proof.
  unfold pool_run. cbn [fold_left pool_step po_b po_f app]. destruct (mk_flipset k A x a (Some b0)) as [f0|e] eqn:M; cbn [lend po_b po_f map app].
  - rewrite M. cbn [map app po_f lend]. intro Q. injection Q as Q _. rewrite <- Q. destruct f0. reflexivity.
  - rewrite M. cbn [map lend po_f]. discriminate.
Qed.
Lemma pool_case_second k ct et : exists b x b0, (forall sv, assigned env0 sv b x b0) /\ bd_kind b = k /\ bd_cost b = ct /\ denied (as_y (bd_A b)) (score (bd_w b) (bd_t b) x) /\ unconstrained (bd_A b) /\
  let new := PNew k (bd_A b) x (coef_args (bd_w b) (bd_t b)) in
  forall sv srt, sound_solver sv -> finishing_solver sv ->
  (exists f f' r, po_f (pool_run env0 sv srt {| po_b := b0; po_f := [] |} [new]) = [f] /\ f_populate env0 sv srt 5 None et ct f = Some (f', r) /\ f_items f' <> []) /\
  exists f g, po_f (pool_run env0 sv srt {| po_b := b0; po_f := [] |} [new; new; PUse 0 (FPopulate 5 None et ct); PUse 1 (FPopulate 5 None et ct)]) = [f; g] /\ f_items f <> [] /\ f_items g = [].
Proof.
  destruct (pool_case k ct) as (b & x & b0 & H1 & H2 & H3 & H4 & H5 & H6 & H7 & H8 & H9 & H10 & H11). exists b, x, b0. do 5 (split; [assumption|]). cbv zeta. intros sv srt HS HF.
  assert (Hfu : (2 ^ as_len (bd_A b) < 5)%nat) by (rewrite H11; cbn; lia). assert (NT : @None nat <> Some 0%nat) by discriminate.
  assert (HO : orderly env0 (bd_A b) (bd_w b) x) by now apply unconstrained_orderly.
  assert (HX : bd_kind b = CPX -> switches_off env0 (bd_A b) x) by (intros _; now apply c37_unconstrained; [exact env0_ok|]).
  destruct (pair_first env0 sv srt b x b0 5 None et ct env0_ok HS HF env0_density (fun _ => env0_log) (H1 sv) H4 HO H6 H7 HX (ex_intro _ _ H8) Hfu NT) as (f & g & f' & r & P1 & P2 & P3 & _ & _ & _ & P4).
  destruct (P4 ct eq_refl _ eq_refl) as (f1 & g1 & Q1 & Q2 & Q3). unfold pair_ops in P1, Q1. rewrite H2 in P1, Q1. cbn [app] in Q1. split.
  - exists f, f', r. split; [|split; assumption]. exact (pair_alone _ _ _ _ _ _ _ _ _ _ P1).
  - exists f1, g1. split; [exact Q1|]. split; [now rewrite Q2|exact Q3].
Qed.
