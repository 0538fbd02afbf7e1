(** Proofs for C132. *)
From Verif Require Import Spec_setup Proofs_props_element Proofs_props_actionset Proofs_actionset Proofs_bounds Proofs_element Proofs_registry Proofs_builder Proofs_builder3 Proofs_builder6 Proofs_builder7 Proofs_builder8 Proofs_concrete Proofs_scen Proofs_subset Proofs_audit Proofs_audit2 Proofs_audit3 Proofs_props_element Proofs_props_actionset  Proofs_mip Proofs_info Proofs_vec Proofs_build Proofs_enum Proofs_session Proofs_recourse Proofs_exchange Proofs_far Proofs_concrete Proofs_builder Proofs_builder2 Proofs_builder3 Proofs_builder4 Proofs_builder5 Proofs_scen Proofs_scen2 Proofs_builder6 Proofs_builder7 Proofs_builder8 Proofs_flipset Proofs_flipset3  Proofs_audit Proofs_audit2 Proofs_audit3 Proofs_audit4 Proofs_assign2.
#[local] Open Scope string_scope.
#[local] Open Scope list_scope.
#[local] Open Scope Qc_scope.

Definition keeps (e e' : element) : Prop :=
  (e_interp e = None -> e_interp e' = None) /\ e_vtype e' = e_vtype e /\ (e_gint e' = true -> e_gint e = true \/ e_vtype e = TInt).
Lemma keeps_refl e : keeps e e.
Proof. unfold keeps. auto. Qed.
Lemma keeps_trans e1 e2 e3 : keeps e1 e2 -> keeps e2 e3 -> keeps e1 e3.
Proof. intros (A1 & B1 & C1) (A2 & B2 & C2). split; [auto|]. split; [congruence|]. intro H. destruct (C2 H) as [Q|Q]; [auto|right; congruence]. Qed.
Lemma keeps_set n v e e' : n <> "variable_type" -> elem_setattr n v e = Ok e' -> keeps e e'.
Proof. intros HN H. apply setattr_same in H. destruct H as (_ & _ & _ & H1 & H2 & _ & H3 & _). split; [congruence|]. split; [auto|]. intro Q. left. congruence. Qed.
Lemma keeps_list_refl es : Forall2 keeps es es.
Proof. induction es; constructor; auto using keeps_refl. Qed.
Lemma keeps_list_trans l1 l2 l3 : Forall2 keeps l1 l2 -> Forall2 keeps l2 l3 -> Forall2 keeps l1 l3.
Proof. intro H. revert l3. induction H; intros l3 K; inversion K; subst; constructor; eauto using keeps_trans. Qed.
Lemma keeps_list_set es p e e' : nth_error es p = Some e -> keeps e e' -> Forall2 keeps es (list_set p e' es).
Proof.
  revert p. induction es as [|a es IH]; intros [|p] H W; cbn in *; try discriminate H.
  - injection H as ->. constructor; [exact W|apply keeps_list_refl].
  - constructor; [apply keeps_refl|now apply IH].
Qed.
Lemma assign_keeps n vals work es : n <> "variable_type" -> Forall2 keeps es (fst (assign_loop n vals work es)).
Proof.
  intro HN. revert es. induction work as [|[p j] work IH]; intro es; cbn [assign_loop]; [apply keeps_list_refl|].
  destruct (nth_error es p) as [e|] eqn:He; [|apply keeps_list_refl]. destruct (nth_error vals j) as [u|] eqn:Hu; [|apply keeps_list_refl].
  destruct (elem_setattr n u e) as [e'|] eqn:Hs; [|apply keeps_list_refl].
  eapply keeps_list_trans; [|apply IH]. eapply keeps_list_set; eauto using keeps_set.
Qed.
(** What an edit keeps: the constraints, the names, and, feature by feature, [keeps]. *)
Definition keeps_set_of (A A' : action_set) : Prop := as_cons A' = as_cons A /\ as_names A' = as_names A /\ Forall2 keeps (as_elems A) (as_elems A').
Lemma kso_refl A : keeps_set_of A A.
Proof. split; [reflexivity|]. split; [reflexivity|apply keeps_list_refl]. Qed.
Lemma kso_trans A B C : keeps_set_of A B -> keeps_set_of B C -> keeps_set_of A C.
Proof. intros (A1 & N1 & A2) (B1 & N2 & B2). split; [congruence|]. split; [congruence|eapply keeps_list_trans; eauto]. Qed.
Lemma kso_elems A es : Forall2 keeps (as_elems A) es -> keeps_set_of A (with_elems A es).
Proof. intro H. split; [reflexivity|]. split; [reflexivity|exact H]. Qed.
Lemma index_kso A i n v : n <> "variable_type" -> keeps_set_of A (fst (index_setattr A i n v)).
Proof.
  intro H. unfold index_setattr. destruct (select A i) as [ps|]; [|apply kso_refl].
  assert (K1 : keeps_set_of A (fst (match ps with
          | [p] => match nth_error (as_elems A) p with
                   | Some e => match elem_setattr n v e with
                               | Ok e' => (with_elems A (list_set p e' (as_elems A)), Ok tt)
                               | Err x => (A, Err x)
                               end
                   | None => (A, Err KeyError)
                   end
          | _ => (A, Err KeyError)
          end))).
  { destruct ps as [|p [|q ps]]; try apply kso_refl. destruct (nth_error (as_elems A) p) as [e|] eqn:He; [|apply kso_refl]. destruct (elem_setattr n v e) as [e'|] eqn:Hs; [|apply kso_refl].
    apply kso_elems. eapply keeps_list_set; eauto using keeps_set. }
  assert (K2 : keeps_set_of A (fst (if elem_hasattr n then
            let work := slice_dict A ps in
            match expand_values v (length work) with
            | Err x => (A, Err x)
            | Ok vals =>
                let '(es, r) := assign_loop n vals work (as_elems A) in
                (with_elems A es, r)
            end
          else (A, Err AssertionError)))).
  { destruct (elem_hasattr n); [|apply kso_refl]. cbv zeta. destruct (expand_values v _) as [vals|] eqn:Ev; [|apply kso_refl].
    pose proof (assign_keeps n vals (slice_dict A ps) (as_elems A) H) as K. destruct (assign_loop _ _ _ _) as [es r]. cbn [fst] in *. apply kso_elems, K. }
  destruct i; assumption.
Qed.
Lemma keeps_flip e f : keeps e (with_flip e f).
Proof. unfold keeps. cbn. auto. Qed.
Lemma map_keeps (f : element -> element) es : (forall e, keeps e (f e)) -> Forall2 keeps es (map f es).
Proof. intro H. induction es; constructor; auto. Qed.
Lemma align_kso A a A' : set_alignment A a = Ok A' -> length (as_elems A) = as_len A -> keeps_set_of A A'.
Proof.
  unfold set_alignment. intros H HL. bnd H as [coefs t] Hp. bnd H as u Hu. injection H as <-. apply passert_ok, Nat.eqb_eq in Hu. apply kso_elems.
  assert (L : length (as_elems A) = length (map (fun w => if (0 <? as_y A)%Z then qsign w else (- qsign w)%Z) coefs)) by (rewrite map_length; congruence).
  revert L. generalize (map (fun w => if (0 <? as_y A)%Z then qsign w else (- qsign w)%Z) coefs). clear. induction (as_elems A) as [|e es IH]; intros [|f fs] L; cbn in *; try discriminate L; constructor; auto using keeps_flip.
Qed.
Lemma edit_kso E A o : set_up_edit o -> length (as_elems A) = as_len A -> keeps_set_of A (aset_step E A o).
Proof.
  destruct o; cbn [set_up_edit aset_step]; intros H HL; try contradiction.
  - unfold set_setattr. destruct (elem_hasattr attr); [|apply kso_refl]. destruct (expand_values v (as_len A)) as [vals|] eqn:Ev; [|apply kso_refl].
    pose proof (assign_keeps attr vals (map (fun j => (j, j)) (seq 0 (as_len A))) (as_elems A) H) as K. destruct (assign_loop _ _ _ _) as [es r]. cbn [fst] in *. apply kso_elems, K.
  - now apply index_kso.
  - unfold on_elem. destruct (nth_error (as_elems A) j) as [e|] eqn:He; [|apply kso_refl]. apply kso_elems. eapply keeps_list_set; [exact He|]. cbn [elem_step].
    unfold update_grid. destruct (grid_step e =? 0); [apply keeps_refl|]. unfold keeps. cbn. split; [auto|]. split; [reflexivity|]. intro Q. right. destruct (e_vtype e); try discriminate Q; reflexivity.
  - unfold set_y_desired. destruct (_ || _ || _)%Z; [|apply kso_refl]. cbn [passert bind]. destruct (y =? as_y A)%Z; [apply kso_refl|]. destruct (alignment_known _); [|split; [reflexivity|]; split; [reflexivity|apply keeps_list_refl]].
    split; [reflexivity|]. split; [reflexivity|]. cbn. apply map_keeps. intro e. apply keeps_flip.
  - destruct (set_alignment A a) as [A'|] eqn:EA; [|apply kso_refl]. eapply align_kso; eauto.
Qed.
Lemma run_kso E A edits : Forall set_up_edit edits -> length (as_elems A) = as_len A -> keeps_set_of A (aset_run E A edits).
Proof.
  unfold aset_run. intro H. revert A. induction H as [|o edits Ho _ IH]; intros A HL; cbn [fold_left]; [apply kso_refl|].
  pose proof (edit_kso E A o Ho HL) as K. eapply kso_trans; [exact K|]. apply IH. destruct K as (_ & K1 & K2). apply Forall2_length in K2. unfold as_len in *. congruence.
Qed.
Lemma update_vtype e e' : update_grid e = Ok e' -> e_vtype e' = e_vtype e.
Proof. unfold update_grid. destruct (grid_step e =? 0); intro H; [discriminate H|]. injection H as <-. reflexivity. Qed.
Lemma element_vtype name values bounds t act st sd ss e : mk_element name values bounds (PType t) act st sd ss = Ok e -> e_vtype e = t.
Proof.
  unfold mk_element. intro H. bnd H as u0 H0. bnd H as u1 H1. bnd H as e1 K1. bnd H as e2 K2. bnd H as e3 K3. bnd H as e4 K4. bnd H as e5 K5. bnd H as e6 K6. bnd H as e7 K7. bnd H as u2 K8. injection H as <-.
  cbn in K1. injection K1 as <-. apply set_actionable_ok in K2. destruct K2 as (a & ->). apply set_bounds_ok in K3. destruct K3 as (b & lb & ub & tv & Hb & ->). apply set_step_type_ok in K4. destruct K4 as (stp & ->).
  apply set_step_size_ok in K5. destruct K5 as (q & Hq & Hq1 & ->). unfold set_step_direction in K6. bnd K6 as z Hz. injection K6 as <-. apply update_vtype in K7. rewrite K7. reflexivity.
Qed.
Lemma column_vtype custom dflt dst n col e : mk_column_element custom dflt dst n col = Ok e -> e_vtype e = determine_variable_type col.
Proof. unfold mk_column_element. intro H. destruct (determine_variable_type col); eapply element_vtype; exact H. Qed.
(** ** What the edits leave of a fresh action set *)
Lemma set_up_props E X A : set_up E X A -> aset_reachable E A /\ current_percentiles A /\ unconstrained A /\ forall x, like_rows X x -> fits_grids A x.
Proof.
  intros (names & y & custom & dflt & dst & A0 & edits & H0 & HE & ->). pose proof H0 as HM. apply mk_aset_spec in H0. destruct H0 as (HV & HT & En & Ec & _ & HL & HC).
  assert (HR0 : aset_created A0) by (do 6 eexists; exact HM).
  assert (L0 : length (as_elems A0) = as_len A0) by (unfold as_len; congruence).
  pose proof (run_kso E A0 edits HE L0) as (K1 & _ & K2). apply Forall2_nth in K2. destruct K2 as (K2 & K3).
  assert (G : forall j e, nth_error (as_elems (aset_run E A0 edits)) j = Some e -> exists e0, nth_error (as_elems A0) j = Some e0 /\ keeps e0 e /\ elem_created e0 /\ e_vtype e0 = determine_variable_type (column X j)).
  { intros j e He. assert (Hl : (j < length (as_elems A0))%nat) by (rewrite K2; apply nth_error_Some; congruence).
    destruct (nth_error (as_elems A0) j) as [e0|] eqn:H0'; [|apply nth_error_None in H0'; lia]. destruct (nth_error names j) as [n|] eqn:Hn; [|apply nth_error_None in Hn; lia].
    pose proof (HC j n e0 Hn H0') as Q. exists e0. split; [reflexivity|]. split; [exact (K3 _ _ _ H0' He)|]. split; [apply (mk_column_created _ _ _ _ _ _ Q)|exact (column_vtype _ _ _ _ _ _ Q)]. }
  split; [exists A0, edits; auto|]. split; [|split].
  - intros j e He. destruct (G j e He) as (e0 & _ & (KK & _) & Hc & _). apply (created_inv E) in Hc. destruct Hc as (_ & Hi & _). unfold percentile_grid. rewrite (KK Hi). reflexivity.
  - unfold unconstrained. rewrite K1, Ec. reflexivity.
  - intros x HX j e xj He Hx Hg. destruct (G j e He) as (e0 & H0' & (_ & _ & KK) & Hc & Hvt). apply (created_inv E) in Hc. destruct Hc as (_ & _ & _ & _ & _ & _ & Hgi).
    assert (TI : e_vtype e0 = TInt) by (destruct (KK Hg) as [Q|Q]; [rewrite Hgi in Q; destruct (e_vtype e0); try discriminate Q; reflexivity|exact Q]).
    rewrite Hvt in TI. apply dvt_int in TI. destruct TI as [TI _]. apply (HX j xj Hx). intros row v Hr Hv. rewrite Forall_forall in TI. apply TI. unfold column. apply in_map_iff. exists row. split; [now apply nth_error_nth|exact Hr].
Qed.

(** ** Audits *)
Lemma rows_like_rows (X : list (list Qc)) r : In r X -> like_rows X r.
Proof. intros H j xj Hx K. exact (K r xj H Hx). Qed.
Lemma setup_audit {I} E sv k X A w t b (rows : list (I * list Qc)) y b' out : ok_env E -> sound_solver sv -> finishing_solver sv -> density E ->
  set_up E X A -> auditor_used E sv k A w t b -> (0 <? y)%Z = (0 <? as_y A)%Z -> (forall p, In p rows -> like_rows X (snd p)) ->
  audit E sv b (table_of rows) y = (b', Ok out) ->
  Forall2 (fun p q => fst q = fst p /\ (snd q = None <-> has_outcome y (score w t (snd p))) /\
    (denied y (score w t (snd p)) ->
      (exists a cs c, snd q = Some (true, Fin c) /\ permitted_action A (snd p) a /\ on_side y (score w t (vadd (snd p) a)) /\ action_costs E CMax A (snd p) a cs /\ largest cs c /\ 0 < c) \/
      (snd q = Some (false, PosInf) /\ forall a, permitted_action A (snd p) a -> ~ on_side y (score w t (vadd (snd p) a))))) rows out.
Proof.
  intros HE HS HF HD HU Hus HY HX Ha. destruct (set_up_props E X A HU) as (HR & HC & HUn & HFi).
  assert (Hre : auditor_reachable E sv k A w t b) by (destruct Hus as (b0 & ops & H1 & _ & H2); exists b0, ops; auto).
  pose proof (c50 E sv k A w t b rows y b' out Hre Ha) as T1. pose proof (c52 E sv k A w t b rows y b' out HE HS HF HD HR HC Hus HY Ha) as T2. pose proof (c52_cost E sv k A w t b rows y b' out HE HS HF HR Hus Ha) as T3.
  assert (Hside : forall q, on_side (as_y A) q = on_side y q) by (intro q; symmetry; now apply side_sign).
  clear Ha Hre Hus. revert HX T2 T3. induction T1 as [|[i x] [i' v] rows out T1 _ IH]; intros HX T2 T3; inversion T2 as [|? ? ? ? T2a T2b]; subst; inversion T3 as [|? ? ? ? T3a T3b]; subst; constructor; [|apply IH; auto; intros p Hp; apply HX; now right].
  clear IH T2b T3b T2 T3. cbn [fst snd] in *. destruct T1 as [T1 T1']. split; [exact T1|]. split; [exact T1'|]. intro D.
  assert (HO : orderly E A w x) by now apply unconstrained_orderly. pose proof (HFi x (HX _ (or_introl eq_refl))) as FG.
  destruct (T2a HO D) as (V1 & V2). destruct v as [[f c]|].
  - destruct (T3a f c eq_refl) as [[-> ->]|(-> & a & cs & m & -> & P1 & _ & P2 & _ & P3 & P4 & P5)].
    + right. split; [reflexivity|]. intros a Pa. apply (proj1 V2 eq_refl a Pa); [now apply fits_movable|now apply unconstrained_compliant].
    + left. rewrite Hside in P2. exists a, cs, m. repeat (split; [assumption || reflexivity|]). assumption.
  - exfalso. apply proj1 in T1'. specialize (T1' eq_refl). unfold has_outcome, denied, on_side in *. destruct (0 <? y)%Z; [now apply D|]. apply D. now apply Qclt_le_weak.
Qed.

(** ** Individuals *)
Lemma setup_fit E sv k X A args ct w t x b0 : ok_env E -> sound_solver sv -> finishing_solver sv -> density E -> log_ok E ct ->
  set_up E X A -> parse_classifier_args args = Ok (w, t) -> alignment_known A = false \/ flips_match A w -> mk_builder E k A args ct (Some x) = Ok b0 ->
  like_rows X x -> denied (as_y A) (score w t x) ->
  exists b1 r, fit sv b0 = Ok (b1, r) /\
    match r with
    | Some s => permitted_action A x (s_actions s) /\ on_side (as_y A) (score w t (vadd x (s_actions s)))
    | None => forall a, permitted_action A x a -> ~ on_side (as_y A) (score w t (vadd x a))
    end.
Proof.
  intros HE HS HF HD HL HU Hp HA Hb HX Dn. destruct (set_up_props E X A HU) as (HR & HC & HUn & HFi).
  destruct (fresh_verdict E sv k A args ct w t x b0 HE HS HF HD HL HR Hp Hb (unconstrained_orderly _ _ _ _ HUn) HA HC Dn) as (b1 & r & H1 & H2). exists b1, r. split; [exact H1|].
  destruct r as [s|]; [destruct H2 as (P1 & _ & P2 & _); auto|]. intros a Pa. apply H2; [exact Pa| |now apply unconstrained_compliant]. apply fits_movable. now apply HFi.
Qed.

(** ** A case: the first feature is made fixed, the grid of the second recomputed, then an audit *)
Definition sc132 := mk env0 tab2 ["a"; "b"] 1 [OIndexSet (IStr "a") "actionable" (PBool false); OUpdateGrid 1; ODesire 1] PyMIP [z 1; z 1] (- z 3) CMax x01.
Lemma sc_set_up c A : sc_aset c = Ok A -> Forall set_up_edit (sc_ops c) -> set_up (sc_env c) (sc_X c) A.
Proof.
  #[local] Transparent sc_aset. intros H HE. unfold sc_aset in H. bnd H as A0 H0. injection H as <-. exists (sc_names c), (sc_y c), [], default_bounds, default_step_type, A0, (sc_ops c). split; [exact H0|]. split; [exact HE|reflexivity].
Qed.
#[global] Opaque sc_aset.
Lemma like_ints X x : Forall is_int x -> like_rows X x.
Proof. intros H j xj Hx _. rewrite Forall_forall in H. apply H. exact (nth_error_In _ _ Hx). Qed.
Lemma aud_case_setup c test : aud_case c test = true -> Forall set_up_edit (sc_ops c) -> exists A b, set_up (sc_env c) (sc_X c) A /\ auditor_created (sc_env c) (sc_kind c) A (sc_w c) (sc_t c) b /\ test A b = true.
Proof.
  unfold aud_case. intros H HE. apply ok_and_true in H. destruct H as (A & HA & H). apply ok_and_true in H. destruct H as (b & Hb & H). exists A, b. split; [exact (sc_set_up _ _ HA HE)|]. split; [|exact H].
  exists (sc_args (sc_w c) (sc_t c)). split; [exact (coef_parse _ _)|exact Hb].
Qed.
Lemma setup_case : exists A b, set_up env0 tab2 A /\ auditor_created env0 PyMIP A [z 1; z 1] (- z 3) b /\ as_y A = 1%Z /\ (forall p, In p X_case -> like_rows tab2 (snd p)) /\
  forall sv, sound_solver sv -> finishing_solver sv -> exists b' v, audit env0 sv b (table_of X_case) 1 = (b', Ok [(5%nat, Some (true, v)); (7%nat, None); (9%nat, Some (true, v))]).
Proof.
  assert (HT : aud_case sc132 (fun A b => (as_y A =? 1)%Z && x_test env0 b x01 (fun r => match r with Some _ => true | None => false end)) = true) by (vm_compute; reflexivity).
  apply aud_case_setup in HT; [|repeat constructor; cbn; discriminate]. destruct HT as (A & b & HU & HC & HT). apply andb_true_iff in HT; destruct HT as [HT ?]. change (sc_env sc132) with env0 in *. exists A, b. split; [exact HU|]. split; [exact HC|].
  split; [now apply Z.eqb_eq|]. split; [intros p Hp; apply like_ints; apply forallb_ints; destruct Hp as [<-|[<-|[<-|[]]]]; vm_compute; reflexivity|].
  destruct (set_up_props _ _ _ HU) as (HA & _).
  intros sv HS HF. destruct (auditor_fresh _ _ _ _ _ _ HA HC) as (F & _). pose proof (fr_w _ _ _ _ _ _ _ F) as Ew. pose proof (fr_t _ _ _ _ _ _ _ F) as Et.
  assert (Td : exists i, todo_of b 1 (map snd X_case) = [(i, x01)]). { unfold todo_of. rewrite Ew, Et. exists 0%nat. vm_compute; reflexivity. }
  assert (N1 : X_case <> []) by discriminate.
  assert (N2 : forall p, In p X_case -> length (snd p) = length (bd_w b)) by (intros p Hp; rewrite Ew; destruct Hp as [<-|[<-|[<-|[]]]]; reflexivity).
  assert (N3 : label 1) by now left.
  destruct (audit_one env0 sv b _ _ x01 _ env0_ok HS HF (created_reach _ _ _ _ _ _ _ HA HC) N1 N2 N3 Td H) as (b' & r & g & Hr & Ha & Hg).
  pose proof (c50 env0 sv PyMIP A _ _ b X_case 1 b' _ (ex_intro _ b (ex_intro _ [] (conj HC eq_refl))) Ha) as K.
  cbn [X_case map fst snd] in *. rewrite Hg in * by now left. rewrite Ha. inversion K as [|? ? ? ? _ K2]; subst. inversion K2 as [|? ? ? ? K3 _]; subst. destruct K3 as [_ K3]. cbn [snd] in K3.
  assert (g x44 = None) as ->. { apply K3. unfold has_outcome. change (0 <? 1)%Z with true. cbn iota. apply qle_iff; vm_compute; reflexivity. }
  destruct r as [s|]; [|discriminate Hr]. cbn [verdict_of]. exists b', (Fin (s_cost s)). reflexivity.
Qed.
Lemma like_case : like_rows tab2 [z 9; - z 4] /\ ~ like_rows tab2 [qfrac 1 2; z 0].
Proof.
  split; [apply like_ints, forallb_ints; vm_compute; reflexivity|]. intro H. assert (K : is_int (qfrac 1 2)).
  { apply (H 0%nat _ eq_refl). intros row v Hr Hv. repeat (destruct Hr as [<-|Hr]; [cbn in Hv; injection Hv as <-; eexists; reflexivity|]). destruct Hr. }
  assert (Q : Forall is_int [qfrac 1 2]) by auto. apply forallb_ints in Q. vm_compute in Q. discriminate Q.
Qed.
