(** Audits under a tolerance: clear-cut cases, bounds that always exist, and an individual who is wrongly called feasible. *)
From Verif Require Import Proofs_num Proofs_props_element Proofs_props_actionset Spec_tolerance Proofs_mip Proofs_info Proofs_vec Proofs_build Proofs_enum Proofs_tol Proofs_registry
  Proofs_actionset Proofs_recourse Proofs_subset Proofs_session Proofs_far Proofs_builder Proofs_builder2 Proofs_builder3 Proofs_exchange Proofs_concrete Proofs_scen Proofs_scen2 Proofs_solver Proofs_builder6 Proofs_builder7 Proofs_builder8 Proofs_tol2 Proofs_tol3 Proofs_tol5 Proofs_tol6 Proofs_tol7.
From Verif Require Import Spec_audit Proofs_audit Proofs_audit2 Proofs_audit3 Proofs_audit4 Proofs_tol8.
#[local] Open Scope list_scope.
#[local] Open Scope Qc_scope.

(** ** Bounds exist *)
Definition dists (A : action_set) (x : list Qc) : list Qc := flat_map (fun p => map (fun v => qabs (v - snd p)) (e_grid (fst p))) (combine (as_elems A) x).
Lemma combine_nth_In {A B} (l : list A) (m : list B) : forall j a b, nth_error l j = Some a -> nth_error m j = Some b -> In (a, b) (combine l m).
Proof. revert m. induction l as [|p l IH]; intros [|q m] [|j] a b H K; try discriminate H; try discriminate K; cbn in *; [left; congruence|right; eauto]. Qed.
Lemma changes_bound A x : exists M, changes_up_to M A x.
Proof.
  exists (qmaxl (dists A x) 0). split.
  - induction (dists A x) as [|q l IH]; cbn [qmaxl]; [apply Qcle_refl|]. eapply Qcle_trans; [exact IH|]. unfold qmax. destruct (qle_spec q (qmaxl l 0)); qlra.
  - intros j e xj v He Hx HP. destruct HP as [->|(_ & HG & _)].
    + replace (xj - xj) with 0 by ring. rewrite qabs_0. induction (dists A x) as [|q l IH]; cbn [qmaxl]; [apply Qcle_refl|]. eapply Qcle_trans; [exact IH|]. unfold qmax. destruct (qle_spec q (qmaxl l 0)); qlra.
    + apply qmaxl_ge. unfold dists. apply in_flat_map. exists (e, xj). split; [eapply combine_nth_In; eauto|]. cbn. apply in_map_iff. eauto.
Qed.

Definition price_of (E : env) (ct : cost_type) (e : element) (x v : Qc) : Qc :=
  match percentile E e x, percentile E e v with
  | Ok p, Ok q => match ct with CLocal => if x <=? v then nplog E ((1 - p) / (1 - q)) else nplog E ((1 - q) / (1 - p)) | _ => if x <=? v then q - p else p - q end
  | _, _ => 0 end.
Lemma price_of_ok E ct e x v c : move_cost E ct e x v c -> c = price_of E ct e x v.
Proof. intros (p & q & Ep & Eq & ->). unfold price_of. now rewrite Ep, Eq. Qed.
Definition prices (E : env) (ct : cost_type) (A : action_set) (x : list Qc) : list Qc :=
  flat_map (fun p => map (fun v => qabs (price_of E ct (fst p) (snd p) v)) (snd p :: e_grid (fst p))) (combine (as_elems A) x).
Lemma qmaxl_0 l : 0 <= qmaxl l 0.
Proof. induction l as [|q l IH]; cbn [qmaxl]; [apply Qcle_refl|]. eapply Qcle_trans; [exact IH|]. unfold qmax. destruct (qle_spec q (qmaxl l 0)); qlra. Qed.
Lemma prices_bound E ct A x : exists K, prices_up_to E ct K A x.
Proof.
  exists (qmaxl (prices E ct A x) 0). split; [apply qmaxl_0|]. intros j e xj v p He Hx HP Hm. apply price_of_ok in Hm. subst p. apply qmaxl_ge. unfold prices. apply in_flat_map.
  exists (e, xj). split; [eapply combine_nth_In; eauto|]. cbn [fst snd]. apply in_map_iff. exists v. split; [reflexivity|]. destruct HP as [->|(_ & HG & _)]; [now left|now right].
Qed.

(** ** Clear-cut cases *)
Theorem tol_audit_clear {I} E sv k A w t b (X : list (I * list Qc)) y b' out d : ok_env E -> solver_within d sv -> finishing_solver sv -> density E ->
  aset_reachable E A -> current_percentiles A -> fine_for d A -> auditor_used E sv k A w t b -> (0 <? y)%Z = (0 <? as_y A)%Z -> audit E sv b (table_of X) y = (b', Ok out) ->
  Forall2 (fun p q => forall M, changes_up_to M A (snd p) -> clear_cut (d + action_slack d M A w) A w t (snd p) ->
    orderly E A w (snd p) -> fits_grids A (snd p) -> denied y (score w t (snd p)) ->
    ((exists c, snd q = Some (true, Fin c)) <-> exists a, permitted_action A (snd p) a /\ compliant A (snd p) a /\ on_side y (score w t (vadd (snd p) a))) /\
    (snd q = Some (false, PosInf) <-> forall a, permitted_action A (snd p) a -> compliant A (snd p) a -> ~ on_side y (score w t (vadd (snd p) a)))) X out.
Proof.
  intros HE HS HF HDn HA HCu HD HUs Hy H. pose proof (tol_audit E sv k A w t b X y b' out d HE HS HF HDn HA HD HUs H) as T.
  eapply F2_impl; [|exact T]. intros [i r] [j q]. cbn [fst snd]. intros (_ & HN & HJ) M HM HC HO HFt Hden. destruct (prices_bound E CMax A r) as (K & HK).
  assert (Hside : forall v, on_side y v = on_side (as_y A) v) by (intro v; now apply side_sign).
  assert (Hden' : denied (as_y A) (score w t r)) by (unfold denied in *; now rewrite <- Hside).
  destruct q as [[f c]|].
  - destruct (HJ f c eq_refl) as [(-> & v & -> & J)|(-> & -> & J)].
    + destruct (J M K HM HK) as (a & g & cs & m & J1 & J2 & J3 & J4 & J5 & J6 & _). specialize (J3 HO). pose proof (HC g J1 J6) as J7. rewrite <- Hside in J7. split.
      * split; [intros _; exists g; auto|eauto].
      * split; [intro Q; discriminate Q|]. intro Q. destruct (Q g J1 J3 J7).
    + assert (Q : forall a, permitted_action A r a -> compliant A r a -> ~ on_side y (score w t (vadd r a))) by (intros a Pa Ca; rewrite Hside; apply (J HO HCu Hden' a Pa (fits_movable r A a HFt) Ca)). split.
      * split; [intros (c & Q1); discriminate Q1|]. intros (a & Pa & Ca & Sa). destruct (Q a Pa Ca Sa).
      * split; auto.
  - exfalso. apply Hden. pose proof (proj1 HN eq_refl) as HO'. unfold has_outcome, on_side in *. destruct (0 <? y)%Z; [exact HO'|now apply Qclt_le_weak].
Qed.

(** ** An individual whom no permitted action helps, called feasible *)
Definition far (j : nat) : nat := match j with 0%nat => 3%nat | _ => 2%nat end.
Definition wrong_test (E : env) (b : builder) (x : list Qc) : bool :=
  match set_x E b x with
  | (b0, Ok _) => match bd_mip b0 with
      | Some ms => meets_withinb d6 (ms_mip ms) (assign (ms_infos ms) far) && fit_test b0 (fun r => match r with None => true | Some _ => false end)
      | None => false end
  | _ => false end.
Lemma wrong_test_ok E b x : ok_env E -> (forall sv, builder_reachable E sv b) -> wrong_test E b x = true -> exists sv b0 b1 s, solver_within d6 sv /\ finishing_solver sv /\ set_x E b x = (b0, Ok tt) /\ fit sv b0 = Ok (b1, Some s).
Proof.
  intros HE HR H. unfold wrong_test in H. destruct (set_x E b x) as [b0 [[]|e]] eqn:Hx; [|discriminate H]. destruct (bd_mip b0) as [ms|] eqn:Hm; [|discriminate H]. apply andb_true_iff in H. destruct H as [H1 H2].
  destruct ideal_solver_exists as (sv & SS & SF). destruct (assigned_ready E sv b x b0 HE (conj (HR sv) Hx)) as (ms' & R). pose proof (gd_mip _ _ _ (rd_good _ _ _ _ _ R)) as Q. rewrite Hm in Q. injection Q as <-.
  destruct (fit_test_ok sv b0 ms _ _ SS SF (rd_good _ _ _ _ _ R) H2) as (b1 & r & Hf & Ht). destruct r as [s|]; [discriminate Ht|].
  pose proof (fit_sol _ _ _ _ _ Hm Hf) as K. pose proof (finishing_good sv b0 ms _ SF (rd_good _ _ _ _ _ R)) as HC. pose proof (SS (bd_calls b0) (ms_mip ms)) as SS0.
  assert (HI : forall s, mip_sat (ms_mip ms) s = false).
  { destruct (sv (bd_calls b0) (ms_mip ms)) as [a g|a| |]; cbn in HC; try contradiction; [|exact SS0]. exfalso. unfold solution_info in K. destruct (bd_kind b0), g; cbn [exposed] in K; first [discriminate K|contradiction]. }
  assert (HV : valid_within d6 (ms_mip ms) (SOptimal (assign (ms_infos ms) far) false)) by (split; [now apply meets_withinb_ok|]; intros s' Hs; rewrite HI in Hs; discriminate Hs).
  assert (Hd : 0 <= d6) by (apply qle_iff; vm_compute; reflexivity).
  destruct (solution_info (bd_kind b0) (bd_cost b0) (length (bd_w b0)) ms (SOptimal (assign (ms_infos ms) far) false)) as [s|] eqn:HSol; [|exfalso; unfold solution_info in HSol; destruct (bd_kind b0); discriminate HSol].
  exists (prefers d6 (assign (ms_infos ms) far) sv), b0. eexists _, s. split; [now apply prefers_within|].  split; [now apply prefers_finishing|]. split; [reflexivity|].
  unfold fit, solve_mip. rewrite Hm. cbn [bind]. rewrite (prefers_at _ _ _ _ _ HV). unfold get_solution. cbn [with_mip bd_mip bd_sol bd_kind bd_cost bd_w with_call bind]. rewrite HSol. reflexivity.
Qed.
Definition sc121 (k : backend) := sc2 k CMax (- (z 6 + e7)).
Theorem tol_wrongly_feasible k : exists sv A w t b x b' c, solver_within d6 sv /\ finishing_solver sv /\ aset_reachable env0 A /\ current_percentiles A /\ unconstrained A /\ fits_grids A x /\ auditor_created env0 k A w t b /\ fine_for d6 A /\
  (forall a, permitted_action A x a -> ~ on_side 1 (score w t (vadd x a))) /\ audit env0 sv b (table_of [(0%nat, x)]) 1 = (b', Ok [(0%nat, Some (true, Fin c))]).
Proof.
  assert (HT : aud_case (sc121 k) (fun A b => unconstrainedb A && currentb A && fitsb A x01 && fineb d6 A && none_on_side A [z 1; z 1] (- (z 6 + e7)) 1 x01 && wrong_test env0 b x01) = true) by (destruct k; vm_compute; reflexivity).
  apply aud_case_ok in HT. destruct HT as (A & b & HA & HC & HT). do 5 (apply andb_true_iff in HT; destruct HT as [HT ?]). change (sc_env (sc121 k)) with env0 in *. change (sc_kind (sc121 k)) with k in *. change (sc_w (sc121 k)) with [z 1; z 1] in *. change (sc_t (sc121 k)) with (- (z 6 + e7)) in *.
  destruct (wrong_test_ok env0 b x01 env0_ok (fun sv => created_reach _ sv _ _ _ _ _ HA HC) H) as (sv & b0 & b1 & s & S1 & S2 & S3 & S4).
  destruct (auditor_fresh _ _ _ _ _ _ HA HC) as (F & _). pose proof (fr_w _ _ _ _ _ _ _ F) as Ew. pose proof (fr_t _ _ _ _ _ _ _ F) as Et.
  exists sv, A, [z 1; z 1], (- (z 6 + e7)), b, x01, b1, (s_cost s). split; [exact S1|]. split; [exact S2|]. split; [exact HA|]. split; [now apply currentb_ok|]. split; [now apply unconstrainedb_ok|]. split; [now apply fitsb_ok|]. split; [exact HC|]. split; [now apply fineb_ok|].
  split; [exact (none_on_side_ok _ _ _ _ _ H0)|].
  assert (Td : todo_of b 1 (map snd [(0%nat, x01)]) = [(0%nat, x01)]) by (unfold todo_of; rewrite Ew, Et; vm_compute; reflexivity).
  assert (N1 : [(0%nat, x01)] <> []) by discriminate.
  assert (N2 : forall p, In p [(0%nat, x01)] -> length (snd p) = length (bd_w b)) by (intros p Hp; rewrite Ew; destruct Hp as [<-|[]]; reflexivity).
  assert (N3 : label 1) by now left.
  pose proof (audit_table env0 sv b _ 1 N1 N2 N3) as Q. rewrite Td in Q. cbn [audit_loop] in Q. rewrite S3, S4 in Q. rewrite Q. reflexivity.
Qed.
(** ** A case that meets all hypotheses *)
Definition clearb (r : Qc) (A : action_set) (w : list Qc) (t : Qc) (x : list Qc) : bool :=
  Nat.eqb (length x) (length (as_elems A)) && Nat.eqb (as_len A) (length (as_elems A)) && (as_y A =? 1)%Z && forallb (fun a => (score w t (vadd x a) <? - r) || (0 <=? score w t (vadd x a))) (all_actions (as_elems A) x).
Lemma clearb_ok r A w t x : clearb r A w t x = true -> clear_cut r A w t x.
Proof.
  unfold clearb. intro H. do 3 (apply andb_true_iff in H; destruct H as [H ?]). apply Nat.eqb_eq in H, H2. apply Z.eqb_eq in H1. intros a [P1 P2] HO. rewrite forallb_forall in H0.
  specialize (H0 a (all_actions_In _ x a H ltac:(congruence) P2)). rewrite H1 in *. unfold on_side_within, on_side in *. change (0 <? 1)%Z with true in *. cbn iota in *.
  apply orb_true_iff in H0. destruct H0 as [K|K]; qbool; [exfalso; qlra|exact K].
Qed.
Lemma tol_audit_case k t0 (fe : bool) : (t0 = - z 3 /\ fe = true) \/ (t0 = - z 7 /\ fe = false) -> exists A b, aset_reachable env0 A /\ auditor_created env0 k A [z 1; z 1] t0 b /\
  current_percentiles A /\ orderly env0 A [z 1; z 1] x01 /\ regular env0 A x01 /\ as_y A = 1%Z /\ fits_grids A x01 /\ denied 1 (score [z 1; z 1] t0 x01) /\
  fine_for d6 A /\ changes_up_to (z 3) A x01 /\ clear_cut (d6 + action_slack d6 (z 3) A [z 1; z 1]) A [z 1; z 1] t0 x01 /\
  forall sv, sound_solver sv -> finishing_solver sv -> solver_within d6 sv /\ exists b' v, audit env0 sv b (table_of [(5%nat, x01)]) 1 = (b', Ok [(5%nat, Some (fe, v))]).
Proof.
  intro HT0.
  assert (HT : aud_case (sc2 k CMax t0) (fun A b => unconstrainedb A && currentb A && (as_y A =? 1)%Z && fitsb A x01 && fineb d6 A && changesb (z 3) A x01 && clearb (d6 + action_slack d6 (z 3) A [z 1; z 1]) A [z 1; z 1] t0 x01 &&
     strictb env0 A x01 && resolvableb A x01 && x_test env0 b x01 (fun r => match r with Some _ => fe | None => negb fe end)) = true) by (destruct k, HT0 as [[-> ->]|[-> ->]]; vm_compute; reflexivity).
  apply aud_case_ok in HT. destruct HT as (A & b & HA & HC & HT). do 9 (apply andb_true_iff in HT; destruct HT as [HT ?]). change (sc_env (sc2 k CMax t0)) with env0 in *. change (sc_kind (sc2 k CMax t0)) with k in *.
  change (sc_w (sc2 k CMax t0)) with [z 1; z 1] in *. change (sc_t (sc2 k CMax t0)) with t0 in *. pose proof (unconstrainedb_ok _ HT) as HU.
  exists A, b. split; [exact HA|]. split; [exact HC|]. split; [now apply currentb_ok|]. split; [now apply unconstrained_orderly|]. split; [split; [now apply strictb_ok|now apply resolvableb_ok]|].
  split; [now apply Z.eqb_eq|]. split; [now apply fitsb_ok|]. split; [apply deniedb; destruct HT0 as [[-> _]|[-> _]]; vm_compute; reflexivity|].
  split; [now apply fineb_ok|]. split; [now apply changesb_ok|]. split; [now apply clearb_ok|].
  intros sv HS HF. split; [apply sound_within; [apply qle_iff; vm_compute; reflexivity|exact HS]|].
  destruct (auditor_fresh _ _ _ _ _ _ HA HC) as (F & _). pose proof (fr_w _ _ _ _ _ _ _ F) as Ew. pose proof (fr_t _ _ _ _ _ _ _ F) as Et.
  assert (Td : exists i, todo_of b 1 (map snd [(5%nat, x01)]) = [(i, x01)]) by (unfold todo_of; rewrite Ew, Et; exists 0%nat; destruct HT0 as [[-> _]|[-> _]]; vm_compute; reflexivity).
  assert (N1 : [(5%nat, x01)] <> []) by discriminate.
  assert (N2 : forall p, In p [(5%nat, x01)] -> length (snd p) = length (bd_w b)) by (intros p Hp; rewrite Ew; destruct Hp as [<-|[]]; reflexivity).
  assert (N3 : label 1) by now left.
  destruct (audit_one env0 sv b _ _ x01 _ env0_ok HS HF (created_reach _ _ _ _ _ _ _ HA HC) N1 N2 N3 Td H) as (b' & r & g & Hr & Ha & Hg).
  cbn [map fst snd] in *. rewrite Hg in Ha by now left. destruct r as [s|]; cbn [verdict_of] in Ha.
  - exists b', (Fin (s_cost s)). destruct HT0 as [[_ ->]|[_ ->]]; [exact Ha|discriminate Hr].
  - exists b', PosInf. destruct HT0 as [[_ ->]|[_ ->]]; [discriminate Hr|exact Ha].
Qed.
