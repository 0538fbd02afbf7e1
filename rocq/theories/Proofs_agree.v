(** Proofs for C106: audits, builders and flipsets agree. *)
From Verif Require Import Spec_audit Spec_flipset Proofs_actionset Proofs_builder3 Proofs_builder8 Proofs_audit2 Proofs_audit3 Proofs_concrete Proofs_builder6 Proofs_session Proofs_builder Proofs_builder7 Proofs_scen Proofs_scen2 Proofs_compare4 Proofs_values Proofs_audit4 Proofs_flipset3.
#[local] Open Scope string_scope.
#[local] Open Scope list_scope.
#[local] Open Scope Qc_scope.

Lemma populate_first sv fuel total et b b' l b1 r : populate sv fuel total et b = Some (Ok (b', l)) -> fit sv b = Ok (b1, r) ->
  match r with None => l = [] | Some s => exists l', l = s :: l' end.
Proof.
  unfold populate. intros H Hf. destruct (bd_mip b); [|discriminate H].
  assert (K : populate_loop sv fuel total et b = Some (Ok (b', l)) /\ total <> Some 0%nat) by (destruct total as [[|n]|]; [discriminate H|split; [exact H|discriminate]|split; [exact H|discriminate]]).
  clear H. destruct K as [H HT]. destruct fuel as [|fuel]; cbn [populate_loop] in H.
  - destruct total as [[|n]|]; [congruence|discriminate H|discriminate H].
  - rewrite Hf in H. assert (H' : match r with
        | None => Some (Ok (b1, []))
        | Some i => match remove_solution et b1 with Err e => Some (Err e) | Ok b2 => match populate_loop sv fuel (option_map pred total) et b2 with None => None | Some (Err e) => Some (Err e) | Some (Ok (b3, l)) => Some (Ok (b3, i :: l)) end end end = Some (Ok (b', l)))
      by (destruct total as [[|n]|]; [congruence| |]; destruct r; exact H).
    clear H. destruct r as [s|]; [|congruence]. destruct (remove_solution et b1); [|discriminate H']. destruct (populate_loop _ _ _ _ _) as [[[b3 l3]|]|]; try discriminate H'. injection H' as <- <-. eauto.
Qed.

Lemma Forall2_impl {X Y} (P Q : X -> Y -> Prop) l m : (forall a b, P a b -> Q a b) -> Forall2 P l m -> Forall2 Q l m.
Proof. intros H F. induction F; constructor; auto. Qed.

Lemma agree_verdict {I} E sv sv' srt k k' A w t b (X : list (I * list Qc)) y b' out fuel total et ct : ok_env E -> sound_solver sv -> finishing_solver sv -> sound_solver sv' -> finishing_solver sv' -> ok_sorter srt -> density E -> log_ok E ct ->
  aset_reachable E A -> current_percentiles A -> alignment_known A = false \/ flips_match A w -> auditor_used E sv k A w t b -> (0 <? y)%Z = (0 <? as_y A)%Z ->
  audit E sv b (table_of X) y = (b', Ok out) -> total <> Some 0%nat -> (2 ^ as_len A < fuel)%nat ->
  Forall2 (fun p q => orderly E A w (snd p) -> denied y (score w t (snd p)) ->
    forall f f', flipset_created k' A (snd p) w t None f -> f_populate E sv' srt fuel total et ct f = Some (f', Ok tt) ->
      ((exists c, snd q = Some (true, Fin c)) <-> f_items f' <> []) /\ (snd q = Some (false, PosInf) <-> f_items f' = [])) X out.
Proof.
  intros HE HS HF HS' HF' HSr HD HL HA HC HFl HU HY H HT Hfu. pose proof (c52 E sv k A w t b X y b' out HE HS HF HD HA HC HU HY H) as T.
  eapply Forall2_impl; [|exact T]. clear T. intros [i x] [i' v] T HO HDn f f' HCr HP. cbn [fst snd] in *. destruct (T HO HDn) as [T1 T2]. clear T.
  assert (D : denied (as_y A) (score w t x)) by (unfold denied in *; now rewrite <- (side_sign y _ _ HY)).
  assert (FR : flipset_reachable E sv' srt k' A x w t None f) by (exists f, []; split; [exact HCr|reflexivity]).
  assert (F0 : f_builder f = None /\ f_items f = [] /\ scalar_keys (f_by f)). { destruct HCr as (a & Pa & HCr). unfold mk_flipset in HCr. rewrite Pa in HCr. cbn [bind] in HCr. injection HCr as <-. repeat split. }
  destruct F0 as (F1 & F2 & F3).
  destruct (c45 E sv' srt k' A x w t f fuel total et ct HE HS' HSr HA FR D F3 HT Hfu) as [(e & _ & _ & K)|(b0 & b1 & l & f1 & K1 & K2 & K3 & K4 & K5)]; [rewrite K in HP; discriminate HP|].
  rewrite K3 in HP. injection HP as <-. destruct K1 as [K1|[_ K1]]; [congruence|].
  destruct (fresh_verdict E sv' k' A (coef_args w t) ct w t x b0 HE HS' HF' HD HL HA (coef_parse _ _) K1 HO HFl HC D) as (b2 & r & Hf & Hr).
  pose proof (populate_first _ _ _ _ _ _ _ _ _ K2 Hf) as PF. rewrite F2 in K4. cbn [app] in K4. rewrite K4.
  assert (Hside : forall q, on_side y q = on_side (as_y A) q) by (intro q; now apply side_sign).
  destruct r as [s|].
  - destruct PF as (l' & ->). destruct Hr as (R1 & R0 & R2 & R3). split.
    + split; [intros _; discriminate|]. intros _. apply T1. exists (s_actions s). rewrite Hside. auto.
    + split; [|intro Q; discriminate Q]. intro Q. destruct (proj1 T2 Q (s_actions s) R1 R0 R3). now rewrite Hside.
  - subst l. split.
    + split; [|intro Q; now contradiction Q]. intro Q. apply T1 in Q. destruct Q as (a & Q1 & Q0 & Q2 & Q3). rewrite Hside in Q3. destruct (Hr a Q1 Q0 Q2 Q3).
    + split; [reflexivity|]. intros _. apply T2. intros a Q1 Q0 Q2. rewrite Hside. exact (Hr a Q1 Q0 Q2).
Qed.

Lemma sbf_same A w A1 A2 : same_but_flips A A1 -> same_but_flips A A2 -> flips_match A1 w -> flips_match A2 w -> A1 = A2.
Proof.
  intros (N1 & C1 & Y1 & F1) (N2 & C2 & Y2 & F2) (L1 & M1) (L2 & M2).
  assert (as_elems A1 = as_elems A2).
  { apply Forall2_nth in F1, F2. destruct F1 as [LE1 F1], F2 as [LE2 F2]. apply nth_error_ext_local. intro i.
    destruct (nth_error (as_elems A) i) as [e|] eqn:He.
    - destruct (nth_error (as_elems A1) i) as [e1|] eqn:H1; [|apply nth_error_None in H1; assert (i < length (as_elems A))%nat by (apply nth_error_Some; congruence); lia].
      destruct (nth_error (as_elems A2) i) as [e2|] eqn:H2; [|apply nth_error_None in H2; assert (i < length (as_elems A))%nat by (apply nth_error_Some; congruence); lia].
      destruct (nth_error w i) as [c|] eqn:Hw; [|apply nth_error_None in Hw; assert (i < length (as_elems A1))%nat by (apply nth_error_Some; congruence); lia].
      pose proof (M1 i e1 c H1 Hw) as G1. pose proof (M2 i e2 c H2 Hw) as G2. destruct (F1 i e e1 He H1) as (g1 & ->). destruct (F2 i e e2 He H2) as (g2 & ->). cbn [e_flip with_flip] in G1, G2. rewrite Y1 in G1. rewrite Y2 in G2. congruence.
    - apply nth_error_None in He. transitivity (@None element); [|symmetry]; apply nth_error_None; lia. }
  destruct A1, A2; cbn in *; congruence.
Qed.
(** For one solver, the audit's line is what a builder with cost type 'max' answers for that individual. *)
Lemma agree_builder {I} E sv k A w t b (X : list (I * list Qc)) y b' out : stateless sv ->
  aset_reachable E A -> alignment_known A = false \/ flips_match A w -> auditor_used E sv k A w t b ->
  audit E sv b (table_of X) y = (b', Ok out) ->
  Forall2 (fun p q => denied y (score w t (snd p)) -> forall b0 b1 r, mk_builder E k A (coef_args w t) CMax (Some (snd p)) = Ok b0 -> fit sv b0 = Ok (b1, r) ->
    snd q = Some (match r with Some s => (true, Fin (s_cost s)) | None => (false, PosInf) end)) X out.
Proof.
  intros HSt HA HFl HU H. destruct (used_fresh _ _ _ _ _ _ _ HA HU) as (HR & F & FM).
  apply audit_ok in H. destruct H as (X0 & E0 & HN & HL & Hlab & o & Ho & _ & ->). apply table_inj in E0. subst X0.
  apply Forall2_map_r. intros [i x] Hp. cbn [fst snd]. intros Hden c0 c1 r Hm Hf.
  pose proof (fr_w _ _ _ _ _ _ _ F) as Ew. pose proof (fr_t _ _ _ _ _ _ _ F) as Et.
  destruct (result_judged E sv b y (map snd X) b' o x HR Ho) as (v & -> & bi & b0 & b1 & s & SP & HAs & Hfi & ->).
  { apply in_map_iff. exists (i, x). auto. } { rewrite Ew, Et. now apply denied_audited. }
  assert (Fi : fresh E k A w t CMax bi) by (eapply fresh_same; eauto).
  assert (FMi : flips_match (bd_A bi) w) by (destruct SP as (_ & _ & _ & SA & _); now rewrite SA).
  destruct (created_own E sv k A x w t CMax c0 HA Hm) as (c & Fc & HAc).
  assert (SPc : same_problem bi c).
  { destruct Fi, Fc. repeat split; try congruence. eapply (sbf_same A w); eauto. }
  destruct HAs as [_ Xi], HAc as [_ Xc]. destruct (c41_assign E bi c x SPc) as [_ K]. rewrite Xi, Xc in K. cbn [fst snd] in K. specialize (K eq_refl).
  assert (T : twin b0 c0). { split; [|symmetry; exact K]. pose proof (same_set_x E bi x) as S1. pose proof (same_set_x E c x) as S2. rewrite Xi in S1. rewrite Xc in S2. cbn [fst] in S1, S2.
    eapply same_problem_trans; [apply same_problem_sym, S1|]. eapply same_problem_trans; [exact SPc|exact S2]. }
  pose proof (twin_fit sv b0 c0 HSt T) as Q. rewrite Hfi, Hf in Q. destruct Q as (<- & _). destruct s; reflexivity.
Qed.
(** ... and hence the first item of a flipset populated with cost_type 'max' (no items if there is no recourse). *)
Lemma agree_flipset {I} E sv srt k A w t b (X : list (I * list Qc)) y b' out fuel total et : ok_env E -> sound_solver sv -> stateless sv -> ok_sorter srt ->
  aset_reachable E A -> alignment_known A = false \/ flips_match A w -> auditor_used E sv k A w t b -> (0 <? y)%Z = (0 <? as_y A)%Z ->
  audit E sv b (table_of X) y = (b', Ok out) -> total <> Some 0%nat -> (2 ^ as_len A < fuel)%nat ->
  Forall2 (fun p q => denied y (score w t (snd p)) -> forall f f', flipset_created k A (snd p) w t None f -> f_populate E sv srt fuel total et CMax f = Some (f', Ok tt) ->
    (snd q = Some (false, PosInf) /\ f_items f' = []) \/ exists v vs, f_items f' = v :: vs /\ snd q = Some (true, fi_cost v)) X out.
Proof.
  intros HE HS HSt HSr HA HFl HU HY H HT Hfu. pose proof (agree_builder E sv k A w t b X y b' out HSt HA HFl HU H) as T.
  eapply Forall2_impl; [|exact T]. clear T. intros [i x] [i' v] T HDn f f' HCr HP. cbn [fst snd] in *. specialize (T HDn).
  assert (D : denied (as_y A) (score w t x)) by (unfold denied in *; now rewrite <- (side_sign y _ _ HY)).
  assert (FR : flipset_reachable E sv srt k A x w t None f) by (exists f, []; split; [exact HCr|reflexivity]).
  assert (F0 : f_builder f = None /\ f_items f = [] /\ scalar_keys (f_by f)). { destruct HCr as (a & Pa & HCr). unfold mk_flipset in HCr. rewrite Pa in HCr. cbn [bind] in HCr. injection HCr as <-. repeat split. }
  destruct F0 as (F1 & F2 & F3).
  destruct (c45 E sv srt k A x w t f fuel total et CMax HE HS HSr HA FR D F3 HT Hfu) as [(e & _ & _ & K)|(b0 & b1 & l & f1 & K1 & K2 & K3 & K4 & K5)]; [rewrite K in HP; discriminate HP|].
  rewrite K3 in HP. injection HP as <-. destruct K1 as [K1|[_ K1]]; [congruence|].
  destruct (created_own E sv k A x w t CMax b0 HA K1) as (c & Fc & HAc). destruct (fit_total E sv c x b0 HE HS HAc) as (b2 & r & Hf).
  rewrite (T b0 b2 r K1 Hf). pose proof (populate_first _ _ _ _ _ _ _ _ _ K2 Hf) as PF. rewrite F2 in K4. cbn [app] in K4. rewrite K4. destruct r as [s|].
  - destruct PF as (l' & ->). right. exists (filed s), (map filed l'). split; reflexivity.
  - subst l. left. split; reflexivity.
Qed.
(** ** Someone with nothing to change: the audit says so, populate raises. *)
Definition x33 : list Qc := [z 3; z 3].
Definition X33 : list (nat * list Qc) := [(0%nat, x33)].
Lemma f_pop_err E sv srt fuel total et ct k A x w t f e : flipset_created k A x w t None f -> mk_builder E k A (coef_args w t) ct (Some x) = Err e -> f_populate E sv srt fuel total et ct f = Some (f, Err e).
Proof.
  intros (a & Pa & H) HM. unfold mk_flipset in H. rewrite Pa in H. cbn [bind] in H. injection H as <-. unfold f_populate. cbn [f_builder f_kind f_A f_w f_t f_x]. now rewrite HM.
Qed.
Lemma flipset_made k A x w t : exists f, flipset_created k A x w t None f.
Proof. eexists. exists (coef_args w t). split; [apply coef_parse|]. unfold mk_flipset. rewrite coef_parse. cbn [bind]. reflexivity. Qed.
Lemma agree_refuted : forall ct, ct <> CMax -> exists A b f, aset_reachable env0 A /\ auditor_created env0 PyMIP A [z 1; z 1] (- z 8) b /\ unconstrained A /\ current_percentiles A /\ alignment_known A = false /\ as_y A = 1%Z /\ fits_grids A x33 /\ denied 1 (score [z 1; z 1] (- z 8) x33) /\
  flipset_created PyMIP A x33 [z 1; z 1] (- z 8) None f /\
  forall sv, sound_solver sv -> finishing_solver sv -> (exists b', audit env0 sv b (table_of X33) 1 = (b', Ok [(0%nat, Some (false, PosInf))])) /\
    forall srt fuel total et, f_populate env0 sv srt fuel total et ct f = Some (f, Err KeyError).
Proof.
  intros ct Hct.
  assert (HT : aud_case (sc35 CMax) (fun A b => unconstrainedb A && currentb A && negb (alignment_known A) && (as_y A =? 1)%Z && fitsb A x33 && x_test env0 b x33 none_b &&
     match mk_builder env0 PyMIP A (coef_args [z 1; z 1] (- z 8)) ct (Some x33) with Err KeyError => true | _ => false end) = true) by (destruct ct; [vm_compute; reflexivity|vm_compute; reflexivity|now contradict Hct]).
  apply aud_case_ok in HT. destruct HT as (A & b & HA & HC & HT). do 6 (apply andb_true_iff in HT; destruct HT as [HT ?]). change (sc_env (sc35 CMax)) with env0 in *. change (sc_kind (sc35 CMax)) with PyMIP in *. change (sc_w (sc35 CMax)) with [z 1; z 1] in *. change (sc_t (sc35 CMax)) with (- z 8) in *.
  destruct (flipset_made PyMIP A x33 [z 1; z 1] (- z 8)) as (f & Hf). exists A, b, f. split; [exact HA|]. split; [exact HC|].
  split; [now apply unconstrainedb_ok|]. split; [now apply currentb_ok|]. split; [now apply negb_true_iff|]. split; [now apply Z.eqb_eq|]. split; [now apply fitsb_ok|]. split; [apply deniedb; vm_compute; reflexivity|]. split; [exact Hf|].
  intros sv HS HF. split.
  - destruct (auditor_fresh _ _ _ _ _ _ HA HC) as (F & _). pose proof (fr_w _ _ _ _ _ _ _ F) as Ew. pose proof (fr_t _ _ _ _ _ _ _ F) as Et.
    assert (Td : exists i, todo_of b 1 (map snd X33) = [(i, x33)]). { unfold todo_of. rewrite Ew, Et. exists 0%nat. vm_compute. reflexivity. }
    assert (N1 : X33 <> []) by discriminate.
    assert (N2 : forall p, In p X33 -> length (snd p) = length (bd_w b)) by (intros p Hp; rewrite Ew; destruct Hp as [<-|[]]; reflexivity).
    assert (N3 : label 1) by now left.
    destruct (audit_one env0 sv b _ _ x33 _ env0_ok HS HF (created_reach _ _ _ _ _ _ _ HA HC) N1 N2 N3 Td H0) as (b' & r & g & Hr & Ha & Hg). exists b'. rewrite Ha. cbn [X33 map fst snd]. rewrite Hg by now left. destruct r as [s|]; [discriminate Hr|reflexivity].
  - intros srt fuel total et. eapply f_pop_err; [exact Hf|]. destruct (mk_builder env0 PyMIP A _ ct _) as [|[]]; try discriminate H; reflexivity.
Qed.
(** ** Cases: the auditor and table of [audit_case]; populate works for its denied individual. *)
Lemma agree_case t0 (fe : bool) : (t0 = - z 3 /\ fe = true) \/ (t0 = - z 7 /\ fe = false) -> exists A b f, aset_reachable env0 A /\ auditor_created env0 PyMIP A [z 1; z 1] t0 b /\ unconstrained A /\ current_percentiles A /\ alignment_known A = false /\ as_y A = 1%Z /\ fits_grids A x01 /\ denied 1 (score [z 1; z 1] t0 x01) /\
  flipset_created PyMIP A x01 [z 1; z 1] t0 None f /\
  forall sv, sound_solver sv -> finishing_solver sv -> (exists b' v, audit env0 sv b (table_of [(5%nat, x01)]) 1 = (b', Ok [(5%nat, Some (fe, v))])) /\
    forall srt fuel et ct, ok_sorter srt -> (2 ^ as_len A < fuel)%nat -> exists f', f_populate env0 sv srt fuel None et ct f = Some (f', Ok tt).
Proof.
  intro HT0.
  assert (HT : aud_case (sc52 t0) (fun A b => unconstrainedb A && currentb A && negb (alignment_known A) && (as_y A =? 1)%Z && fitsb A x01 && x_test env0 b x01 (fun r => match r with Some _ => fe | None => negb fe end) &&
     forallb (fun ct => match mk_builder env0 PyMIP A (coef_args [z 1; z 1] t0) ct (Some x01) with Ok _ => true | _ => false end) [CTotal; CLocal; CMax]) = true) by (destruct HT0 as [[-> ->]|[-> ->]]; vm_compute; reflexivity).
  apply aud_case_ok in HT. destruct HT as (A & b & HA & HC & HT). do 6 (apply andb_true_iff in HT; destruct HT as [HT ?]). change (sc_env (sc52 t0)) with env0 in *. change (sc_kind (sc52 t0)) with PyMIP in *. change (sc_w (sc52 t0)) with [z 1; z 1] in *. change (sc_t (sc52 t0)) with t0 in *.
  assert (D : denied 1 (score [z 1; z 1] t0 x01)) by (apply deniedb; destruct HT0 as [[-> _]|[-> _]]; vm_compute; reflexivity).
  destruct (flipset_made PyMIP A x01 [z 1; z 1] t0) as (f & Hf). exists A, b, f. split; [exact HA|]. split; [exact HC|].
  assert (EY : as_y A = 1%Z) by now apply Z.eqb_eq.
  split; [now apply unconstrainedb_ok|]. split; [now apply currentb_ok|]. split; [now apply negb_true_iff|]. split; [exact EY|]. split; [now apply fitsb_ok|]. split; [exact D|]. split; [exact Hf|].
  intros sv HS HF. split.
  - destruct (auditor_fresh _ _ _ _ _ _ HA HC) as (F & _). pose proof (fr_w _ _ _ _ _ _ _ F) as Ew. pose proof (fr_t _ _ _ _ _ _ _ F) as Et. set (X := [(5%nat, x01)]).
    assert (Td : exists i, todo_of b 1 (map snd X) = [(i, x01)]). { unfold todo_of. rewrite Ew, Et. exists 0%nat. destruct HT0 as [[-> _]|[-> _]]; vm_compute; reflexivity. }
    assert (N1 : X <> []) by discriminate.
    assert (N2 : forall p, In p X -> length (snd p) = length (bd_w b)) by (intros p Hp; rewrite Ew; destruct Hp as [<-|[]]; reflexivity).
    assert (N3 : label 1) by now left.
    destruct (audit_one env0 sv b _ _ x01 _ env0_ok HS HF (created_reach _ _ _ _ _ _ _ HA HC) N1 N2 N3 Td H0) as (b' & r & g & Hr & Ha & Hg). exists b'. rewrite Ha. unfold X. cbn [map fst snd]. rewrite Hg by now left.
    destruct r as [s|]; cbn [verdict_of]; [exists (Fin (s_cost s))|exists PosInf]; destruct HT0 as [[_ ->]|[_ ->]]; try discriminate Hr; reflexivity.
  - intros srt fuel et ct HSr Hfu.
    assert (FR : flipset_reachable env0 sv srt PyMIP A x01 [z 1; z 1] t0 None f) by (exists f, []; split; [exact Hf|reflexivity]).
    assert (F3 : scalar_keys (f_by f)). { destruct Hf as (a & Pa & HCr). unfold mk_flipset in HCr. rewrite Pa in HCr. cbn [bind] in HCr. injection HCr as <-. reflexivity. }
    destruct (c45 env0 sv srt PyMIP A x01 [z 1; z 1] t0 f fuel None et ct env0_ok HS HSr HA FR ltac:(now rewrite EY) F3 ltac:(discriminate) Hfu) as [(e & _ & K & _)|(b0 & b1 & l & f1 & K1 & K2 & K3 & _)]; [|eauto].
    exfalso. rewrite forallb_forall in H. assert (In ct [CTotal; CLocal; CMax]) as Hin by (destruct ct; cbn; auto). specialize (H _ Hin). cbv beta in H. rewrite K in H. discriminate H.
Qed.
