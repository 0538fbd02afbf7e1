(** Audits: output shape, blanks, equal treatment, verdicts. *)
From Verif Require Import Proofs_props_element Proofs_props_actionset Spec_recourse Proofs_mip Proofs_info Proofs_vec Proofs_build Proofs_enum Proofs_session Proofs_recourse Proofs_exchange Proofs_far Proofs_concrete Proofs_builder Proofs_builder2 Proofs_builder3 Proofs_builder4 Proofs_builder5 Proofs_scen Proofs_scen2 Proofs_builder6 Proofs_builder7 Proofs_builder8 Proofs_flipset Proofs_flipset3.
From Verif Require Import Spec_audit Proofs_audit.
#[local] Open Scope list_scope.
#[local] Open Scope Qc_scope.

(** ** The pieces of a run *)
Definition todo_of (b : builder) (y : Z) (rows : list (list Qc)) : list (nat * list Qc) :=
  filter (fun p => to_audit (bd_w b) (bd_t b) y (snd p)) (combine (seq 0 (length (unique_rows rows))) (unique_rows rows)).
Definition result_of (rows : list (list Qc)) (out : list (nat * (bool * fl))) (r : list Qc) : audit_entry := lookup_idx (row_pos r (unique_rows rows)) out.

Lemma table_rows {I} (X : list (I * list Qc)) : mapM (fun r => finite_all (snd r)) (table_of X) = Ok (map snd X).
Proof. induction X as [|[i r] X IH]; [reflexivity|]. cbn. rewrite finite_all_fin. cbn. unfold table_of in IH. now rewrite IH. Qed.
Lemma rows_table {I} (X : list (I * list fl)) rows : mapM (fun r => finite_all (snd r)) X = Ok rows -> exists X0, X = table_of X0 /\ map snd X0 = rows.
Proof.
  revert rows. induction X as [|[i r] X IH]; intros rows H; cbn in H; [injection H as <-; exists []; split; reflexivity|].
  bnd H as q Hq. bnd H as qs Hqs. injection H as <-. destruct (IH _ Hqs) as (X0 & -> & <-). apply finite_all_inv in Hq. subst r. exists ((i, q) :: X0). split; reflexivity.
Qed.
Lemma label_b y : (y =? 1)%Z || (y =? -1)%Z || (y =? 0)%Z = true <-> label y.
Proof. unfold label. rewrite !orb_true_iff, !Z.eqb_eq. tauto. Qed.
(** What a run on a well-formed table does. *)
Lemma audit_table {I} E sv b (X : list (I * list Qc)) y : X <> [] -> (forall p, In p X -> length (snd p) = length (bd_w b)) -> label y ->
  audit E sv b (table_of X) y =
    match audit_loop E sv b (todo_of b y (map snd X)) with
    | (b', Err e) => (b', Err e)
    | (b', Ok []) => (b', Err KeyError)
    | (b', Ok out) => (b', Ok (map (fun p => (fst p, result_of (map snd X) out (snd p))) X))
    end.
Proof.
  intros HN HL Hy. unfold audit.
  assert (P1 : (match table_of X with [] => false | _ => true end) = true) by (destruct X; [congruence|reflexivity]). rewrite P1.
  assert (P2 : forallb (fun r => Nat.eqb (length (snd r)) (length (bd_w b))) (table_of X) = true).
  { apply forallb_forall. intros r Hr. unfold table_of in Hr. apply in_map_iff in Hr. destruct Hr as (p & <- & Hp). cbn. rewrite map_length. apply Nat.eqb_eq. now apply HL. }
  rewrite P2. cbn [passert bind]. rewrite table_rows. cbn [bind]. rewrite (proj2 (label_b y) Hy). cbn [passert bind]. fold (todo_of b y (map snd X)).
  destruct (audit_loop E sv b (todo_of b y (map snd X))) as [b' [out|e]]; [|reflexivity]. destruct out as [|o out]; [reflexivity|]. f_equal. f_equal.
  change (map (fun r => lookup_idx (row_pos r (unique_rows (map snd X))) (o :: out)) (map snd X)) with (map (result_of (map snd X) (o :: out)) (map snd X)).
  generalize (result_of (map snd X) (o :: out)). intro g. clear. induction X as [|[i r] X IH]; [reflexivity|]. cbn. f_equal. exact IH.
Qed.
(** A run that returns a result was given a well-formed table. *)
Lemma audit_ok {I} E sv b (X : list (I * list fl)) y b' res : audit E sv b X y = (b', Ok res) ->
  exists X0, X = table_of X0 /\ X0 <> [] /\ (forall p, In p X0 -> length (snd p) = length (bd_w b)) /\ label y /\
    exists out, audit_loop E sv b (todo_of b y (map snd X0)) = (b', Ok out) /\ out <> [] /\ res = map (fun p => (fst p, result_of (map snd X0) out (snd p))) X0.
Proof.
  intro H.
  assert (K : exists X0, X = table_of X0 /\ X0 <> [] /\ (forall p, In p X0 -> length (snd p) = length (bd_w b)) /\ label y).
  { unfold audit in H. destruct (match X with [] => false | _ => true end) eqn:P1; cbn [passert bind] in H; [|discriminate H].
    destruct (forallb (fun r => Nat.eqb (length (snd r)) (length (bd_w b))) X) eqn:P2; cbn [passert bind] in H; [|discriminate H].
    destruct (mapM (fun r => finite_all (snd r)) X) as [rows|] eqn:P3; cbn [bind] in H; [|discriminate H].
    destruct ((y =? 1)%Z || (y =? -1)%Z || (y =? 0)%Z) eqn:P4; cbn [passert bind] in H; [|discriminate H].
    destruct (rows_table _ _ P3) as (X0 & -> & <-). exists X0. split; [reflexivity|]. split; [destruct X0; [discriminate P1|discriminate]|]. split; [|now apply label_b].
    intros p Hp. rewrite forallb_forall in P2. specialize (P2 (fst p, map Fin (snd p))). cbn in P2. rewrite map_length in P2. apply Nat.eqb_eq. apply P2. unfold table_of. apply in_map_iff. eauto. }
  destruct K as (X0 & -> & HN & HL & Hy). exists X0. do 4 (split; [assumption || reflexivity|]). rewrite (audit_table E sv b X0 y HN HL Hy) in H.
  destruct (audit_loop E sv b (todo_of b y (map snd X0))) as [b1 [out|e]]; [|discriminate H]. destruct out as [|o out]; [discriminate H|]. injection H as <- <-. exists (o :: out). split; [reflexivity|]. split; [discriminate|reflexivity].
Qed.

(** ** C49 *)
Lemma c49 {I} E sv b (X : list (I * list fl)) y b' out : audit E sv b X y = (b', Ok out) -> map fst out = map fst X.
Proof.
  intro H. apply audit_ok in H. destruct H as (X0 & -> & _ & _ & _ & o & _ & _ & ->). unfold table_of. rewrite !map_map. reflexivity.
Qed.
Lemma c49_finite {I} E sv b (X : list (I * list fl)) y b' out : audit E sv b X y = (b', Ok out) -> exists X0, X = table_of X0.
Proof. intro H. apply audit_ok in H. destruct H as (X0 & -> & _). eauto. Qed.

(** ** C50 *)
Lemma todo_In b y rows i u : In (i, u) (todo_of b y rows) <-> nth_error (unique_rows rows) i = Some u /\ to_audit (bd_w b) (bd_t b) y u = true.
Proof.
  unfold todo_of. rewrite filter_In, combine_seq_In, Nat.sub_0_r. cbn [snd]. split; [intros [[_ H1] H2]; auto|intros [H1 H2]; auto with arith].
Qed.
Lemma result_none E sv b y rows b' out r : audit_loop E sv b (todo_of b y rows) = (b', Ok out) -> In r rows ->
  (result_of rows out r = None <-> to_audit (bd_w b) (bd_t b) y r = false).
Proof.
  intros H Hr. unfold result_of. rewrite lookup_none, (audit_loop_fst _ _ _ _ _ _ H). apply unique_rows_In in Hr. pose proof (row_pos_nth _ _ Hr) as HP. split.
  - intro K. destruct (to_audit (bd_w b) (bd_t b) y r) eqn:T; [|reflexivity]. exfalso. apply K. apply in_map_iff. exists (row_pos r (unique_rows rows), r). split; [reflexivity|]. apply todo_In. auto.
  - intros T K. apply in_map_iff in K. destruct K as ([i u] & E1 & K). cbn in E1. subst i. apply todo_In in K. destruct K as [K1 K2]. rewrite HP in K1. injection K1 as ->. congruence.
Qed.
Lemma to_audit_iff w t y u : to_audit w t y u = false <-> has_outcome y (score w t u).
Proof.
  unfold to_audit, has_outcome, score. destruct (0 <? y)%Z.
  - split; intro H; [qbool; qlra|]. destruct (dot w u <? - t) eqn:L; [|reflexivity]. qbool. exfalso. qlra.
  - split; intro H; [destruct (- t <=? dot w u) eqn:L; [discriminate H|]; qbool; qlra|]. destruct (- t <=? dot w u) eqn:L; [|reflexivity]. qbool. exfalso. qlra.
Qed.
Lemma loop_same E sv l : forall b b' r, audit_loop E sv b l = (b', r) -> same_problem b b'.
Proof.
  induction l as [|[i u] l IH]; intros b b' r H; cbn in H; [injection H as <- _; repeat split|]. pose proof (same_set_x E b u) as S1. destruct (set_x E b u) as [b1 [v|e]]; cbn [fst] in S1; [|injection H as <- _; exact S1].
  destruct (fit sv b1) as [[b2 s]|e] eqn:F; [|injection H as <- _; exact S1]. assert (S2 : same_problem b1 b2) by (eapply session_same; eapply ses_fit; [exact F|constructor]).
  destruct (audit_loop E sv b2 l) as [b3 q] eqn:L. specialize (IH _ _ _ L). assert (b' = b3) as -> by (destruct q; injection H as <- _; reflexivity).
  eapply same_problem_trans; [exact S1|]. eapply same_problem_trans; [exact S2|exact IH].
Qed.
Lemma audit_same {I} E sv b (X : list (I * list fl)) y : same_problem b (fst (audit E sv b X y)).
Proof.
  unfold audit. match goal with |- context [match ?p with Ok _ => _ | Err _ => _ end] => destruct p as [rows|e] end; [|repeat split]. cbv zeta.
  destruct (audit_loop E sv b _) as [b' [out|e]] eqn:L; [destruct out|]; cbn [fst]; eapply loop_same; exact L.
Qed.
Lemma same_problem_wt b b' : same_problem b b' -> bd_w b' = bd_w b /\ bd_t b' = bd_t b.
Proof. intros (_ & H1 & H2 & _). auto. Qed.
Lemma auditor_parts E k A w t b : auditor_created E k A w t b -> exists A1,
  set_alignment A {| k_clf := None; k_classifier := None; k_coefs := None; k_intercept := None; a_pos := [AVec (map Fin w)] |} = Ok A1 /\ mk_builder E k A1 (coef_args w t) CMax None = Ok b.
Proof. intros (a & Hp & H). unfold mk_auditor in H. rewrite Hp in H. cbn [bind] in H. bnd H as A1 HA. eauto. Qed.
Lemma auditor_wt E sv k A w t b : auditor_reachable E sv k A w t b -> bd_w b = w /\ bd_t b = t.
Proof.
  intros (b0 & ops & HC & ->). assert (H0 : bd_w b0 = w /\ bd_t b0 = t).
  { destruct (auditor_parts _ _ _ _ _ _ HC) as (A1 & _ & H). unfold mk_builder in H. rewrite coef_parse in H. cbn [bind] in H. bnd H as u Hu. bnd H as A2 H2. injection H as <-. auto. }
  clear HC. revert b0 H0. unfold auditor_run. induction ops as [|o ops IH]; intros b0 H0; [exact H0|]. cbn. apply IH. destruct o as [X y|o]; [|exact H0]. cbn. destruct (same_problem_wt _ _ (audit_same E sv b0 X y)) as [-> ->]. exact H0.
Qed.
Lemma c50 {I} E sv k A w t b (X : list (I * list Qc)) y b' out : auditor_reachable E sv k A w t b -> audit E sv b (table_of X) y = (b', Ok out) ->
  Forall2 (fun p q => fst q = fst p /\ (snd q = None <-> has_outcome y (score w t (snd p)))) X out.
Proof.
  intros HR H. destruct (auditor_wt _ _ _ _ _ _ _ HR) as [<- <-]. apply audit_ok in H. destruct H as (X0 & E0 & HN & HL & Hy & o & Ho & _ & ->).
  assert (X0 = X) as ->. { revert E0. clear. revert X. induction X0 as [|[i r] X0 IH]; intros [|[j u] X] E; try discriminate E; [reflexivity|]. cbn in E. injection E as <- E1 E2. f_equal; [|now apply IH].
    f_equal. assert (finite_all (map Fin u) = finite_all (map Fin r)) as K by now rewrite E1. rewrite !finite_all_fin in K. congruence. }
  assert (G : forall Y, incl Y X -> Forall2 (fun (p : I * list Qc) q => fst q = fst p /\ (snd q = None <-> has_outcome y (score (bd_w b) (bd_t b) (snd p)))) Y (map (fun p => (fst p, result_of (map snd X) o (snd p))) Y)).
  { induction Y as [|p Y IH]; intro K; cbn; constructor.
    - split; [reflexivity|]. cbn [snd]. rewrite (result_none _ _ _ _ _ _ _ _ Ho); [apply to_audit_iff|]. apply in_map. apply K. now left.
    - apply IH. intros q Hq. apply K. now right. }
  apply G. apply incl_refl.
Qed.

(** ** C51 *)
Lemma c51 {I} E sv b (X : list (I * list Qc)) y b' out : audit E sv b (table_of X) y = (b', Ok out) ->
  exists g, out = map (fun p => (fst p, g (snd p))) X /\
    forall J (X' : list (J * list Qc)), (forall r, In r (map snd X') <-> In r (map snd X)) -> audit E sv b (table_of X') y = (b', Ok (map (fun p => (fst p, g (snd p))) X')).
Proof.
  intro H. apply audit_ok in H. destruct H as (X0 & E0 & HN & HL & Hy & o & Ho & Hne & ->).
  assert (X0 = X) as ->. { revert E0. clear. revert X. induction X0 as [|[i r] X0 IH]; intros [|[j u] X] E; try discriminate E; [reflexivity|]. cbn in E. injection E as <- E1 E2. f_equal; [|now apply IH].
    f_equal. assert (finite_all (map Fin u) = finite_all (map Fin r)) as K by now rewrite E1. rewrite !finite_all_fin in K. congruence. }
  exists (result_of (map snd X) o). split; [reflexivity|]. intros J X' HI.
  assert (HU : unique_rows (map snd X') = unique_rows (map snd X)) by now apply unique_rows_ext.
  rewrite audit_table; [| | |exact Hy].
  - unfold todo_of in *. rewrite HU, Ho. destruct o as [|o1 o]; [congruence|]. unfold result_of. rewrite HU. reflexivity.
  - intros ->. destruct X as [|p X]; [congruence|]. destruct (proj2 (HI (snd p)) (or_introl eq_refl)).
  - intros p Hp. assert (Q : In (snd p) (map snd X)) by (apply HI, in_map, Hp). apply in_map_iff in Q. destruct Q as (q & <- & Hq). now apply HL.
Qed.
(** ** C54 *)
Lemma c54 {I} E sv k A w t b (X : list (I * list Qc)) y : auditor_reachable E sv k A w t b -> label y -> X <> [] -> (forall p, In p X -> length (snd p) = length w) ->
  (forall p, In p X -> has_outcome y (score w t (snd p))) -> audit E sv b (table_of X) y = (b, Err KeyError).
Proof.
  intros HR Hy HN HL HO. destruct (auditor_wt _ _ _ _ _ _ _ HR) as [<- <-]. rewrite audit_table; auto.
  assert (K : todo_of b y (map snd X) = []).
  { destruct (todo_of b y (map snd X)) as [|[i u] l] eqn:T; [reflexivity|]. exfalso. assert (Q : In (i, u) (todo_of b y (map snd X))) by (rewrite T; now left). apply todo_In in Q. destruct Q as [Q1 Q2].
    apply nth_error_In in Q1. apply (proj1 (unique_rows_In _ _)) in Q1. apply in_map_iff in Q1. destruct Q1 as (p & <- & Hp). apply HO, to_audit_iff in Hp. congruence. }
  rewrite K. reflexivity.
Qed.
