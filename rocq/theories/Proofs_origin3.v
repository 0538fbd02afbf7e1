(** Proofs for C134: audits. *)
From Verif Require Import Spec_origin Proofs_props_element Proofs_props_actionset Proofs_actionset Proofs_values Proofs_num Proofs_audit2 Proofs_units Proofs_flipset3 Spec_setup Proofs_setup Proofs_origin Proofs_origin2.
#[local] Open Scope string_scope.
#[local] Open Scope list_scope.
#[local] Open Scope Qc_scope.

Lemma lex_moved ds : forall a b, length a = length ds -> length b = length ds -> lex (moved ds a) (moved ds b) = lex a b.
Proof.
  unfold moved. induction ds as [|d ds IH]; intros [|u a] [|v b] H1 H2; try discriminate H1; try discriminate H2; [reflexivity|]. cbn [combine map fst snd lex]. change (u + d) with (pl d u). change (v + d) with (pl d v).
  rewrite !pl_qlt. destruct (u <? v); [reflexivity|]. destruct (v <? u); [reflexivity|]. apply IH; cbn in *; lia.
Qed.
Lemma uniq_In r U u : In u (uniq_insert r U) -> u = r \/ In u U.
Proof.
  induction U as [|a U IH]; cbn; [intros [H|[]]; auto|]. destruct (lex r a); cbn; [tauto|intros [H|H]; auto|]. intros [H|H]; [tauto|]. destruct (IH H); tauto.
Qed.
Lemma unique_In X u : In u (unique_rows X) -> In u X.
Proof. unfold unique_rows. induction X as [|r X IH]; cbn; [tauto|]. intro H. apply uniq_In in H. destruct H as [->|H]; auto. Qed.
Lemma uniq_moved ds r U : length r = length ds -> (forall u, In u U -> length u = length ds) -> uniq_insert (moved ds r) (map (moved ds) U) = map (moved ds) (uniq_insert r U).
Proof.
  intros Hr. induction U as [|a U IH]; intro HU; [reflexivity|]. cbn. rewrite lex_moved by (auto with datatypes). destruct (lex r a); try reflexivity. rewrite IH by (auto with datatypes). reflexivity.
Qed.
Lemma unique_moved ds X : (forall r, In r X -> length r = length ds) -> unique_rows (map (moved ds) X) = map (moved ds) (unique_rows X).
Proof.
  unfold unique_rows. induction X as [|r X IH]; intro H; [reflexivity|]. cbn. rewrite IH by (auto with datatypes). apply uniq_moved; [auto with datatypes|]. intros u Hu. apply unique_In in Hu. auto with datatypes.
Qed.
Lemma pos_moved ds r U : length r = length ds -> (forall u, In u U -> length u = length ds) -> row_pos (moved ds r) (map (moved ds) U) = row_pos r U.
Proof. intros Hr. induction U as [|a U IH]; intro HU; [reflexivity|]. cbn. rewrite lex_moved by (auto with datatypes). destruct (lex r a); try reflexivity; rewrite IH by (auto with datatypes); reflexivity. Qed.
Lemma to_audit_moved w t y ds u : length ds = length u -> length w = length u -> to_audit w (t - dot w ds) y (moved ds u) = to_audit w t y u.
Proof.
  intros H1 H2. unfold to_audit. rewrite (dot_moved w ds u H1 H2). replace (dot w u + dot w ds <? - (t - dot w ds)) with (dot w u <? - t); [replace (- (t - dot w ds) <=? dot w u + dot w ds) with (- t <=? dot w u); [reflexivity|]|].
  - destruct (- t <=? dot w u) eqn:Q; symmetry; qbool; qlra.
  - destruct (dot w u <? - t) eqn:Q; symmetry; qbool; qlra.
Qed.
(** Builders to which everything below applies. *)
Definition ready (E : env) (X : list (list Qc)) (ds : list Qc) (b : builder) : Prop := okds ds (bd_A b) /\ length ds = as_len (bd_A b) /\ set_up E X (bd_A b) /\ length (bd_w b) = as_len (bd_A b).
Lemma fit_keeps sv b b1 r : fit sv b = Ok (b1, r) -> bd_A b1 = bd_A b /\ bd_w b1 = bd_w b /\ bd_t b1 = bd_t b.
Proof.
  unfold fit, solve_mip. destruct (bd_mip b); [|discriminate]. cbn [bind]. unfold get_solution. cbn. intro H. injection H as <- _. auto.
Qed.
Lemma set_keeps E b x : bd_A (fst (set_x E b x)) = bd_A b /\ bd_w (fst (set_x E b x)) = bd_w b /\ bd_t (fst (set_x E b x)) = bd_t b.
Proof. unfold set_x. destruct (Nat.eqb _ _); [|auto]. destruct (build _ _ _ _ _ _ _ _ _); auto. Qed.
Lemma ready_same E X ds b b1 : bd_A b1 = bd_A b -> bd_w b1 = bd_w b -> ready E X ds b -> ready E X ds b1.
Proof. intros H1 H2. unfold ready. now rewrite H1, H2. Qed.
Lemma origin_audit_loop E X sv ds l : ok_env E -> moves_along E -> forall b, ready E X ds b -> (forall p, In p l -> sized (bd_A b) X (snd p)) ->
  audit_loop E sv (zeros_from ds b) (map (fun p => (fst p, moved ds (snd p))) l) = (zeros_from ds (fst (audit_loop E sv b l)), snd (audit_loop E sv b l)) /\
  bd_A (fst (audit_loop E sv b l)) = bd_A b /\ bd_w (fst (audit_loop E sv b l)) = bd_w b /\ bd_t (fst (audit_loop E sv b l)) = bd_t b.
Proof.
  intros HE HM. induction l as [|[i u] l IH]; intros b HR HS; [cbn; auto|]. cbn [map audit_loop fst snd]. pose proof HR as (HO & Ld & SU & Lw). destruct (HS (i, u) (or_introl eq_refl)) as [Lu Hu]. cbn [snd] in *.
  destruct (set_up_props _ _ _ SU) as (_ & _ & HU & HF). rewrite (origin_set_x E ds b u HE HM HO Lu Ld Lw (HF u Hu) HU). pose proof (set_keeps E b u) as (S1 & S2 & S3). destruct (set_x E b u) as [b1 [v|]]; [|cbn in *; auto]. cbn [fst snd] in *.
  rewrite origin_fit. destruct (fit sv b1) as [[b2 s]|] eqn:Hf; [|cbn; auto]. cbn [rmap fst snd]. pose proof (fit_keeps _ _ _ _ Hf) as (F1 & F2 & F3). assert (KA : bd_A b2 = bd_A b) by congruence. assert (KW : bd_w b2 = bd_w b) by congruence. assert (KT : bd_t b2 = bd_t b) by congruence.
  destruct (IH b2 (ready_same E X ds b b2 KA KW HR)) as (I1 & I2 & I3 & I4); [intros p Hp; rewrite KA; exact (HS p (or_intror Hp))|]. rewrite I1.
  destruct (audit_loop E sv b2 l) as [b3 [out|]]; cbn in *; repeat (split; [congruence|]); congruence.
Qed.
Definition moved_rows {I} (ds : list Qc) (rows : list (I * list Qc)) : list (I * list Qc) := map (fun p => (fst p, moved ds (snd p))) rows.
Lemma origin_audit {I} E X sv ds b (rows : list (I * list Qc)) y : ok_env E -> moves_along E -> ready E X ds b -> (forall p, In p rows -> sized (bd_A b) X (snd p)) ->
  audit E sv (zeros_from ds b) (table_of (moved_rows ds rows)) y = (zeros_from ds (fst (audit E sv b (table_of rows) y)), snd (audit E sv b (table_of rows) y)) /\
  bd_A (fst (audit E sv b (table_of rows) y)) = bd_A b /\ bd_w (fst (audit E sv b (table_of rows) y)) = bd_w b /\ bd_t (fst (audit E sv b (table_of rows) y)) = bd_t b.
Proof.
  intros HE HM HR HS. pose proof HR as (HO & Ld & SU & Lw). unfold audit. cbn [zeros_from bd_w bd_t].
  assert (LR : forall r, In r (map snd rows) -> length r = length ds) by (intros r Hr; apply in_map_iff in Hr; destruct Hr as (p & <- & Hp); rewrite (proj1 (HS p Hp)); congruence).
  assert (P1 : match table_of (moved_rows ds rows) with [] => false | _ => true end = match table_of rows with [] => false | _ => true end) by (destruct rows; reflexivity). rewrite P1.
  assert (P2 : forallb (fun r : I * list fl => Nat.eqb (length (snd r)) (length (bd_w b))) (table_of (moved_rows ds rows)) = true).
  { apply forallb_forall. intros q Hq. unfold table_of, moved_rows in Hq. rewrite map_map in Hq. apply in_map_iff in Hq. destruct Hq as (p & <- & Hp). cbn. apply Nat.eqb_eq. rewrite map_length, moved_length by (rewrite (proj1 (HS p Hp)); congruence). rewrite (proj1 (HS p Hp)). congruence. }
  assert (P3 : forallb (fun r : I * list fl => Nat.eqb (length (snd r)) (length (bd_w b))) (table_of rows) = true).
  { apply forallb_forall. intros q Hq. unfold table_of in Hq. apply in_map_iff in Hq. destruct Hq as (p & <- & Hp). cbn. apply Nat.eqb_eq. rewrite map_length, (proj1 (HS p Hp)). congruence. }
  rewrite P2, P3. destruct (passert (match table_of rows with [] => false | _ => true end)); [|cbn; auto]. cbn [passert bind]. rewrite !table_rows. cbn [bind].
  assert (ES : map snd (moved_rows ds rows) = map (moved ds) (map snd rows)) by (unfold moved_rows; rewrite !map_map; reflexivity). rewrite ES.
  destruct (passert ((y =? 1)%Z || (y =? -1)%Z || (y =? 0)%Z)); [|cbn; auto]. cbn [bind]. cbv zeta. rewrite (unique_moved ds (map snd rows) LR). set (U := unique_rows (map snd rows)).
  assert (LU : forall u, In u U -> length u = length ds) by (intros u Hu; apply LR; exact (unique_In _ _ Hu)). rewrite map_length.
  assert (ET : filter (fun p => to_audit (bd_w b) (bd_t b - dot (bd_w b) ds) y (snd p)) (combine (seq 0 (length U)) (map (moved ds) U)) =
               map (fun p => (fst p, moved ds (snd p))) (filter (fun p => to_audit (bd_w b) (bd_t b) y (snd p)) (combine (seq 0 (length U)) U))).
  { generalize 0%nat. clearbody U. clear -LU Ld Lw. induction U as [|u U IH]; intro n; [reflexivity|]. cbn [length seq combine map filter snd]. assert (Lu : length u = length ds) by (apply LU; now left).
    rewrite (to_audit_moved _ _ _ _ _) by congruence. assert (K := IH (fun v Hv => LU v (or_intror Hv)) (S n)). destruct (to_audit (bd_w b) (bd_t b) y u); cbn [map fst snd]; now rewrite K. }
  rewrite ET. clear ET. set (todo := filter _ (combine (seq 0 (length U)) U)).
  assert (HT : forall p, In p todo -> sized (bd_A b) X (snd p)).
  { intros [n u] Hp. apply filter_In in Hp. destruct Hp as [Hp _]. apply in_combine_r in Hp. apply unique_In in Hp. apply in_map_iff in Hp. destruct Hp as (p & <- & Hp). exact (HS p Hp). }
  destruct (origin_audit_loop E X sv ds todo HE HM b HR HT) as (K1 & K2). rewrite K1. destruct (audit_loop E sv b todo) as [b1 [out|]]; [|cbn in *; auto]. cbn [fst snd] in *. destruct out as [|o out]; [cbn in *; auto|]. cbn [fst snd]. split; [|exact K2]. f_equal. f_equal.
  assert (E1 : map fst (table_of (moved_rows ds rows)) = map fst (table_of rows)) by (unfold table_of, moved_rows; rewrite !map_map; reflexivity). rewrite E1. f_equal.
  rewrite map_map. apply map_ext_in. intros r Hr. now rewrite (pos_moved ds r U (LR r Hr) LU).
Qed.
Lemma origin_audits {I} E X sv ds (l : list (list (I * list Qc) * Z)) : ok_env E -> moves_along E -> forall b, ready E X ds b -> (forall q p, In q l -> In p (fst q) -> sized (bd_A b) X (snd p)) ->
  audits E sv (zeros_from ds b) (map (fun q => (table_of (moved_rows ds (fst q)), snd q)) l) = audits E sv b (map (fun q => (table_of (fst q), snd q)) l).
Proof.
  intros HE HM. induction l as [|[rows y] l IH]; intros b HR HS; [reflexivity|]. cbn [map audits fst snd]. destruct (origin_audit E X sv ds b rows y HE HM HR) as (K1 & K2 & K3 & K4); [intros p Hp; exact (HS (rows, y) p (or_introl eq_refl) Hp)|].
  rewrite K1. destruct (audit E sv b (table_of rows) y) as [b1 r]. cbn [fst snd] in *. f_equal. apply IH; [exact (ready_same E X ds b b1 K2 K3 HR)|]. intros q p Hq Hp. rewrite K2. exact (HS q p (or_intror Hq) Hp).
Qed.
Lemma other_zeros_align E X ds A A' a A1 : other_zeros E X ds A A' -> set_alignment A a = Ok A1 -> set_alignment A' a = Ok (sh_set ds A1) /\ other_zeros E X ds A1 (sh_set ds A1).
Proof.
  intros HZ H. pose proof (other_zeros_spec _ _ _ _ _ HZ) as (EA & HO & Ld & _). assert (LE : length (as_elems A) = as_len A) by (unfold okds in HO; apply Forall2_length in HO; congruence).
  assert (K : set_alignment A' a = Ok (sh_set ds A1)) by (rewrite EA, (proj1 (align_comm ds A a HO LE)), H; reflexivity). split; [exact K|].
  destruct HZ as (names & y & custom & dflt & dst & A0 & A0' & edits & HU & HD & HC & HE & H0 & E1 & H0' & E2). exists names, y, custom, dflt, dst, A0, A0', (edits ++ [OAlign a]).
  do 3 (split; [assumption|]). split; [apply Forall_app; split; [exact HE|constructor; [exact I|constructor]]|]. split; [assumption|]. unfold aset_run in *. rewrite !fold_left_app, <- E1, <- E2. cbn [fold_left aset_step]. rewrite H, K. auto.
Qed.
Lemma align_fails E X ds A A' a e : other_zeros E X ds A A' -> set_alignment A a = Err e -> set_alignment A' a = Err e.
Proof.
  intros HZ H. pose proof (other_zeros_spec _ _ _ _ _ HZ) as (-> & HO & Ld & _). assert (LE : length (as_elems A) = as_len A) by (unfold okds in HO; apply Forall2_length in HO; congruence). now rewrite (proj1 (align_comm ds A a HO LE)), H.
Qed.
Lemma origin_auditor {I} E X k ds A A' args args' w t : ok_env E -> moves_along E -> other_zeros E X ds A A' -> parse_classifier_args args = Ok (w, t) -> parse_classifier_args args' = Ok (w, t - dot w ds) ->
  match mk_auditor E k A args, mk_auditor E k A' args' with
  | Ok b, Ok b' => forall sv (l : list (list (I * list Qc) * Z)), (forall q p, In q l -> In p (fst q) -> length (snd p) = as_len A /\ like_rows X (snd p)) ->
      audits E sv b' (map (fun q => (table_of (map (fun p => (fst p, moved ds (snd p))) (fst q)), snd q)) l) = audits E sv b (map (fun q => (table_of (fst q), snd q)) l)
  | Err e, Err e' => e' = e
  | _, _ => False
  end.
Proof.
  intros HE HM HZ Hp Hp'. unfold mk_auditor. rewrite Hp, Hp'. cbn [bind].
  set (a := {| k_clf := None; k_classifier := None; k_coefs := None; k_intercept := None; a_pos := [AVec (map Fin w)] |}).
  destruct (set_alignment A a) as [A1|] eqn:Ha; [|rewrite (align_fails _ _ _ _ _ _ _ HZ Ha); reflexivity]. destruct (other_zeros_align _ _ _ _ _ _ _ HZ Ha) as (K & HZ1). rewrite K. cbn [bind].
  pose proof (origin_builder E X k ds A1 _ (coef_args w t) (coef_args w (t - dot w ds)) CMax w t None HE HM HZ1 (coef_parse w t) (coef_parse w _)) as B. cbn [option_map] in B. rewrite B by (intros x Q; discriminate Q).
  destruct (mk_builder E k A1 (coef_args w t) CMax None) as [b|] eqn:Hb; [|reflexivity]. cbn [rmap]. intros sv l HS. pose proof (other_zeros_spec _ _ _ _ _ HZ1) as (_ & HO1 & Ld1 & SU1).
  assert (HB : ready E X ds b /\ as_len (bd_A b) = as_len A).
  { unfold mk_builder in Hb. rewrite coef_parse in Hb. cbn [bind] in Hb. destruct (Nat.eqb (as_len A1) (length w)) eqn:Lw; [|discriminate Hb]. apply Nat.eqb_eq in Lw. cbn [passert bind] in Hb.
    assert (L1 : as_len A1 = as_len A) by (pose proof (other_zeros_spec _ _ _ _ _ HZ) as (_ & _ & Ld & _); congruence).
    destruct (alignment_known A1); [cbn [bind] in Hb; injection Hb as <-; unfold ready; cbn; auto|]. match type of Hb with (let! _ := ?r in _) = _ => destruct r as [A2|] eqn:H2 end; [|discriminate Hb]. cbn [bind] in Hb. injection Hb as <-.
    destruct (origin_aligned E X ds A1 A2 _ HO1 Ld1 SU1 H2) as (Q1 & Q2 & Q3). unfold ready. cbn. split; [split; [exact Q1|split; [exact Q2|split; [exact Q3|congruence]]]|congruence]. }
  destruct HB as (HR & HL). apply (origin_audits E X sv ds l HE HM b HR). intros q p Hq Hp0. destruct (HS q p Hq Hp0). split; [congruence|assumption].
Qed.
Lemma origin_actions E X ds A A' w t x ct : moves_along E -> other_zeros E X ds A A' -> length w = as_len A -> length x = as_len A ->
  (forall a, permitted_action A' (moved ds x) a <-> permitted_action A x a) /\
  (forall a, length a = as_len A -> score w (t - dot w ds) (vadd (moved ds x) a) = score w t (vadd x a)) /\
  (forall a cs, action_costs E ct A' (moved ds x) a cs <-> action_costs E ct A x a cs).
Proof.
  intros HM HZ Lw Lx. split; [|split].
  - intro a. exact (permitted_moved E X ds A A' x a HZ Lx).
  - intros a La. pose proof (other_zeros_spec _ _ _ _ _ HZ) as (_ & _ & Ld & _). rewrite moved_vadd. assert (Lv : length (vadd x a) = as_len A).
    { clear -La Lx. revert Lx La. generalize (as_len A). revert a. unfold vadd. induction x as [|u x IH]; intros [|v a] n H1 H2; cbn in *; subst; try reflexivity; try discriminate H2. f_equal. apply IH; [reflexivity|congruence]. }
    apply score_moved; congruence.
  - intros a cs. exact (costs_moved E X ct ds A A' x a cs HM HZ Lx).
Qed.
