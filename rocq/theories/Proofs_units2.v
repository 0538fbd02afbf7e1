(** Proofs for C133: actions, scores and verdicts in other units. *)
From Verif Require Import Spec_units Spec_setup Proofs_props_element Proofs_props_actionset Proofs_actionset Proofs_builder7 Proofs_audit Proofs_audit2 Proofs_audit3 Proofs_audit4 Proofs_units Proofs_setup.
#[local] Open Scope string_scope.
#[local] Open Scope list_scope.
#[local] Open Scope Qc_scope.

Lemma other_units_spec E X cs A A' : other_units E X cs A A' -> A' = sc_set cs A /\ oks cs A /\ length cs = as_len A /\ set_up E X A /\ set_up E (map (in_units cs) X) A' /\ exists names, unit_change X names cs /\ valid_table X names.
Proof.
  intros (names & y & custom & dflt & A0 & A0' & edits & HU & HD & HC & HE & H0 & -> & H0' & ->).
  destruct (creation_commutes X names cs y custom dflt A0 HU HD HC H0) as (K1 & K2). rewrite K1 in H0'. injection H0' as <-. destruct (run_commutes E cs edits A0 HE K2) as (K3 & K4).
  assert (HS : Forall set_up_edit edits).
  { rewrite Forall_forall in *. intros o Ho. specialize (HE o Ho). destruct o; cbn in *; auto; [|destruct HE as [HE|(-> & _)]; [|discriminate]]; intros ->; repeat (destruct HE as [HE|HE]; [discriminate HE|]); destruct HE. }
  pose proof (mk_aset_spec _ _ _ _ _ _ _ H0) as (_ & HT & En & Ec & _ & HL & _).
  assert (SU : set_up E X (aset_run E A0 edits)) by (exists names, y, custom, dflt, (PStr "relative"), A0, edits; auto).
  split; [exact K3|]. split; [exact K4|]. split; [|split; [exact SU|split]].
  - destruct HU as [HU _]. destruct (run_kso E A0 edits HS) as (_ & Kn & _); [unfold as_len; congruence|]. unfold as_len. rewrite Kn, En. exact HU.
  - exists names, y, custom, dflt, (PStr "relative"), (sc_set cs A0), edits. auto.
  - exists names. split; [exact HU|exact HT].
Qed.
Lemma in_units_nth cs x j xj c : nth_error cs j = Some c -> nth_error x j = Some xj -> nth_error (in_units cs x) j = Some (c * xj).
Proof. unfold in_units. revert x j. induction cs as [|d cs IH]; intros [|a x] [|j] H1 H2; try discriminate H1; try discriminate H2; cbn in *; [congruence|]. now apply IH. Qed.
Lemma in_units_nth_inv cs x j v : nth_error (in_units cs x) j = Some v -> exists c xj, nth_error cs j = Some c /\ nth_error x j = Some xj /\ v = c * xj.
Proof. unfold in_units. revert x j. induction cs as [|d cs IH]; intros [|a x] [|j] H; try discriminate H; cbn in *; [injection H as <-; eauto|]. now apply IH. Qed.
Lemma in_units_length cs x : length cs = length x -> length (in_units cs x) = length x.
Proof. intro H. unfold in_units. rewrite map_length, combine_length. lia. Qed.
Lemma In_mul c v l : 0 < c -> In (c * v) (map (Qcmult c) l) <-> In v l.
Proof.
  intro Hc. split; [|apply in_map]. intro H. apply in_map_iff in H. destruct H as (u & Hu & H). apply (proj1 (mul_eq c Hc _ _)) in Hu. now subst.
Qed.
Lemma permitted_mul c e x v : 0 < c -> permitted (sc c e) (c * x) (c * v) <-> permitted e x v.
Proof. intro Hc. unfold permitted. cbn [sc e_actionable e_grid e_step_dir]. rewrite (In_mul c v _ Hc), !(mul_le c Hc), (mul_eq c Hc). reflexivity. Qed.
Lemma permitted_units cs A x a : oks cs A -> length cs = as_len A -> length a = as_len A -> permitted_action (sc_set cs A) (in_units cs x) (in_units cs a) <-> permitted_action A x a.
Proof.
  intros HO HL Ha. unfold permitted_action. change (as_len (sc_set cs A)) with (as_len A). rewrite (in_units_length cs a) by congruence. pose proof (Forall2_length _ _ _ HO) as HL'.
  split; intros [H1 H2]; (split; [exact H1|]); intros j e xj aj He Hx Haj.
  - destruct (sc_nth cs (as_elems A) j e HL' He) as (c & Hc & Hs). destruct (ok_nth _ _ _ _ _ HO Hc He) as (Hp & _).
    specialize (H2 j (sc c e) (c * xj) (c * aj) Hs (in_units_nth _ _ _ _ _ Hc Hx) (in_units_nth _ _ _ _ _ Hc Haj)). rewrite <- Qcmult_plus_distr_r in H2. now apply (proj1 (permitted_mul c e xj (xj + aj) Hp)).
  - apply in_units_nth_inv in Hx, Haj. destruct Hx as (c & x0 & Hc & Hx & ->). destruct Haj as (c' & a0 & Hc' & Haj & ->). assert (c' = c) by congruence. subst c'.
    destruct (nth_error (as_elems A) j) as [e0|] eqn:He0.
    + destruct (sc_nth cs (as_elems A) j e0 HL' He0) as (c' & Hc'' & Hs). assert (c' = c) by congruence. subst c'. destruct (ok_nth _ _ _ _ _ HO Hc He0) as (Hp & _).
      change (as_elems (sc_set cs A)) with (sc_elems cs (as_elems A)) in He. rewrite Hs in He. injection He as <-. rewrite <- Qcmult_plus_distr_r. apply permitted_mul; [exact Hp|]. exact (H2 j e0 x0 a0 He0 Hx Haj).
    + change (as_elems (sc_set cs A)) with (sc_elems cs (as_elems A)) in He. rewrite (sc_nth_none cs _ j HL' He0) in He. discriminate He.
Qed.
Lemma dot_units cs w x : Forall (fun c => 0 < c) cs -> (length w <= length cs)%nat -> dot (per_unit cs w) (in_units cs x) = dot w x.
Proof.
  unfold per_unit, in_units. intro H. revert w x. induction H as [|c cs Hc H IH]; intros [|a w] [|b x] HL; cbn in HL; try reflexivity; try lia.
  cbn. rewrite IH by lia. f_equal. field. intro Q. rewrite Q in Hc. discriminate Hc.
Qed.
Lemma vadd_units cs x a : in_units cs (vadd x a) = vadd (in_units cs x) (in_units cs a).
Proof. unfold in_units. revert x a. induction cs as [|c cs IH]; intros [|b x] [|d a]; try reflexivity. cbn. f_equal; [ring|]. apply IH. Qed.
Lemma score_units cs w t x : Forall (fun c => 0 < c) cs -> (length w <= length cs)%nat -> score (per_unit cs w) t (in_units cs x) = score w t x.
Proof. intros H HL. unfold score. now rewrite (dot_units cs w x H HL). Qed.
Lemma oks_pos cs A : oks cs A -> Forall (fun c => 0 < c) cs.
Proof. unfold oks. intro H. induction H as [|c e cs es [Hc _] H IH]; constructor; auto. Qed.
Lemma back_units cs a : Forall (fun c => 0 < c) cs -> length a = length cs -> exists a0, length a0 = length cs /\ in_units cs a0 = a.
Proof.
  intro H. revert a. induction H as [|c cs Hc H IH]; intros [|v a] HL; try discriminate HL; [exists []; auto|]. injection HL as HL. destruct (IH a HL) as (a0 & K1 & K2). exists (v / c :: a0). split; [cbn; congruence|].
  unfold in_units in *. cbn. rewrite K2. f_equal. field. intro Q. rewrite Q in Hc. discriminate Hc.
Qed.
(** Recourse exists in one set of units iff it exists in the other. *)
Lemma recourse_units E X cs A A' w t x y : other_units E X cs A A' -> (length w <= as_len A)%nat ->
  (exists a, permitted_action A x a /\ on_side y (score w t (vadd x a))) <-> (exists a, permitted_action A' (in_units cs x) a /\ on_side y (score (per_unit cs w) t (vadd (in_units cs x) a))).
Proof.
  intros H Hw. apply other_units_spec in H. destruct H as (-> & HO & HL & _). pose proof (oks_pos _ _ HO) as HP. split; intros (a & H1 & H2).
  - exists (in_units cs a). split; [apply permitted_units; auto; apply H1|]. rewrite <- vadd_units, (score_units cs w t _ HP) by lia. exact H2.
  - pose proof H1 as [Ha _]. change (as_len (sc_set cs A)) with (as_len A) in Ha. destruct (back_units cs a HP) as (a0 & K1 & <-); [congruence|]. exists a0. split; [apply (proj1 (permitted_units cs A x a0 HO HL ltac:(congruence))); exact H1|].
    rewrite <- vadd_units, (score_units cs w t _ HP) in H2 by lia. exact H2.
Qed.
Lemma like_units X names cs x : unit_change X names cs -> valid_table X names -> like_rows X x -> like_rows (map (in_units cs) X) (in_units cs x).
Proof.
  intros (HL & HU) HT HX j v Hv HI. apply in_units_nth_inv in Hv. destruct Hv as (c & xj & Hc & Hx & ->). destruct (HU j c Hc) as (Hp & Hn). assert (Hlt : (j < length cs)%nat) by (apply nth_error_Some; congruence).
  assert (HR : forall row, In row X -> length row = length names) by (destruct HT as [_ HT]; rewrite Forall_forall in HT; exact HT).
  destruct (qeq_spec c 1) as [->|Q].
  - rewrite Qcmult_1_l. apply (HX j xj Hx). intros row u Hr Hu. pose proof (HI (in_units cs row) (1 * u) (in_map _ _ _ Hr) (in_units_nth _ _ _ _ _ Hc Hu)) as K. now rewrite Qcmult_1_l in K.
  - exfalso. destruct (Hn Q) as (_ & u & Hu & Hni). apply Hni. unfold column in Hu. apply in_map_iff in Hu. destruct Hu as (row & <- & Hr).
    apply (HI (in_units cs row) _ (in_map _ _ _ Hr)). apply in_units_nth; [exact Hc|]. apply nth_error_nth'. rewrite (HR row Hr). congruence.
Qed.

(** ** Verdicts *)
Lemma fit_units E sv sv' k k' X cs A A' args args' ct ct' w t x b0 b0' b1 b1' r r' : ok_env E -> sound_solver sv -> finishing_solver sv -> sound_solver sv' -> finishing_solver sv' -> density E -> log_ok E ct -> log_ok E ct' ->
  other_units E X cs A A' -> parse_classifier_args args = Ok (w, t) -> parse_classifier_args args' = Ok (per_unit cs w, t) -> length w = as_len A ->
  alignment_known A = false \/ flips_match A w -> alignment_known A' = false \/ flips_match A' (per_unit cs w) ->
  mk_builder E k A args ct (Some x) = Ok b0 -> mk_builder E k' A' args' ct' (Some (in_units cs x)) = Ok b0' ->
  like_rows X x -> denied (as_y A) (score w t x) -> fit sv b0 = Ok (b1, r) -> fit sv' b0' = Ok (b1', r') -> (r = None <-> r' = None).
Proof.
  intros HE HS HF HS' HF' HD HL HL' HU Hp Hp' Hw HA HA' Hb Hb' HX Dn Hf Hf'. pose proof (other_units_spec _ _ _ _ _ HU) as (EA & HO & HLc & SU & SU' & names & Hun & Hvt).
  pose proof (oks_pos _ _ HO) as HP. destruct (setup_fit E sv k X A args ct w t x b0 HE HS HF HD HL SU Hp HA Hb HX Dn) as (q & r0 & K1 & K2). rewrite Hf in K1. injection K1 as _ <-.
  assert (Dn' : denied (as_y A') (score (per_unit cs w) t (in_units cs x))) by (rewrite (score_units cs w t x HP), EA by lia; exact Dn).
  destruct (setup_fit E sv' k' _ A' args' ct' _ t _ b0' HE HS' HF' HD HL' SU' Hp' HA' Hb' (like_units X names cs x Hun Hvt HX) Dn') as (q' & r0' & K1' & K2'). rewrite Hf' in K1'. injection K1' as _ <-.
  pose proof (recourse_units E X cs A A' w t x (as_y A) HU ltac:(lia)) as R. replace (as_y A') with (as_y A) in K2' by (rewrite EA; reflexivity).
  split; intros ->; [destruct r' as [s|]|destruct r as [s|]]; try reflexivity; exfalso.
  - assert (Q : exists a, permitted_action A' (in_units cs x) a /\ on_side (as_y A) (score (per_unit cs w) t (vadd (in_units cs x) a))) by eauto. apply R in Q. destruct Q as (a & Q1 & Q2). exact (K2 a Q1 Q2).
  - assert (Q : exists a, permitted_action A x a /\ on_side (as_y A) (score w t (vadd x a))) by eauto. apply R in Q. destruct Q as (a & Q1 & Q2). exact (K2' a Q1 Q2).
Qed.
Definition rows_units {I} (cs : list Qc) (rows : list (I * list Qc)) : list (I * list Qc) := map (fun p => (fst p, in_units cs (snd p))) rows.
Lemma audit_units {I} E sv sv' k k' X cs A A' w t b b' (rows : list (I * list Qc)) y c c' out out' : ok_env E -> sound_solver sv -> finishing_solver sv -> sound_solver sv' -> finishing_solver sv' -> density E ->
  other_units E X cs A A' -> auditor_used E sv k A w t b -> auditor_used E sv' k' A' (per_unit cs w) t b' -> (0 <? y)%Z = (0 <? as_y A)%Z -> (forall p, In p rows -> like_rows X (snd p)) ->
  audit E sv b (table_of rows) y = (c, Ok out) -> audit E sv' b' (table_of (rows_units cs rows)) y = (c', Ok out') ->
  Forall2 (fun p qs => fst (fst qs) = fst p /\ fst (snd qs) = fst p /\ (snd (fst qs) = None <-> snd (snd qs) = None) /\
    (denied y (score w t (snd p)) -> ((exists v, snd (fst qs) = Some (true, Fin v)) <-> (exists v, snd (snd qs) = Some (true, Fin v))))) rows (combine out out').
Proof.
  intros HE HS HF HS' HF' HD HU Hus Hus' HY HX Ha Ha'. pose proof (other_units_spec _ _ _ _ _ HU) as (EA & HO & HLc & SU & SU' & names & Hun & Hvt). pose proof (oks_pos _ _ HO) as HP.
  assert (HR : aset_reachable E A) by apply (set_up_props _ _ _ SU). destruct (used_fresh _ _ _ _ _ _ _ HR Hus) as (_ & F & _). pose proof (fr_len _ _ _ _ _ _ _ F) as Lw. pose proof (fr_w _ _ _ _ _ _ _ F) as Ew.
  assert (Hw : length w = as_len A) by congruence.
  pose proof (setup_audit E sv k X A w t b rows y c out HE HS HF HD SU Hus HY HX Ha) as T1.
  assert (HY' : (0 <? y)%Z = (0 <? as_y A')%Z) by (rewrite EA; exact HY).
  assert (HX' : forall p, In p (rows_units cs rows) -> like_rows (map (in_units cs) X) (snd p)) by (intros p Hp; apply in_map_iff in Hp; destruct Hp as (p0 & <- & Hp); exact (like_units X names cs _ Hun Hvt (HX _ Hp))).
  pose proof (setup_audit E sv' k' _ A' (per_unit cs w) t b' (rows_units cs rows) y c' out' HE HS' HF' HD SU' Hus' HY' HX' Ha') as T2.
  clear Ha Ha' HX HX' Ew Lw F Hus Hus'. revert out' T2. induction T1 as [|[i x] [i1 v] rows out H1 T1 IH]; intros out' T2; inversion T2 as [|? [i2 v'] ? out2 H2 T2']; subst; constructor; [|now apply IH].
  cbn [fst snd] in *. destruct H1 as (-> & N1 & V1). destruct H2 as (-> & N2 & V2). rewrite (score_units cs w t x HP) in * by lia. split; [reflexivity|]. split; [reflexivity|]. split; [now rewrite N1, N2|]. intro Dn.
  pose proof (recourse_units E X cs A (sc_set cs A) w t x y HU ltac:(lia)) as R.
  specialize (V1 Dn). specialize (V2 Dn). destruct V1 as [(a & cs1 & c1 & -> & P1 & S1 & _)|[-> V1]]; destruct V2 as [(a2 & cs2 & c2 & -> & P2 & S2 & _)|[-> V2]]; split; intros (u & Q); try discriminate Q; eauto; exfalso.
  - assert (G : exists a, permitted_action A x a /\ on_side y (score w t (vadd x a))) by eauto. apply R in G. destruct G as (a0 & G1 & G2). exact (V2 a0 G1 G2).
  - assert (G : exists a, permitted_action (sc_set cs A) (in_units cs x) a /\ on_side y (score (per_unit cs w) t (vadd (in_units cs x) a))) by eauto. apply R in G. destruct G as (a0 & G1 & G2). exact (V1 a0 G1 G2).
Qed.
Lemma actions_units E X cs A A' w t x y : other_units E X cs A A' -> length w = as_len A ->
  (forall a, length a = as_len A -> (permitted_action A' (in_units cs x) (in_units cs a) <-> permitted_action A x a)) /\
  (forall a, score (per_unit cs w) t (vadd (in_units cs x) (in_units cs a)) = score w t (vadd x a)) /\
  ((exists a, permitted_action A x a /\ on_side y (score w t (vadd x a))) <-> (exists a, permitted_action A' (in_units cs x) a /\ on_side y (score (per_unit cs w) t (vadd (in_units cs x) a)))).
Proof.
  intros H Lw. pose proof (other_units_spec _ _ _ _ _ H) as (-> & HO & HL & _). pose proof (oks_pos _ _ HO) as HP. split; [|split].
  - intros a La. now apply permitted_units.
  - intro a. rewrite <- vadd_units. apply score_units; [exact HP|lia].
  - eapply recourse_units; [exact H|lia].
Qed.
