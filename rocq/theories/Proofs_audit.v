(** Lemmas about audits. *)
From Verif Require Import Proofs_props_element Proofs_props_actionset Spec_recourse Proofs_mip Proofs_info Proofs_vec Proofs_build Proofs_enum Proofs_session Proofs_recourse Proofs_exchange Proofs_far Proofs_concrete Proofs_builder Proofs_builder2 Proofs_builder3 Proofs_builder4 Proofs_builder5 Proofs_scen Proofs_scen2 Proofs_builder6 Proofs_builder7 Proofs_builder8.
From Verif Require Import Spec_audit.
#[local] Open Scope list_scope.
#[local] Open Scope Qc_scope.

(** ** Distinct rows *)
Lemma lex_eq a b : lex a b = Eq <-> a = b.
Proof.
  revert b. induction a as [|u a IH]; intros [|v b]; cbn; split; intro H; try discriminate H; try reflexivity.
  - destruct (u <? v) eqn:L1; [discriminate H|]. destruct (v <? u) eqn:L2; [discriminate H|]. apply IH in H. subst. f_equal.
    destruct (Qc_dec u v) as [[L|L]|L]; [apply qlt_iff in L; congruence|apply qlt_iff in L; congruence|exact L].
  - assert (u = v /\ a = b) as [-> ->] by (split; congruence). assert (Q : (v <? v) = false) by (destruct (v <? v) eqn:L; [qbool; qlra|reflexivity]). rewrite Q. now apply IH.
Qed.
Lemma lex_flip a b : lex b a = CompOpp (lex a b).
Proof.
  revert b. induction a as [|u a IH]; intros [|v b]; try reflexivity. cbn. destruct (u <? v) eqn:L1, (v <? u) eqn:L2; try reflexivity; [qbool; qlra|apply IH].
Qed.
Lemma lex_trans a b c : lex a b = Lt -> lex b c = Lt -> lex a c = Lt.
Proof.
  revert b c. induction a as [|u a IH]; intros [|v b] [|w c]; cbn; try discriminate; try reflexivity. intros H K.
  destruct (u <? v) eqn:L1.
  - destruct (v <? w) eqn:L2; [|destruct (w <? v) eqn:L3; [discriminate K|]]; (destruct (u <? w) eqn:L4; [reflexivity|]); exfalso.
    + qbool. qlra.
    + qbool. qlra.
  - destruct (v <? u) eqn:L2; [discriminate H|]. assert (u = v) as ->. { destruct (Qc_dec u v) as [[L|L]|L]; [apply qlt_iff in L; congruence|apply qlt_iff in L; congruence|exact L]. }
    destruct (v <? w); [reflexivity|]. destruct (w <? v); [discriminate K|]. eapply IH; eauto.
Qed.
Definition rows_sorted (U : list (list Qc)) : Prop := StronglySorted (fun a b => lex a b = Lt) U.
Lemma uniq_insert_In r U x : In x (uniq_insert r U) <-> x = r \/ In x U.
Proof.
  induction U as [|u U IH]; cbn; [split; [intros [<-|[]]; auto|intros [->|[]]; auto]|]. destruct (lex r u) eqn:E; cbn.
  - apply lex_eq in E. subst u. split; [tauto|]. intros [->|H]; auto.
  - split; [intros [<-|H]; auto|intros [->|H]; auto].
  - rewrite IH. split; [intros [<-|[->|H]]; auto|intros [->|[<-|H]]; auto].
Qed.
Lemma uniq_insert_sorted r U : rows_sorted U -> rows_sorted (uniq_insert r U).
Proof.
  induction 1 as [|u U HS IH HF]; [repeat constructor|]. cbn. destruct (lex r u) eqn:E.
  - constructor; assumption.
  - constructor; [constructor; assumption|]. constructor; [exact E|]. rewrite Forall_forall in *. intros c Hc. eapply lex_trans; [exact E|now apply HF].
  - constructor; [exact IH|]. rewrite Forall_forall in *. intros c Hc. apply uniq_insert_In in Hc. destruct Hc as [->|Hc]; [|now apply HF]. rewrite lex_flip, E. reflexivity.
Qed.
Lemma unique_rows_In X x : In x (unique_rows X) <-> In x X.
Proof. induction X as [|r X IH]; [reflexivity|]. cbn. rewrite uniq_insert_In, IH. split; intros [H|H]; auto. Qed.
Lemma unique_rows_sorted X : rows_sorted (unique_rows X).
Proof. induction X as [|r X IH]; [constructor|]. cbn. now apply uniq_insert_sorted. Qed.
Lemma sorted_ext U V : rows_sorted U -> rows_sorted V -> (forall x, In x U <-> In x V) -> U = V.
Proof.
  intro HU. revert V. induction HU as [|u U HU IH HF]; intros V HV HI.
  - destruct V as [|v V]; [reflexivity|]. destruct (proj2 (HI v) (or_introl eq_refl)).
  - destruct HV as [|v V HV HG]; [destruct (proj1 (HI u) (or_introl eq_refl))|]. rewrite Forall_forall in HF, HG.
    assert (Irr : forall a, lex a a <> Lt) by (intros a K; rewrite (proj2 (lex_eq a a) eq_refl) in K; discriminate K).
    assert (u = v) as ->.
    { destruct (proj1 (HI u) (or_introl eq_refl)) as [<-|H1]; [reflexivity|]. destruct (proj2 (HI v) (or_introl eq_refl)) as [<-|H2]; [reflexivity|].
      exfalso. apply (Irr u). eapply lex_trans; [apply HF; exact H2|now apply HG]. }
    f_equal. apply IH; [exact HV|]. intro x. split; intro H.
    + destruct (proj1 (HI x) (or_intror H)) as [<-|K]; [|exact K]. exfalso. exact (Irr _ (HF _ H)).
    + destruct (proj2 (HI x) (or_intror H)) as [<-|K]; [|exact K]. exfalso. exact (Irr _ (HG _ H)).
Qed.
Lemma unique_rows_ext X Y : (forall x, In x X <-> In x Y) -> unique_rows X = unique_rows Y.
Proof. intro H. apply sorted_ext; try apply unique_rows_sorted. intro x. rewrite !unique_rows_In. apply H. Qed.
Lemma sorted_nodup U : rows_sorted U -> NoDup U.
Proof.
  induction 1 as [|u U HS IH HF]; constructor; [|exact IH]. intro K. rewrite Forall_forall in HF. specialize (HF u K). rewrite (proj2 (lex_eq u u) eq_refl) in HF. discriminate HF.
Qed.
Lemma row_pos_nth r U : In r U -> nth_error U (row_pos r U) = Some r.
Proof.
  induction U as [|u U IH]; [intros []|]. intro H. cbn. destruct (lex r u) eqn:E; [apply lex_eq in E; now subst| |]; (destruct H as [->|H]; [rewrite (proj2 (lex_eq r r) eq_refl) in E; discriminate E|]); cbn; now apply IH.
Qed.
(** ** The loop *)
Lemma audit_loop_fst E sv l : forall b b' out, audit_loop E sv b l = (b', Ok out) -> map fst out = map fst l.
Proof.
  induction l as [|[i u] l IH]; intros b b' out H; cbn in H; [injection H as _ <-; reflexivity|]. destruct (set_x E b u) as [b1 [v|e]]; [|discriminate H]. destruct (fit sv b1) as [[b2 s]|e]; [|discriminate H].
  destruct (audit_loop E sv b2 l) as [b3 [o|e]] eqn:El; [|discriminate H]. injection H as _ <-. cbn. f_equal. eapply IH; eauto.
Qed.
Lemma lookup_In i v out : lookup_idx i out = Some v -> In (i, v) out.
Proof. induction out as [|[j u] out IH]; cbn; [discriminate|]. destruct (Nat.eqb_spec i j) as [->|N]; intro H; [injection H as <-; now left|right; auto]. Qed.
Lemma lookup_none i out : lookup_idx i out = None <-> ~ In i (map fst out).
Proof.
  induction out as [|[j u] out IH]; cbn; [split; auto|]. destruct (Nat.eqb_spec i j) as [->|N]; split; intro H; try discriminate H.
  - exfalso. apply H. now left.
  - intros [K|K]; [congruence|]. now apply IH.
  - apply IH. intro K. apply H. now right.
Qed.
Lemma combine_seq_In {A} (l : list A) s i a : In (i, a) (combine (seq s (length l)) l) <-> (s <= i)%nat /\ nth_error l (i - s) = Some a.
Proof.
  revert s. induction l as [|x l IH]; intro s; cbn.
  - split; [intros []|]. intros [_ H]. destruct (i - s)%nat; discriminate H.
  - rewrite IH. split.
    + intros [H|[H1 H2]]; [injection H as <- <-; split; [lia|]; now rewrite Nat.sub_diag|]. split; [lia|]. replace (i - s)%nat with (S (i - S s)) by lia. exact H2.
    + intros [H1 H2]. destruct (Nat.eq_dec i s) as [->|N]; [left; rewrite Nat.sub_diag in H2; cbn in H2; congruence|]. right. split; [lia|]. replace (i - s)%nat with (S (i - S s)) in H2 by lia. exact H2.
Qed.
