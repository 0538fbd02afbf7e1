(** What aligning and assigning y_desired accept and change (C15). *)
From Verif Require Import Spec_backend Proofs_props_element Proofs_props_actionset Proofs_actionset.
#[local] Open Scope list_scope.
#[local] Open Scope Qc_scope.

Lemma Forall2_map_r {A B} (R : A -> B -> Prop) (f : A -> B) l : (forall a, R a (f a)) -> Forall2 R l (map f l).
Proof. intro H. induction l; constructor; auto. Qed.
Lemma Forall2_same {A} (R : A -> A -> Prop) l : (forall a, R a a) -> Forall2 R l l.
Proof. intro H. induction l; constructor; auto. Qed.
Lemma flip_id e : with_flip e (e_flip e) = e.
Proof. now destruct e. Qed.
Lemma desire_total A y : (exists A', set_y_desired A y = Ok A') <-> y = 1%Z \/ y = 0%Z \/ y = (-1)%Z.
Proof.
  unfold set_y_desired. split.
  - intros (A' & H). bnd H as u Hu. apply passert_ok in Hu. clear H. destruct (y =? -1)%Z eqn:E1; [apply Z.eqb_eq in E1; auto|]. destruct (y =? 0)%Z eqn:E2; [apply Z.eqb_eq in E2; auto|]. destruct (y =? 1)%Z eqn:E3; [apply Z.eqb_eq in E3; auto|discriminate Hu].
  - intro H. assert (K : ((y =? -1) || (y =? 0) || (y =? 1))%Z = true) by (destruct H as [->|[->| ->]]; reflexivity). rewrite K. cbn [passert bind]. destruct (y =? as_y A)%Z; [eauto|]. cbv zeta. destruct (alignment_known _); eauto.
Qed.
Lemma desire_spec E A y A' : aset_reachable E A -> set_y_desired A y = Ok A' ->
  as_y A' = (if (y =? 1)%Z then 1%Z else (-1)%Z) /\ as_names A' = as_names A /\ as_cons A' = as_cons A /\
  Forall2 (fun e e' => e' = with_flip e (e_flip e')) (as_elems A) (as_elems A') /\
  (y = as_y A \/ alignment_known A = false -> as_elems A' = as_elems A) /\
  (y <> as_y A -> alignment_known A = true -> Forall2 (fun e e' => exists f, e_flip e = Some f /\ e_flip e' = Some (- f)%Z) (as_elems A) (as_elems A')).
Proof.
  intros HR H. assert (Hy : y = 1%Z \/ y = 0%Z \/ y = (-1)%Z) by (apply (desire_total A); eauto).
  pose proof (reachable_wf E A HR) as W. destruct W as (_ & _ & WE & _ & _ & WY). unfold set_y_desired in H. bnd H as u Hu. destruct (y =? as_y A)%Z eqn:EY.
  - apply Z.eqb_eq in EY. injection H as <-. split; [destruct WY as [R|R], Hy as [->|[->| ->]]; rewrite R in *; (discriminate EY || reflexivity)|]. do 2 (split; [reflexivity|]). split; [apply Forall2_same; intro e; symmetry; apply flip_id|]. split; [reflexivity|]. intro N. now destruct (N EY).
  - apply Z.eqb_neq in EY. cbv zeta in H. change (alignment_known (with_y A _)) with (alignment_known A) in H. destruct (alignment_known A) eqn:EA; injection H as <-; cbn [as_y as_names as_cons as_elems with_y with_elems].
    + split; [destruct Hy as [->|[->| ->]]; reflexivity|]. do 2 (split; [reflexivity|]). split; [apply Forall2_map_r; intro e; reflexivity|]. split; [intros [N|N]; [now destruct (EY N)|discriminate N]|]. intros _ _.
      unfold alignment_known in EA. rewrite forallb_forall in EA. assert (K : forall e, In e (as_elems A) -> exists f, e_flip e = Some f).
      { intros e He. specialize (EA e He). unfold e_aligned in EA. destruct (e_flip e); [eauto|discriminate EA]. }
      clear - K WE. induction (as_elems A) as [|e es IH]; constructor; [|apply IH; [now inversion WE|intros; apply K; now right]]. destruct (K e (or_introl eq_refl)) as (f & Hf). exists f. split; [exact Hf|]. cbn. rewrite Hf. cbn. f_equal. inversion WE; subst. destruct (inv_flip _ _ (reachable_inv _ _ H1) f Hf) as [->|[->| ->]]; reflexivity.
    + split; [destruct Hy as [->|[->| ->]]; reflexivity|]. do 2 (split; [reflexivity|]). split; [apply Forall2_same; intro e; symmetry; apply flip_id|]. split; [reflexivity|]. intros _ N. discriminate N.
Qed.
Lemma align_total A a w t : parse_classifier_args a = Ok (w, t) -> (exists A', set_alignment A a = Ok A') <-> length w = as_len A.
Proof.
  intro HP. unfold set_alignment. rewrite HP. cbn [bind]. destruct (Nat.eqb (length w) (as_len A)) eqn:E; cbn [passert bind].
  - apply Nat.eqb_eq in E. split; eauto.
  - apply Nat.eqb_neq in E. split; [intros (A' & H); discriminate H|intro N; now destruct (E N)].
Qed.
Lemma align_spec E A a A' : aset_reachable E A -> set_alignment A a = Ok A' -> exists w t, parse_classifier_args a = Ok (w, t) /\ flips_match A' w /\ only_directions_differ A A'.
Proof.
  intros HR H. pose proof (reachable_wf E A HR) as W. pose proof (wf_len E A W) as HL. assert (WY : (as_y A = 1 \/ as_y A = -1)%Z) by apply W.
  pose proof H as H0. apply set_alignment_spec in H. destruct H as (w & t & HP & HW & E1 & E2 & E3 & E4). exists w, t. split; [exact HP|]. split; [eapply align_flips; eassumption|].
  split; [exact E1|]. split; [exact E2|]. split; [exact E3|]. rewrite E4. split; [rewrite map_length, combine_length, map_length; lia|].
  intros j e e' He He'. rewrite nth_error_map in He'. destruct (nth_error (combine _ _) j) as [[e0 f]|] eqn:EC; [|discriminate He']. injection He' as <-. cbn [fst snd].
  assert (K : e0 = e). { clear - EC He. revert EC He. generalize (map (fun w0 => if (0 <? as_y A)%Z then qsign w0 else (- qsign w0)%Z) w). generalize (as_elems A). intros l. revert j. induction l as [|a l IH]; intros [|j] [|m ms] H1 H2; cbn in *; try discriminate; [congruence|eauto]. }
  subst e0. eauto.
Qed.
