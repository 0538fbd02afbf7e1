(** Lemmas about flipsets. *)
From Verif Require Import Proofs_props_element Proofs_props_actionset Spec_flipset Proofs_vec.
#[local] Open Scope list_scope.
#[local] Open Scope Qc_scope.

Lemma Forall2_swap {X Y} (R : X -> Y -> Prop) l l' : Forall2 R l l' -> Forall2 (fun a b => R b a) l' l.
Proof. induction 1; constructor; assumption. Qed.
Lemma finite_all_fin q : finite_all (map Fin q) = Ok q.
Proof. induction q as [|a q IH]; [reflexivity|cbn; now rewrite IH]. Qed.
Lemma finite_all_inv l q : finite_all l = Ok q -> l = map Fin q.
Proof.
  revert q. induction l as [|[a| | |] l IH]; intros q H; cbn in H; try discriminate H.
  - injection H as <-. reflexivity.
  - bnd H as qs Hq. injection H as <-. cbn. now rewrite (IH _ Hq).
Qed.

(** ** flatnonzero *)
Lemma flatnonzero_from (a : list Qc) : forall s, let l := map fst (filter (fun p => negb (snd p =? 0)) (combine (seq s (length a)) a)) in
  StronglySorted lt l /\ (forall j, In j l <-> (s <= j)%nat /\ changes a (j - s)) /\ length l = n_changed a.
Proof.
  induction a as [|v a IH]; intro s; cbn zeta.
  - cbn. split; [constructor|]. split; [|reflexivity]. intros j. split; [intros []|]. intros (_ & aj & H & _). destruct (j - s)%nat; discriminate H.
  - cbn [length seq combine filter snd]. destruct (IH (S s)) as (H1 & H2 & H3). set (l := map fst _) in *.
    assert (C : forall j, (S s <= j)%nat -> changes (v :: a) (j - s) <-> changes a (j - S s)).
    { intros j Hj. replace (j - s)%nat with (S (j - S s)) by lia. reflexivity. }
    assert (B : forall j, In j l -> (s < j)%nat) by (intros j Hj; apply H2 in Hj; lia).
    unfold n_changed in *. cbn [filter]. destruct (v =? 0) eqn:V; cbn [negb].
    + split; [exact H1|]. split; [|exact H3]. intro j. fold l. rewrite H2. split.
      * intros [Hj Hc]. split; [lia|]. now apply C.
      * intros [Hj Hc]. destruct (Nat.eq_dec j s) as [->|N].
        { exfalso. destruct Hc as (aj & Hc & Hn). rewrite Nat.sub_diag in Hc. cbn in Hc. injection Hc as <-. apply Hn. now apply qeq_iff. }
        { split; [lia|]. apply C; [lia|exact Hc]. }
    + cbn [map fst]. fold l. split; [constructor; [exact H1|]; apply Forall_forall; exact B|]. split; [|cbn; now rewrite H3].
      intro j. cbn [In]. rewrite H2. split.
      * intros [<-|[Hj Hc]]; [split; [lia|]; rewrite Nat.sub_diag; exists v; split; [reflexivity|]; intros ->; now rewrite (proj2 (qeq_iff 0 0) eq_refl) in V|].
        split; [lia|]. now apply C.
      * intros [Hj Hc]. destruct (Nat.eq_dec j s) as [->|N]; [now left|]. right. split; [lia|]. apply C; [lia|exact Hc].
Qed.
Lemma flatnonzero_spec a : StronglySorted lt (flatnonzero a) /\ (forall j, In j (flatnonzero a) <-> changes a j) /\ length (flatnonzero a) = n_changed a.
Proof.
  destruct (flatnonzero_from a 0) as (H1 & H2 & H3). split; [exact H1|]. split; [|exact H3]. intro j. unfold flatnonzero. rewrite H2. rewrite Nat.sub_0_r. intuition lia.
Qed.

(** Reading positions that exist. *)
Lemma mapM_nth {A} (l : list A) e js : (forall j, In j js -> (j < length l)%nat) ->
  exists vs, mapM (fun j => of_option e (nth_error l j)) js = Ok vs /\ Forall2 (fun j v => nth_error l j = Some v) js vs.
Proof.
  induction js as [|j js IH]; intro H; [exists []; split; [reflexivity|constructor]|].
  destruct (nth_error l j) as [v|] eqn:E; [|exfalso; apply nth_error_None in E; specialize (H j (or_introl eq_refl)); lia].
  destruct IH as (vs & H1 & H2). { intros i Hi. apply H. now right. }
  exists (v :: vs). split; [|constructor; assumption]. cbn. rewrite E. cbn. now rewrite H1.
Qed.
Lemma vadd_forall2 (x a : list Qc) js : forall xs vs, Forall2 (fun j v => nth_error x j = Some v) js xs -> Forall2 (fun j v => nth_error a j = Some v) js vs ->
  Forall2 (fun j v => exists xj aj, nth_error x j = Some xj /\ nth_error a j = Some aj /\ v = xj + aj) js (vadd xs vs).
Proof.
  induction js as [|j js IH]; intros xs vs H1 H2; inversion H1; inversion H2; subst; [constructor|]. cbn. constructor; [eauto|]. now apply IH.
Qed.
Lemma score_comm w t x : t + dot w x = score w t x.
Proof. unfold score. ring. Qed.

(** ** Frames: what never changes *)
Record frame (k : backend) (A : action_set) (x w : list Qc) (t : Qc) (f : flipset) : Prop := {
  fm_A : f_A f = A; fm_n : f_n f = as_len A; fm_names : f_names f = as_names A; fm_kind : f_kind f = k; fm_x : f_x f = x; fm_w : f_w f = w; fm_t : f_t f = t }.
Lemma frame_items k A x w t f l d : frame k A x w t f -> frame k A x w t (f_with_items f l d).
Proof. intros []. now constructor. Qed.
Lemma frame_builder k A x w t f b : frame k A x w t f -> frame k A x w t (f_with_builder f b).
Proof. intros []. now constructor. Qed.
Lemma frame_sort k A x w t f b i : frame k A x w t f -> frame k A x w t (f_with_sort f b i).
Proof. intros []. now constructor. Qed.
Lemma frame_resort k A x w t srt f : frame k A x w t f -> frame k A x w t (fst (f_resort srt f)).
Proof. intro H. unfold f_resort. destruct (srt _ _); [|exact H]. cbn. destruct (f_inplace f); [now apply frame_items|exact H]. Qed.
Lemma frame_add k A x w t srt f l : frame k A x w t f -> frame k A x w t (fst (f_add srt f l)).
Proof.
  intro H. unfold f_add. destruct (mapM _ _) as [l'|e]; [|exact H]. unfold add_to_df. destruct l' as [|i l'].
  - cbn. now apply frame_items.
  - destruct (mapM _ _) as [rows|e]; [|cbn; now apply frame_items]. apply frame_resort. now apply frame_items, frame_items.
Qed.
Lemma frame_step E sv srt k A x w t f o : frame k A x w t f -> frame k A x w t (flipset_step E sv srt f o).
Proof.
  intro H. destruct o as [fuel total et ct|q|l|]; cbn [flipset_step].
  - unfold f_populate. destruct (match f_builder f with Some b => _ | None => _ end) as [b|e]; [|exact H].
    destruct (populate _ _ _ _ _) as [[[b' l]|e]|]; [|now apply frame_builder|exact H].
    pose proof (frame_add k A x w t srt (f_with_builder f (Some b')) (map sol_item l) (frame_builder _ _ _ _ _ _ _ H)) as K.
    destruct (f_add srt (f_with_builder f (Some b')) (map sol_item l)) as [f' r]. exact K.
  - destruct q as [|names ip ax|names].
    + now apply frame_resort.
    + cbn. destruct (all_some names) as [[|c ks]|]; try exact H. destruct ax; [|exact H]. destruct (srt _ _); [|exact H]. cbn. apply frame_sort. destruct ip; [now apply frame_items|exact H].
    + destruct names as [|n names]; [now apply frame_resort|]. cbn -[all_some]. destruct (all_some _) as [[|c ks]|]; try exact H. destruct (srt _ _); [|exact H]. cbn. now apply frame_sort, frame_items.
  - now apply frame_add.
  - unfold to_flat_df. pose proof (frame_resort k A x w t srt f H) as K. destruct (f_resort srt f) as [f' [u|e]]; exact K.
Qed.
Lemma frame_created k A x w t ob f : flipset_created k A x w t ob f -> frame k A x w t f /\ f_items f = [] /\ f_df f = [] /\ f_builder f = ob /\ f_by f = [KSize; KCost; KScore] /\ f_inplace f = true.
Proof.
  intros (args & Hp & H). unfold mk_flipset in H. rewrite Hp in H. cbn in H. injection H as <-. repeat split.
Qed.
Lemma frame_run E sv srt k A x w t ops : forall f, frame k A x w t f -> frame k A x w t (flipset_run E sv srt f ops).
Proof. induction ops as [|o ops IH]; intros f H; [exact H|]. cbn. apply IH. now apply frame_step. Qed.

Lemma n_changed_pos a : (1 <= n_changed a)%nat <-> exists j, changes a j.
Proof.
  destruct (flatnonzero_spec a) as (_ & H2 & H3). rewrite <- H3. split.
  - intro H. destruct (flatnonzero a) as [|j l] eqn:E; [cbn in H; lia|]. exists j. apply H2. now left.
  - intros (j & Hj). apply H2 in Hj. destruct (flatnonzero a); [destruct Hj|cbn; lia].
Qed.

(** ** Validation *)
Section Frame.
Context (k : backend) (A : action_set) (x w : list Qc) (t : Qc).
Hypothesis HLx : length x = as_len A.
Hypothesis HLw : length w = as_len A.
Hypothesis HLn : length (as_names A) = as_len A.

Lemma yhat_eq f : frame k A x w t f -> f_yhat f = Ok (score w t x).
Proof. intros []. unfold f_yhat, np_dot. rewrite fm_w0, fm_x0, fm_t0. rewrite (proj2 (Nat.eqb_eq (length w) (length x))) by lia. cbn. now rewrite score_comm. Qed.
Lemma score_eq f a : frame k A x w t f -> length a = as_len A -> f_score f a = Ok (score w t (vadd x a)).
Proof.
  intros [] HLa. unfold f_score, np_dot, np_add. rewrite fm_w0, fm_x0, fm_t0. rewrite (proj2 (Nat.eqb_eq (length x) (length a))) by lia. cbn [bind].
  rewrite (proj2 (Nat.eqb_eq (length w) (length (vadd x a)))) by (rewrite vadd_length; lia). cbn. now rewrite score_comm.
Qed.
Lemma predict_eq f a : frame k A x w t f -> length a = as_len A -> f_predict f a = Ok (prediction w t (vadd x a)).
Proof. intros F HLa. unfold f_predict. rewrite (score_eq f a F HLa). reflexivity. Qed.

#[local] Notation filable := (filable A x w t).
Lemma validate_iff f i v : frame k A x w t f -> (validate_item f i = Ok v <-> filable i v).
Proof.
  intro F. split.
  - intro H. unfold validate_item in H. destruct (it_feasible i) as [fe|] eqn:E1; [|discriminate H]. destruct (it_actions i) as [a|] eqn:E2; [|discriminate H].
    destruct (it_cost i) as [c|] eqn:E3; [|discriminate H]. bnd H as q Hq. bnd H as u1 Hc. bnd H as u2 Hf. injection H as <-. cbn [fi_actions fi_cost].
    apply passert_ok in Hf, Hc. unfold validate_action in Hq. bnd Hq as u3 H3. destruct (Nat.eqb (length a) (f_n f)) eqn:EL; [|discriminate H3]. apply Nat.eqb_eq in EL. rewrite (fm_n _ _ _ _ _ _ F) in EL.
    bnd Hq as q' Hfin. apply finite_all_inv in Hfin. subst a. rewrite map_length in EL. bnd Hq as u4 H4. apply passert_ok in H4. apply Nat.leb_le in H4.
    rewrite (yhat_eq f F) in Hq. cbn [bind] in Hq. rewrite (predict_eq f q' F EL) in Hq. cbn [bind] in Hq. bnd Hq as u5 H5. injection Hq as <-. apply passert_ok in H5.
    split; [|intro K; rewrite K in H5; rewrite (proj2 (qeq_iff _ _) eq_refl) in H5; discriminate H5].
    repeat split; auto; [now rewrite E1, Hf|now apply n_changed_pos|]. destruct c as [p| | |]; try discriminate Hc; [right; exists p; split; [reflexivity|now qbool]|now left].
  - intros [(E1 & E2 & E3 & EL & EC & Ec) Hy]. destruct v as [a c]. cbn [fi_actions fi_cost] in *. unfold validate_item. rewrite E1, E2, E3. unfold validate_action. rewrite map_length, (fm_n _ _ _ _ _ _ F), (proj2 (Nat.eqb_eq _ _) EL). cbn [bind].
    rewrite finite_all_fin. cbn [bind]. apply n_changed_pos in EC. unfold n_changed in EC. rewrite (proj2 (Nat.leb_le _ _) EC). cbn [passert bind]. rewrite (yhat_eq f F). cbn [bind].
    rewrite (predict_eq f a F EL). cbn [bind]. rewrite (proj2 (qeq_false _ _) Hy). cbn [negb passert bind].
    destruct Ec as [->|(p & -> & Hp)]; [reflexivity|]. rewrite (proj2 (qlt_iff _ _) Hp). reflexivity.
Qed.
Lemma row_ok f i : frame k A x w t f -> length (fi_actions i) = as_len A -> exists r, item_row f i = Ok r /\ describes w t x (as_names A) i r.
Proof.
  intros F HLa. destruct (flatnonzero_spec (fi_actions i)) as (N1 & N2 & N3).
  assert (B : forall j, In j (flatnonzero (fi_actions i)) -> (j < as_len A)%nat). { intros j Hj. apply N2 in Hj. destruct Hj as (aj & Hj & _). rewrite <- HLa. apply nth_error_Some. congruence. }
  unfold item_row. rewrite (predict_eq f _ F HLa). cbn [bind]. rewrite (fm_names _ _ _ _ _ _ F), (fm_x _ _ _ _ _ _ F).
  destruct (mapM_nth (as_names A) IndexError (flatnonzero (fi_actions i))) as (ns & Hn & Hn'); [intros; rewrite HLn; auto|].
  destruct (mapM_nth x IndexError (flatnonzero (fi_actions i))) as (xs & Hx & Hx'); [intros; rewrite HLx; auto|].
  destruct (mapM_nth (fi_actions i) IndexError (flatnonzero (fi_actions i))) as (vs & Hv & Hv'); [intros; rewrite HLa; auto|].
  rewrite Hn. cbn [bind]. rewrite Hx. cbn [bind]. rewrite Hv. cbn [bind]. rewrite (score_eq f _ F HLa). cbn [bind]. rewrite (yhat_eq f F). cbn [bind].
  eexists. split; [reflexivity|]. unfold describes. cbn. split; [reflexivity|]. split; [exact N3|]. split; [reflexivity|]. split; [exact N1|]. split; [exact N2|]. split; [exact Hn'|]. split; [exact Hx'|].
  split; [now apply vadd_forall2|]. split; reflexivity.
Qed.
Lemma rows_ok f l : frame k A x w t f -> Forall (fun i => length (fi_actions i) = as_len A) l -> exists rs, mapM (item_row f) l = Ok rs /\ Forall2 (describes w t x (as_names A)) l rs.
Proof.
  intros F H. induction H as [|i l Hi H (rs & H1 & H2)]; [exists []; split; [reflexivity|constructor]|].
  destruct (row_ok f i F Hi) as (r & Hr & Hd). exists (r :: rs). split; [|now constructor]. cbn. rewrite Hr. cbn. now rewrite H1.
Qed.

(** ** The table invariant *)
(** Every item stored was filable; the table is a rearrangement of one row per item, with labels 0, 1, ... *)
Definition table_inv (f : flipset) : Prop :=
  Forall (fun i => length (fi_actions i) = as_len A) (f_items f) /\
  exists its rows, Permutation its (f_items f) /\ Forall2 (describes w t x (as_names A)) its rows /\ Permutation (f_df f) (relabel rows).
Lemma relabel_snd rows : map snd (relabel rows) = rows.
Proof. unfold relabel. generalize 0%nat. induction rows as [|r rows IH]; intro s; [reflexivity|]. cbn. now rewrite IH. Qed.
Lemma inv_df f d : Permutation d (f_df f) -> table_inv f -> table_inv (f_with_items f (f_items f) d).
Proof. intros P (H0 & its & rows & H1 & H2 & H3). split; [exact H0|]. exists its, rows. cbn. split; [exact H1|]. split; [exact H2|]. now rewrite P. Qed.
Lemma inv_resort srt f : ok_sorter srt -> table_inv f -> table_inv (fst (f_resort srt f)).
Proof.
  intros (_ & S2 & _) H. unfold f_resort. destruct (srt _ _) as [d|e] eqn:E; [|exact H]. cbn. destruct (f_inplace f); [|exact H]. apply inv_df; [|exact H]. exact (S2 _ _ _ E).
Qed.
Lemma perm_forall2 {X Y} (R : X -> Y -> Prop) l l' rows : Permutation rows l' -> Forall2 R l rows -> exists l2, Permutation l l2 /\ Forall2 R l2 l'.
Proof.
  intros P F. apply Forall2_swap in F. destruct (Permutation_Forall2 P F) as (l2 & H1 & H2). exists l2. split; [exact H1|]. apply Forall2_swap in H2. exact H2.
Qed.
Lemma validated_filable f items l : frame k A x w t f -> mapM (validate_item f) items = Ok l -> Forall2 filable items l.
Proof.
  intros F H. apply mapM_ok in H. induction H as [|i v items l Hi H IH]; constructor; [|exact IH]. now apply (validate_iff f i v F).
Qed.
Lemma filable_lengths items l : Forall2 filable items l -> Forall (fun i => length (fi_actions i) = as_len A) l.
Proof. induction 1 as [|i v items l [(_ & _ & _ & H & _) _] _ IH]; constructor; assumption. Qed.
(** The effect of an addition whose items are all filable. *)
Lemma add_ok srt f items l : frame k A x w t f -> Forall2 filable items l ->
  exists rows, Forall2 (describes w t x (as_names A)) l rows /\
    f_add srt f items = match l with [] => (f_with_items f (f_items f ++ []) (f_df f), Ok tt) | _ => f_resort srt (f_with_items f (f_items f ++ l) (relabel (map snd (f_df f) ++ rows))) end.
Proof.
  intros F H. pose proof (filable_lengths _ _ H) as HL. assert (HM : mapM (validate_item f) items = Ok l).
  { clear HL. induction H as [|i v items l Hi H IH]; [reflexivity|]. cbn. rewrite (proj2 (validate_iff f i v F) Hi). cbn. now rewrite IH. }
  unfold f_add. rewrite HM. destruct (rows_ok (f_with_items f (f_items f ++ l) (f_df f)) l (frame_items _ _ _ _ _ _ _ _ F) HL) as (rows & R1 & R2). exists rows. split; [exact R2|].
  unfold add_to_df. destruct l as [|v l]; [reflexivity|]. rewrite R1. reflexivity.
Qed.
Lemma add_err srt f items e : mapM (validate_item f) items = Err e -> f_add srt f items = (f, Err e).
Proof. intro H. unfold f_add. now rewrite H. Qed.
Lemma inv_add srt f items : ok_sorter srt -> frame k A x w t f -> table_inv f -> table_inv (fst (f_add srt f items)).
Proof.
  intros S F (H0 & its & rows & H1 & H2 & H3). destruct (mapM (validate_item f) items) as [l|e] eqn:E.
  2:{ rewrite (add_err srt f items e E). cbn. split; [exact H0|]. exists its, rows. auto. }
  apply (validated_filable f items l F) in E. destruct (add_ok srt f items l F E) as (rs & R1 & ->). destruct l as [|v l].
  - cbn. rewrite app_nil_r. split; [exact H0|]. exists its, rows. auto.
  - apply (inv_resort srt _ S). split; cbn [f_items f_with_items f_df].
    + apply Forall_app. split; [exact H0|]. exact (filable_lengths _ _ E).
    + destruct (perm_forall2 (describes w t x (as_names A)) its (map snd (f_df f)) rows) as (its2 & P1 & P2); [|exact H2|].
      { rewrite <- (relabel_snd rows). symmetry. now apply Permutation_map. }
      exists (its2 ++ (v :: l)), (map snd (f_df f) ++ rs). split; [|split; [now apply Forall2_app|reflexivity]].
      apply Permutation_app_tail. now rewrite <- P1.
Qed.
Lemma inv_builder f b : table_inv f -> table_inv (f_with_builder f b).
Proof. intros (H0 & its & rows & H1 & H2 & H3). split; [exact H0|]. exists its, rows. auto. Qed.
Lemma inv_sort f b i : table_inv f -> table_inv (f_with_sort f b i).
Proof. intros (H0 & its & rows & H1 & H2 & H3). split; [exact H0|]. exists its, rows. auto. Qed.
Lemma inv_step E sv srt f o : ok_sorter srt -> frame k A x w t f -> table_inv f -> table_inv (flipset_step E sv srt f o).
Proof.
  intros S F H. pose proof S as (_ & S2 & _). destruct o as [fuel total et ct|q|l|]; cbn [flipset_step].
  - unfold f_populate. destruct (match f_builder f with Some b => _ | None => _ end) as [b|e]; [|exact H].
    destruct (populate _ _ _ _ _) as [[[b' l]|e]|]; [|now apply inv_builder|exact H].
    pose proof (inv_add srt (f_with_builder f (Some b')) (map sol_item l) S (frame_builder _ _ _ _ _ _ _ F) (inv_builder _ _ H)) as K.
    destruct (f_add srt (f_with_builder f (Some b')) (map sol_item l)) as [f' r]. exact K.
  - destruct q as [|names ip ax|names].
    + now apply inv_resort.
    + cbn. destruct (all_some names) as [[|c ks]|]; try exact H. destruct ax; [|exact H]. destruct (srt _ _) as [d|] eqn:Ed; [|exact H]. cbn. apply inv_sort. destruct ip; [apply inv_df; [exact (S2 _ _ _ Ed)|exact H]|exact H].
    + destruct names as [|n names]; [now apply inv_resort|]. cbn -[all_some]. destruct (all_some _) as [[|c ks]|]; try exact H. destruct (srt _ _) as [d|] eqn:Ed; [|exact H]. cbn. apply inv_sort, inv_df; [exact (S2 _ _ _ Ed)|exact H].
  - now apply inv_add.
  - unfold to_flat_df. pose proof (inv_resort srt f S H) as K. destruct (f_resort srt f) as [f' [u|e]]; exact K.
Qed.
Lemma inv_run E sv srt ops : ok_sorter srt -> forall f, frame k A x w t f -> table_inv f -> table_inv (flipset_run E sv srt f ops).
Proof. intro S. induction ops as [|o ops IH]; intros f F H; [exact H|]. cbn. apply IH; [now apply frame_step|now apply inv_step]. Qed.
Lemma inv_created ob f : flipset_created k A x w t ob f -> table_inv f.
Proof. intro H. destruct (frame_created _ _ _ _ _ _ _ H) as (_ & E1 & E2 & _). unfold table_inv. rewrite E1, E2. split; [constructor|]. exists [], []. repeat constructor. Qed.
Lemma inv_reachable E sv srt ob f : ok_sorter srt -> flipset_reachable E sv srt k A x w t ob f -> frame k A x w t f /\ table_inv f.
Proof.
  intros S (f0 & ops & H & ->). pose proof (frame_created _ _ _ _ _ _ _ H) as (F & _). split; [now apply frame_run|]. apply inv_run; [exact S|exact F|]. eapply inv_created; eauto.
Qed.
End Frame.
