(** Vectors indexed by feature, scattered from the entries of the build information. *)
From Verif Require Import Proofs_props_element Proofs_props_actionset Spec_recourse Proofs_mip Proofs_info.
#[local] Open Scope list_scope.
#[local] Open Scope Qc_scope.

Definition scatter (n : nat) (infos : list info) (f : info -> Qc) : list Qc :=
  map (fun j => match info_at infos j with Some i => f i | None => 0 end) (seq 0 n).

Lemma scatter_length n infos f : length (scatter n infos f) = n.
Proof. unfold scatter. now rewrite map_length, seq_length. Qed.
Lemma nth_error_map_seq {A} (g : nat -> A) n j : nth_error (map g (seq 0 n)) j = if Nat.ltb j n then Some (g j) else None.
Proof.
  destruct (Nat.ltb_spec j n) as [L|L].
  - rewrite nth_error_map. rewrite (nth_error_nth' (seq 0 n) 0%nat) by (now rewrite seq_length). cbn. now rewrite seq_nth.
  - apply nth_error_None. now rewrite map_length, seq_length.
Qed.
Lemma scatter_nth n infos f j : nth_error (scatter n infos f) j =
  if Nat.ltb j n then Some (match info_at infos j with Some i => f i | None => 0 end) else None.
Proof. unfold scatter. now rewrite nth_error_map_seq. Qed.
Lemma info_at_cons i l j : info_at (i :: l) j = if Nat.eqb (i_idx i) j then Some i else info_at l j.
Proof. reflexivity. Qed.
Lemma info_at_notin l j : ~ In j (map i_idx l) -> info_at l j = None.
Proof.
  intro H. destruct (info_at l j) as [i|] eqn:E; [|reflexivity]. apply info_at_Some in E. destruct E as [Hi <-].
  exfalso. apply H. now apply in_map.
Qed.

Lemma put_loop (N : nat) (v : list Qc) (f : info -> Qc) l : forall st a,
  NoDup (map i_idx l) ->
  (forall k i, nth_error l k = Some i -> nth (Nat.modulo (st + k) N) v 0 = f i) ->
  forall j, nth_error (fold_left (fun acc p => list_set (snd p) (nth (Nat.modulo (fst p) N) v 0) acc)
                   (combine (seq st (length l)) (map i_idx l)) a) j =
    match info_at l j with Some i => if Nat.ltb j (length a) then Some (f i) else None | None => nth_error a j end.
Proof.
  induction l as [|i l IH]; intros st a HN Hv j; [reflexivity|].
  cbn [length seq map combine fold_left fst snd]. inversion HN as [|? ? H1 H2]; subst.
  rewrite (IH (S st)); [|exact H2|].
  2:{ intros k i' Hk. specialize (Hv (S k) i' Hk). now rewrite <- plus_n_Sm in Hv. }
  rewrite list_set_length, info_at_cons.
  pose proof (Hv 0%nat i eq_refl) as H0. rewrite Nat.add_0_r in H0. rewrite H0.
  destruct (Nat.eqb_spec (i_idx i) j) as [<-|Hne].
  - rewrite (info_at_notin _ _ H1). destruct (Nat.ltb_spec (i_idx i) (length a)) as [L|L]; [now apply list_set_eq|].
    apply nth_error_None. now rewrite list_set_length.
  - destruct (info_at l j); [reflexivity|]. now apply list_set_neq.
Qed.

Lemma np_put_scatter n infos f : NoDup (map i_idx infos) ->
  np_put (repeat 0 n) (map i_idx infos) (map f infos) = scatter n infos f.
Proof.
  intro HN. apply nth_error_ext_local. intro j. rewrite scatter_nth.
  destruct infos as [|i0 l0] eqn:El.
  - cbn [map np_put info_at find]. destruct (Nat.ltb_spec j n) as [L|L]; [now apply nth_error_repeat|]. apply nth_error_None. now rewrite repeat_length.
  - rewrite <- El in *. unfold np_put. destruct (map f infos) as [|q0 q] eqn:Em; [subst infos; discriminate Em|]. rewrite <- Em.
    rewrite (map_length i_idx). rewrite (put_loop (length (map f infos)) (map f infos) f infos 0 (repeat 0 n)); [|exact HN|].
    + rewrite repeat_length. destruct (info_at infos j); [reflexivity|].
      destruct (Nat.ltb_spec j n) as [L|L]; [now apply nth_error_repeat|]. apply nth_error_None. now rewrite repeat_length.
    + intros k i Hk. cbn [plus]. assert (k < length infos)%nat by (apply nth_error_Some; congruence).
      rewrite map_length, Nat.mod_small by assumption. rewrite (nth_indep _ 0 (f i)) by (now rewrite map_length).
      rewrite map_nth. f_equal. eapply nth_error_nth, Hk.
Qed.

(** ** Sums over scattered vectors *)
Lemma qsum_map_plus {A} (g h : A -> Qc) l : qsum (map (fun x => g x + h x) l) = qsum (map g l) + qsum (map h l).
Proof. induction l as [|a l IH]; cbn [map qsum]; [ring|]. rewrite IH. ring. Qed.
Lemma qsum_map_zero {A} (l : list A) : qsum (map (fun _ => 0) l) = 0.
Proof. induction l as [|a l IH]; cbn [map qsum]; [reflexivity|]. rewrite IH. ring. Qed.
Lemma qsum_indicator n st k (c : Qc) : qsum (map (fun j => if Nat.eqb k j then c else 0) (seq st n)) =
  if (Nat.leb st k && Nat.ltb k (st + n))%bool then c else 0.
Proof.
  revert st. induction n as [|n IH]; intro st; cbn [seq map qsum].
  - destruct (Nat.leb_spec st k); destruct (Nat.ltb_spec k (st + 0)); cbn [andb]; try reflexivity; lia.
  - rewrite IH. destruct (Nat.eqb_spec k st) as [->|N].
    + replace (Nat.leb (S st) st) with false by (symmetry; apply Nat.leb_gt; lia).
      rewrite Nat.leb_refl. replace (Nat.ltb st (st + S n)) with true by (symmetry; apply Nat.ltb_lt; lia). cbn [andb]. ring.
    + replace (Nat.leb (S st) k) with (Nat.leb st k).
      2:{ destruct (Nat.leb_spec st k); destruct (Nat.leb_spec (S st) k); try reflexivity; lia. }
      replace (st + S n)%nat with (S st + n)%nat by lia. destruct (_ && _)%bool; ring.
Qed.
Lemma qsum_at (infos : list info) (g : nat -> info -> Qc) n : NoDup (map i_idx infos) ->
  (forall i, In i infos -> (i_idx i < n)%nat) ->
  qsum (map (fun j => match info_at infos j with Some i => g j i | None => 0 end) (seq 0 n)) =
  qsum (map (fun i => g (i_idx i) i) infos).
Proof.
  induction infos as [|i l IH]; intros HN HL.
  - cbn [info_at find map qsum]. apply qsum_map_zero.
  - inversion HN as [|? ? H1 H2]; subst. cbn [map qsum]. rewrite <- IH; [|exact H2|intros; apply HL; now right].
    transitivity (qsum (map (fun j => (if Nat.eqb (i_idx i) j then g (i_idx i) i else 0) +
                                      match info_at l j with Some i => g j i | None => 0 end) (seq 0 n))).
    + f_equal. apply map_ext. intro j. rewrite info_at_cons. destruct (Nat.eqb_spec (i_idx i) j) as [<-|N]; [|ring].
      rewrite (info_at_notin _ _ H1). ring.
    + rewrite qsum_map_plus, qsum_indicator. cbn [Nat.leb andb plus].
      assert (L : (i_idx i < n)%nat) by (apply HL; now left). now rewrite (proj2 (Nat.ltb_lt _ _) L).
Qed.
Lemma qsum_scatter n infos f : NoDup (map i_idx infos) -> (forall i, In i infos -> (i_idx i < n)%nat) ->
  qsum (scatter n infos f) = qsum (map f infos).
Proof. intros HN HL. apply (qsum_at infos (fun _ i => f i) n HN HL). Qed.

Lemma dot_map_seq w (g : nat -> Qc) : forall st, dot w (map g (seq st (length w))) = qsum (map (fun j => nth (j - st) w 0 * g j) (seq st (length w))).
Proof.
  induction w as [|a w IH]; intro st; [reflexivity|]. cbn [length seq map dot qsum]. rewrite Nat.sub_diag. cbn [nth].
  f_equal. rewrite IH. f_equal. apply map_ext_in. intros j Hj. apply in_seq in Hj.
  replace (j - st)%nat with (S (j - S st)) by lia. reflexivity.
Qed.
Lemma dot_scatter w infos f : NoDup (map i_idx infos) -> (forall i, In i infos -> (i_idx i < length w)%nat) ->
  dot w (scatter (length w) infos f) = qsum (map (fun i => nth (i_idx i) w 0 * f i) infos).
Proof.
  intros HN HL. unfold scatter. rewrite dot_map_seq.
  rewrite <- (qsum_at infos (fun j i => nth j w 0 * f i) (length w) HN HL). f_equal. apply map_ext_in. intros j Hj.
  rewrite Nat.sub_0_r. destruct (info_at infos j); [reflexivity|ring].
Qed.
Lemma dot_vadd w : forall x a, length x = length w -> length a = length w -> dot w (vadd x a) = dot w x + dot w a.
Proof.
  induction w as [|c w IH]; intros [|u x] [|v a]; cbn; try discriminate; intros Hx Ha; [ring|].
  rewrite IH by congruence. ring.
Qed.
Lemma vadd_length a b : length a = length b -> length (vadd a b) = length a.
Proof. revert b. induction a as [|u a IH]; intros [|v b]; cbn; try discriminate; [reflexivity|]. intro H. rewrite IH; congruence. Qed.
Lemma vadd_nth a b j u v : nth_error a j = Some u -> nth_error b j = Some v -> nth_error (vadd a b) j = Some (u + v).
Proof.
  revert b j. induction a as [|p a IH]; intros [|q b] [|j]; cbn; try discriminate.
  - intros E1 E2. congruence.
  - apply IH.
Qed.

Definition onez (b : bool) : Qc := if b then 1 else 0.
Lemma count_qsum {A} (p : A -> bool) l : qz (Z.of_nat (length (filter p l))) = qsum (map (fun a => onez (p a)) l).
Proof.
  induction l as [|a l IH]; [apply qz_0|]. cbn [filter map qsum]. rewrite <- IH. destruct (p a); unfold onez.
  - cbn [length]. rewrite Nat2Z.inj_succ, <- Z.add_1_l, qz_plus, qz_1. reflexivity.
  - ring.
Qed.
Lemma n_changed_scatter n infos f : NoDup (map i_idx infos) -> (forall i, In i infos -> (i_idx i < n)%nat) ->
  n_changed (scatter n infos f) = length (filter (fun i => negb (f i =? 0)) infos).
Proof.
  intros HN HL. apply Nat2Z.inj, qz_inj. unfold n_changed. rewrite !count_qsum. unfold scatter. rewrite map_map.
  rewrite <- (qsum_at infos (fun _ i => onez (negb (f i =? 0))) n HN HL). f_equal. apply map_ext. intro j.
  destruct (info_at infos j); reflexivity.
Qed.
Lemma changes_scatter n infos f j : NoDup (map i_idx infos) -> (forall i, In i infos -> (i_idx i < n)%nat) ->
  (changes (scatter n infos f) j <-> exists i, In i infos /\ i_idx i = j /\ f i <> 0).
Proof.
  intros HN HL. unfold changes. split.
  - intros (v & Hv & Hne). rewrite scatter_nth in Hv. destruct (Nat.ltb j n); [|discriminate Hv].
    destruct (info_at infos j) as [i|] eqn:Ei.
    + apply info_at_Some in Ei. destruct Ei as [Hi Ej]. exists i. injection Hv as <-. auto.
    + apply (f_equal (fun o => match o with Some q => q | None => 0 end)) in Hv. cbn in Hv. congruence.
  - intros (i & Hi & <- & Hne). exists (f i). split; [|exact Hne]. rewrite scatter_nth, (proj2 (Nat.ltb_lt _ _) (HL i Hi)).
    now rewrite (info_at_In _ _ HN Hi).
Qed.
