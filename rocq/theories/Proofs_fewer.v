(** C137: features that cannot be changed may be left out. *)
From Verif Require Import Proofs_builder5 Proofs_builder7 Proofs_props_element Proofs_props_actionset Spec_fewer Proofs_num Proofs_registry Proofs_actionset Proofs_session Proofs_builder Proofs_builder3 Proofs_builder8 Proofs_columns Proofs_columns3 Proofs_columns4 Proofs_vec Proofs_concrete Proofs_scen Proofs_scen2 Proofs_compare4 Proofs_constrained.
#[local] Open Scope string_scope.
#[local] Open Scope list_scope.
#[local] Open Scope Qc_scope.

(** [l'] are the entries p of [l], and all others are [d]. *)
Definition embeds {T} (d : T) (n : nat) (p : list nat) (l l' : list T) : Prop :=
  length l = n /\ rearranged p l l' /\ forall j v, nth_error l j = Some v -> ~ In j p -> v = d.
Definition inb (p : list nat) (j : nat) : bool := existsb (Nat.eqb j) p.
Lemma inb_iff p j : inb p j = true <-> In j p.
Proof. unfold inb. rewrite existsb_exists. split; [intros (k & Hk & E); apply Nat.eqb_eq in E; now subst|intro H; exists j; split; [exact H|apply Nat.eqb_refl]]. Qed.
Definition rest (n : nat) (p : list nat) : list nat := filter (fun j => negb (inb p j)) (seq 0 n).
Lemma rest_in n p j : In j (rest n p) <-> (j < n)%nat /\ ~ In j p.
Proof. unfold rest. rewrite filter_In, in_seq, negb_true_iff. rewrite <- (inb_iff p j). split; intros [H1 H2]; (split; [lia|]); [now rewrite H2|destruct (inb p j); congruence]. Qed.
Lemma rest_perm n p : NoDup p -> (forall j, In j p -> (j < n)%nat) -> Permutation (p ++ rest n p) (seq 0 n).
Proof.
  intros ND HB. apply NoDup_Permutation.
  - assert (H : forall j, In j p -> ~ In j (rest n p)) by (intros j H1 H2; apply rest_in in H2; tauto).
    assert (NR : NoDup (rest n p)) by apply NoDup_filter, seq_NoDup. revert H NR ND. generalize (rest n p). clear. intros r H NR ND.
    induction ND as [|j p N ND IH]; [exact NR|]. cbn. constructor; [|apply IH; intros; apply H; now right]. rewrite in_app_iff. intros [K|K]; [contradiction|]. apply (H j); [now left|exact K].
  - apply seq_NoDup.
  - intro j. rewrite in_app_iff, rest_in, in_seq. destruct (in_dec Nat.eq_dec j p) as [H|H]; [specialize (HB j H)|]; intuition lia.
Qed.
Lemma embeds_full {T} (d : T) n p l l' : (forall j, In j p -> (j < n)%nat) -> embeds d n p l l' -> rearranged (p ++ rest n p) l (l' ++ repeat d (length (rest n p))).
Proof.
  intros HB (L & HR & HD). unfold rearranged in *. apply Forall2_app; [exact HR|].
  assert (H : forall j, In j (rest n p) -> nth_error l j = Some d).
  { intros j Hj. apply rest_in in Hj. destruct Hj as [H1 H2]. destruct (nth_error l j) as [v|] eqn:Hv; [f_equal; eauto|apply nth_error_None in Hv; lia]. }
  revert H. generalize (rest n p). clear. intros r H. induction r as [|j r IH]; cbn; constructor; [apply H; now left|apply IH; intros; apply H; now right].
Qed.
Lemma some_rest {T} n p (l l' : list T) : length l = n -> rearranged p l l' -> exists m, length m = length (rest n p) /\ rearranged (p ++ rest n p) l (l' ++ m).
Proof.
  intros L HR. assert (H : exists m, rearranged (rest n p) l m).
  { assert (H : forall j, In j (rest n p) -> (j < length l)%nat) by (intros j Hj; apply rest_in in Hj; lia). revert H. generalize (rest n p). clear. intros r H.
    induction r as [|j r IH]; [exists []; constructor|]. destruct IH as [m Hm]; [intros; apply H; now right|].
    destruct (nth_error l j) as [v|] eqn:Hv; [exists (v :: m); constructor; assumption|]. apply nth_error_None in Hv. specialize (H j (or_introl eq_refl)). lia. }
  destruct H as [m Hm]. exists m. split; [exact (rearranged_len _ _ _ Hm)|]. unfold rearranged in *. now apply Forall2_app.
Qed.
Lemma embeds_down {T} (d : T) n p (l : list T) : (forall j, In j p -> (j < n)%nat) -> length l = n -> (forall j v, nth_error l j = Some v -> ~ In j p -> v = d) -> exists l', embeds d n p l l'.
Proof.
  intros HB L HD. assert (H : exists l', rearranged p l l').
  { subst n. revert HB. clear. intro H. induction p as [|j r IH]; [exists []; constructor|]. destruct IH as [m Hm]; [intros; apply H; now right|].
    destruct (nth_error l j) as [v|] eqn:Hv; [exists (v :: m); constructor; assumption|]. apply nth_error_None in Hv. specialize (H j (or_introl eq_refl)). lia. }
  destruct H as [l' H]. exists l'. now split.
Qed.
Lemma embeds_up {T} (d : T) n p (l' : list T) : NoDup p -> (forall j, In j p -> (j < n)%nat) -> length l' = length p -> exists l, embeds d n p l l'.
Proof.
  intros ND HB L.
  exists (map (fun j => match find (fun q => Nat.eqb (fst q) j) (combine p l') with Some q => snd q | None => d end) (seq 0 n)).
  split; [rewrite map_length; apply seq_length|]. split.
  - unfold rearranged. apply Forall2_nth. split; [auto|]. intros k j v Hj Hv.
    assert (Hn : (j < n)%nat) by (apply HB; eapply nth_error_In; exact Hj).
    rewrite nth_error_map, (nth_error_nth' _ 0%nat) by (rewrite seq_length; lia). rewrite seq_nth by lia. cbn [option_map Nat.add]. f_equal.
    revert k l' L Hj Hv ND. clear. induction p as [|i p IH]; intros [|k] [|u l'] L Hj Hv ND; cbn in *; try discriminate.
    + injection Hj as ->. injection Hv as ->. now rewrite Nat.eqb_refl.
    + inversion ND as [|? ? N1 N2]; subst. destruct (Nat.eqb_spec i j) as [->|]; [exfalso; apply N1; eapply nth_error_In; exact Hj|]. eapply IH; eauto.
  - intros j v Hv Hn. rewrite nth_error_map in Hv. destruct (nth_error (seq 0 n) j) as [j'|] eqn:Ej; [|discriminate Hv]. cbn in Hv. injection Hv as <-.
    assert (Hl : (j < n)%nat) by (rewrite <- (seq_length n 0); apply nth_error_Some; congruence).
    rewrite (nth_error_nth' _ 0%nat) in Ej by (rewrite seq_length; lia). rewrite seq_nth in Ej by lia. injection Ej as <-. cbn [Nat.add].
    destruct (find _ _) as [[i u]|] eqn:F; [|reflexivity]. apply find_some in F. destruct F as [F1 F2]. cbn in F2. apply Nat.eqb_eq in F2. subst i. apply in_combine_l in F1. contradiction.
Qed.

(** ** Sums *)
Lemma qsum_app2 a b : qsum (a ++ b) = qsum a + qsum b.
Proof. induction a as [|u a IH]; cbn; [ring|rewrite IH; ring]. Qed.
Lemma qsum_zeros n : qsum (repeat 0 n) = 0.
Proof. induction n as [|n IH]; cbn; [reflexivity|rewrite IH; ring]. Qed.
Lemma dot_app2 a b c d : length a = length b -> dot (a ++ c) (b ++ d) = dot a b + dot c d.
Proof. revert b. induction a as [|u a IH]; intros [|v b] H; cbn in *; try discriminate; [ring|]. rewrite IH by congruence. ring. Qed.
Lemma dot_zeros a n : dot a (repeat 0 n) = 0.
Proof. revert n. induction a as [|u a IH]; intros [|n]; cbn; try reflexivity. rewrite IH. ring. Qed.
Lemma embeds_qsum n p l l' : NoDup p -> (forall j, In j p -> (j < n)%nat) -> embeds 0 n p l l' -> qsum l' = qsum l.
Proof.
  intros ND HB H. pose proof (embeds_full 0 n p l l' HB H) as F. rewrite <- (qsum_perm _ _ (rearranged_perm n _ _ _ (rest_perm n p ND HB) (proj1 H) F)).
  rewrite qsum_app2, qsum_zeros. ring.
Qed.
Lemma embeds_changed n p l l' : NoDup p -> (forall j, In j p -> (j < n)%nat) -> embeds 0 n p l l' -> n_changed l' = n_changed l.
Proof.
  intros ND HB H. pose proof (embeds_full 0 n p l l' HB H) as F. unfold n_changed. rewrite <- (count_perm _ _ _ (rearranged_perm n _ _ _ (rest_perm n p ND HB) (proj1 H) F)).
  rewrite filter_app, app_length. assert (Z : length (filter (fun v : Qc => negb (v =? 0)) (repeat 0 (length (rest n p)))) = 0%nat).
  { generalize (length (rest n p)). intro k. induction k as [|k IH]; [reflexivity|]. cbn [repeat filter]. replace (negb (0 =? 0)) with false by reflexivity. exact IH. }
  rewrite Z. lia.
Qed.
Lemma embeds_dot n p w w' l l' : NoDup p -> (forall j, In j p -> (j < n)%nat) -> length w = n -> rearranged p w w' -> embeds 0 n p l l' -> dot w' l' = dot w l.
Proof.
  intros ND HB LW HW H. pose proof (embeds_full 0 n p l l' HB H) as F. destruct (some_rest n p w w' LW HW) as (m & Lm & FW).
  rewrite <- (dot_perm n _ w (w' ++ m) l _ (rest_perm n p ND HB) LW (proj1 H) FW F). rewrite dot_app2, dot_zeros; [ring|]. destruct H as (_ & HR & _). now rewrite (rearranged_len _ _ _ HW), (rearranged_len _ _ _ HR).
Qed.

Lemma embeds_in {T} (d : T) n p l l' j v : embeds d n p l l' -> nth_error l j = Some v -> (v = d /\ ~ In j p) \/ exists k, nth_error p k = Some j /\ nth_error l' k = Some v.
Proof.
  intros (L & HR & HD) Hv. destruct (in_dec Nat.eq_dec j p) as [H|H]; [right|left; split; [eauto|exact H]].
  apply In_nth_error in H. destruct H as [k Hk]. exists k. split; [exact Hk|]. now rewrite (rearranged_nth _ _ _ _ _ HR Hk).
Qed.

Section Narrow.
Context (E : env) (p : list nat) (b b' : builder) (x x' : list Qc).
Context (HR : narrowed p b x b' x') (W : wf_aset E (bd_A b)) (W' : wf_aset E (bd_A b')).
Context (LW : length (bd_w b) = as_len (bd_A b)) (LX : length x = as_len (bd_A b)).
Let n := as_len (bd_A b).
Let ND : NoDup p. Proof. apply HR. Qed.
Let RN : rearranged p (as_names (bd_A b)) (as_names (bd_A b')). Proof. apply HR. Qed.
Let RE : rearranged p (as_elems (bd_A b)) (as_elems (bd_A b')). Proof. apply HR. Qed.
Let RW : rearranged p (bd_w b) (bd_w b'). Proof. apply HR. Qed.
Let RX : rearranged p x x'. Proof. apply HR. Qed.
Let HFix : forall j, ~ In j p -> left_out (bd_A b) (bd_w b) j. Proof. apply HR. Qed.
Lemma nar_bound j : In j p -> (j < n)%nat.
Proof. intro H. apply In_nth_error in H. destruct H as [k Hk]. unfold n. rewrite <- LW. destruct (nth_error (bd_w b') k) as [v|] eqn:Hv.
  - apply nth_error_Some. rewrite <- (rearranged_nth _ _ _ _ _ RW Hk). congruence.
  - apply nth_error_None in Hv. rewrite (rearranged_len _ _ _ RW) in Hv. assert (nth_error p k <> None) as K by congruence. apply nth_error_Some in K. lia.
Qed.
Lemma nar_len : as_len (bd_A b') = length p. Proof. unfold as_len. apply (rearranged_len _ _ _ RN). Qed.
Lemma nar_at j k : nth_error p k = Some j -> nth_error (as_elems (bd_A b')) k = nth_error (as_elems (bd_A b)) j /\ nth_error x' k = nth_error x j.
Proof. intro Hk. split; [exact (rearranged_nth _ _ _ _ _ RE Hk)|exact (rearranged_nth _ _ _ _ _ RX Hk)]. Qed.

(** From the full question to the narrowed one. *)
Lemma nar_down a : permitted_action (bd_A b) x a -> worthwhile (bd_A b) (bd_w b) a -> exists a', embeds 0 n p a a'.
Proof.
  intros [La H] HW. apply embeds_down; [exact nar_bound|exact La|]. intros j v Hv Hj.
  destruct (HFix j Hj) as [Fx|Z0].
  2:{ destruct (Qc_eq_dec v 0) as [|N]; [assumption|]. exfalso. destruct (HW j 0 v Z0 Hv N) as [K|K].
      - apply Hj. revert K. apply HR.
      - unfold attains in K. replace (0 * v) with 0 in K by ring. destruct (0 <? as_y (bd_A b))%Z; apply Qclt_not_eq in K; congruence. }
  assert (Hl : (j < n)%nat) by (unfold n; rewrite <- La; apply nth_error_Some; congruence).
  destruct (nth_error x j) as [xj|] eqn:Hx; [|apply nth_error_None in Hx; unfold n in Hl; lia].
  destruct (nth_error (as_elems (bd_A b)) j) as [e|] eqn:He; [|apply nth_error_None in He; pose proof (wf_len _ _ W); unfold n in Hl; lia].
  destruct (H j e xj v He Hx Hv) as [Q|[Q _]]; [|rewrite (Fx e He) in Q; discriminate Q].
  assert (v = xj + v - xj) as -> by ring. rewrite Q. ring.
Qed.
Context (a a' : list Qc) (HE : embeds 0 n p a a').
Let La : length a = n. Proof. apply HE. Qed.
Let Ra : rearranged p a a'. Proof. apply HE. Qed.
Lemma nar_permitted : permitted_action (bd_A b) x a <-> permitted_action (bd_A b') x' a'.
Proof.
  split.
  - intros [_ H]. split; [rewrite nar_len; exact (rearranged_len _ _ _ Ra)|]. intros k e xk ak He Hx Hk.
    destruct (rearranged_at _ _ _ _ _ RE He) as (j & Hj & He'). rewrite (rearranged_nth _ _ _ _ _ RX Hj) in Hx. rewrite (rearranged_nth _ _ _ _ _ Ra Hj) in Hk. eauto.
  - intros [_ H]. split; [exact La|]. intros j e xj aj He Hx Hj. destruct (embeds_in 0 n p a a' j aj HE Hj) as [[-> _]|(k & Hk & Hk')]; [left; ring|].
    destruct (nar_at j k Hk) as [Q1 Q2]. apply (H k); congruence.
Qed.
Lemma nar_movable : movable_only (bd_A b) x a <-> movable_only (bd_A b') x' a'.
Proof.
  split.
  - intros H k e xk ak He Hx Hk. destruct (rearranged_at _ _ _ _ _ RE He) as (j & Hj & He'). rewrite (rearranged_nth _ _ _ _ _ RX Hj) in Hx. rewrite (rearranged_nth _ _ _ _ _ Ra Hj) in Hk. eauto.
  - intros H j e xj aj He Hx Hj N. destruct (embeds_in 0 n p a a' j aj HE Hj) as [[-> _]|(k & Hk & Hk')]; [congruence|].
    destruct (nar_at j k Hk) as [Q1 Q2]. apply (H k e xj aj); congruence.
Qed.
Lemma nar_changed : n_changed a' = n_changed a.
Proof. exact (embeds_changed n p a a' ND nar_bound HE). Qed.
Lemma nar_score : score (bd_w b') (bd_t b') (vadd x' a') = score (bd_w b) (bd_t b) (vadd x a).
Proof.
  assert (Q : score (bd_w b') (bd_t b') x' = score (bd_w b) (bd_t b) x) by apply HR. unfold score in *.
  rewrite !dot_vadd; [|unfold n in La; congruence|unfold n in La; congruence|rewrite (rearranged_len _ _ _ RX), (rearranged_len _ _ _ RW); reflexivity|rewrite (rearranged_len _ _ _ Ra), (rearranged_len _ _ _ RW); reflexivity].
  rewrite (embeds_dot n p (bd_w b) (bd_w b') a a' ND nar_bound LW RW HE).
  transitivity (dot (bd_w b') x' + bd_t b' + dot (bd_w b) a); [ring|]. rewrite Q. ring.
Qed.
Lemma nar_costs ct cs cs' : embeds 0 n p cs cs' -> action_costs E ct (bd_A b) x a cs <-> action_costs E ct (bd_A b') x' a' cs'.
Proof.
  intro Hc. pose proof Hc as (Lc & Rc & _). split.
  - intros [L H]. split; [rewrite (rearranged_len _ _ _ Rc), (rearranged_len _ _ _ Ra); reflexivity|]. intros k e xk ak c He Hx Hk Hck.
    destruct (rearranged_at _ _ _ _ _ RE He) as (j & Hj & He'). rewrite (rearranged_nth _ _ _ _ _ RX Hj) in Hx. rewrite (rearranged_nth _ _ _ _ _ Ra Hj) in Hk. rewrite (rearranged_nth _ _ _ _ _ Rc Hj) in Hck. eauto.
  - intros [L H]. split; [congruence|]. intros j e xj aj c He Hx Hj Hcj. destruct (embeds_in 0 n p cs cs' j c Hc Hcj) as [[-> N]|(k & Hk & Hk')].
    + left. split; [|reflexivity]. destruct (embeds_in 0 n p a a' j aj HE Hj) as [[Q _]|(k & Hk & _)]; [exact Q|]. exfalso. apply N. eapply nth_error_In. exact Hk.
    + destruct (nar_at j k Hk) as [Q1 Q2]. apply (H k e xj aj c); try congruence. rewrite (rearranged_nth _ _ _ _ _ Ra Hk). exact Hj.
Qed.
Lemma nar_on c c' : stored (as_cons (bd_A b)) (c_id c) c -> stored (as_cons (bd_A b')) (c_id c') c' ->
  (forall k j, nth_error p k = Some j -> In k (c_indices c') <-> In j (c_indices c)) -> (forall j, In j (c_indices c) -> In j p) ->
  n_on (vadd x' a') (c_indices c') = n_on (vadd x a) (c_indices c).
Proof.
  intros Hc Hc' HI HIn. pose proof (vadd_re p x x' a a' RX Ra) as Rv.
  assert (G : forall A B, wf_aset E A -> stored (as_cons A) (c_id B) B -> NoDup (c_indices B) /\ forall j, In j (c_indices B) -> (j < as_len A)%nat).
  { intros A B (_ & _ & _ & WN & (_ & WC) & _) HB. destruct (WC _ _ HB) as (_ & _ & _ & _ & F & S & _). split.
    - revert S. clear. intro S. induction S as [|j l S IH HF]; constructor; auto. intro Hj. rewrite Forall_forall in HF. specialize (HF j Hj). lia.
    - intros j Hj. rewrite WN in F. unfold as_len. revert F Hj. clear. intros F Hj. induction F as [|m i l l' Hn F IH]; [destruct Hj|]. destruct Hj as [<-|Hj]; [apply nth_error_Some; congruence|auto]. }
  destruct (G _ _ W Hc) as [D1 _]. destruct (G _ _ W' Hc') as [D2 B2]. rewrite nar_len in B2.
  assert (PI : Permutation (map (fun k => nth k p 0%nat) (c_indices c')) (c_indices c)).
  { apply NoDup_Permutation.
    - revert D2 B2. generalize ND. clear. intro ND. induction (c_indices c') as [|k l IH]; intros D2 B2; [constructor|]. inversion D2 as [|? ? N1 N2]; subst. cbn. constructor; [|apply IH; [exact N2|intros; apply B2; now right]].
      intro Hin. apply in_map_iff in Hin. destruct Hin as (k' & Q & Hk'). apply (proj1 (NoDup_nth p 0%nat)) in Q; auto; [subst; contradiction| |].
      + apply B2. now right.
      + apply B2. now left.
    - exact D1.
    - intro j. split.
      + intro Hj. apply in_map_iff in Hj. destruct Hj as (k & <- & Hk). apply (HI k); [|exact Hk]. apply nth_error_nth'. auto.
      + intro Hj. pose proof (HIn j Hj) as Ij. apply In_nth_error in Ij. destruct Ij as [k Hk]. apply in_map_iff. exists k. split; [apply nth_error_nth, Hk|]. now apply (HI k j Hk). }
  unfold n_on. rewrite <- (count_perm _ _ _ PI). revert B2 Rv. generalize (vadd x' a') (vadd x a). clear. intros v' v B2 Rv.
  induction (c_indices c') as [|k l IH]; [reflexivity|]. cbn [map filter].
  assert (Hk : nth k v' 0 = nth (nth k p 0%nat) v 0).
  { assert (K : nth_error p k = Some (nth k p 0%nat)) by (apply nth_error_nth'; apply B2; now left).
    pose proof (rearranged_nth _ _ _ _ _ Rv K) as Q.
    destruct (nth_error v (nth k p 0%nat)) as [u|] eqn:Hu.
    - rewrite (nth_error_nth _ _ _ Q), (nth_error_nth _ _ _ Hu). reflexivity.
    - apply nth_error_None in Hu, Q. now rewrite !nth_overflow. }
  rewrite Hk. destruct (negb (nth (nth k p 0%nat) v 0 =? 0)); cbn [length]; rewrite IH; auto; intros; apply B2; now right.
Qed.
Lemma nar_compliant : compliant (bd_A b) x a <-> compliant (bd_A b') x' a'.
Proof.
  pose proof HR as (_ & _ & _ & _ & _ & _ & _ & _ & _ & _ & _ & (H1 & H2) & HIn).
  assert (Q : forall id c, stored (as_cons (bd_A b)) id c -> c_id c = id) by (intros id c Hc; destruct W as (_ & _ & _ & _ & (_ & WC) & _); apply (WC _ _ Hc)).
  assert (Q' : forall id c, stored (as_cons (bd_A b')) id c -> c_id c = id) by (intros id c Hc; destruct W' as (_ & _ & _ & _ & (_ & WC) & _); apply (WC _ _ Hc)).
  assert (K : forall id c c', stored (as_cons (bd_A b)) id c -> stored (as_cons (bd_A b')) id c' -> (forall k j, nth_error p k = Some j -> In k (c_indices c') <-> In j (c_indices c)) ->
    n_on (vadd x' a') (c_indices c') = n_on (vadd x a) (c_indices c)).
  { intros id c c' Hc Hc' HI. apply nar_on; [now rewrite (Q id c Hc)|now rewrite (Q' id c' Hc')|exact HI|]. intros j Hj. apply HIn. exists id, c. split; assumption. }
  split.
  - intros H id c' Hc'. destruct (H2 id c' Hc') as (c & Hc). destruct (H1 id c Hc) as (c2 & K1 & K2 & K3 & K4). assert (c2 = c') by (unfold stored in *; congruence). subst c2.
    rewrite (K id c c' Hc Hc' K4), K2, K3. exact (H id c Hc).
  - intros H id c Hc. destruct (H1 id c Hc) as (c' & K1 & K2 & K3 & K4). rewrite <- (K id c c' Hc K1 K4), <- K2, <- K3. exact (H id c' K1).
Qed.
End Narrow.

Lemma nar_setup E p b b' x x' : narrowed p b x b' x' -> length (bd_w b) = as_len (bd_A b) -> good_setup E b x -> orderly E (bd_A b') (bd_w b') x' -> good_setup E b' x'.
Proof.
  intros (_ & RN & RE & RW & RX & _ & Hs & Hy & Hc & H1 & _) LW (_ & (FL & F) & C & M & D) O. split; [exact O|]. split; [split|split; [|split]].
  - rewrite (rearranged_len _ _ _ RW), (rearranged_len _ _ _ RE). reflexivity.
  - intros k e c He Hk. destruct (rearranged_at _ _ _ _ _ RE He) as (j & Hj & He'). rewrite (rearranged_nth _ _ _ _ _ RW Hj) in Hk. rewrite Hy. eauto.
  - intros k e He. destruct (rearranged_at _ _ _ _ _ RE He) as (j & Hj & He'). eauto.
  - congruence.
  - rewrite Hy, Hs. exact D.
Qed.
Lemma nar_regular E p b b' x x' : narrowed p b x b' x' -> regular E (bd_A b) x -> regular E (bd_A b') x'.
Proof.
  intros (_ & RN & RE & RW & RX & _) [S R]. split.
  - intros k e xk He Hx. destruct (rearranged_at _ _ _ _ _ RE He) as (j & Hj & He'). rewrite (rearranged_nth _ _ _ _ _ RX Hj) in Hx. eauto.
  - intros k e xk He Hx. destruct (rearranged_at _ _ _ _ _ RE He) as (j & Hj & He'). rewrite (rearranged_nth _ _ _ _ _ RX Hj) in Hx. eauto.
Qed.

Section Answers.
Context (E : env) (sv sv' : solver) (p : list nat) (b b' b0 b0' : builder) (x x' : list Qc).
Context (HOE : ok_env E) (S1 : sound_solver sv) (F1 : finishing_solver sv) (S2 : sound_solver sv') (F2 : finishing_solver sv') (HD : density E) (HL : log_ok E (bd_cost b)).
Context (HA : assigned E sv b x b0) (HA' : assigned E sv' b' x' b0') (HR : narrowed p b x b' x') (G : good_setup E b x) (G' : good_setup E b' x').
Let W : wf_aset E (bd_A b). Proof. destruct (reachable_sane _ _ _ (proj1 HA)) as [R1 _]. exact (reachable_wf _ _ R1). Qed.
Let W' : wf_aset E (bd_A b'). Proof. destruct (reachable_sane _ _ _ (proj1 HA')) as [R1 _]. exact (reachable_wf _ _ R1). Qed.
Let LW : length (bd_w b) = as_len (bd_A b). Proof. exact (proj2 (reachable_sane _ _ _ (proj1 HA))). Qed.
Let LX : length x = as_len (bd_A b).
Proof. destruct HA as [_ Q]. unfold set_x in Q. destruct (Nat.eqb (length x) (length (bd_w b))) eqn:Ql; [apply Nat.eqb_eq in Ql; congruence|discriminate Q]. Qed.
Let n := as_len (bd_A b).
Let HB : forall j, In j p -> (j < n)%nat. Proof. exact (nar_bound p b b' x x' HR LW LX). Qed.
Let ND : NoDup p. Proof. apply HR. Qed.
Let Hy : as_y (bd_A b') = as_y (bd_A b). Proof. apply HR. Qed.
Let Hc : bd_cost b' = bd_cost b. Proof. apply HR. Qed.
Let Hmax : same_or_no_bound b b'. Proof. destruct HR as (_ & _ & _ & _ & _ & _ & _ & _ & _ & _ & Q & _). exact Q. Qed.
Let LX' : length x' = as_len (bd_A b'). Proof. rewrite (nar_len p b b' x x' HR). apply rearranged_len with (l := x). apply HR. Qed.
Lemma down_no_worse b1 s : fit sv b0 = Ok (b1, Some s) -> exists b1' s', fit sv' b0' = Ok (b1', Some s') /\ (regular E (bd_A b) x -> bd_cost b <> CMax -> s_cost s' <= s_cost s).
Proof.
  intro Hf. destruct (fit_some E sv b x b0 HOE S1 HA b1 s Hf) as (P1 & P2 & P3). pose proof (fit_movable E sv b x b0 HOE S1 HA b1 s Hf) as P4.
  pose proof G as (O1 & O2 & _). pose proof (fit_compliant E sv b x b0 HOE S1 HA b1 s Hf O1 O2) as P5.
  assert (P6 : worthwhile (bd_A b) (bd_w b) (s_actions s)).
  { assert (Hses : session sv b0 ([s] ++ []) b1) by (eapply (ses_fit sv b0 b1 (Some s)); [exact Hf|constructor]). exact (items_helpful E sv b x b0 HOE S1 HA _ b1 s Hses (or_introl eq_refl)). }
  destruct (nar_down E p b b' x x' HR W LW LX _ P1 P6) as [a' HE].
  pose proof (proj1 (nar_permitted p b b' x x' HR _ a' HE) P1) as C1.
  pose proof (proj1 (nar_movable p b b' x x' HR _ a' HE) P4) as C2.
  pose proof (nar_changed p b b' x x' HR LW LX _ a' HE) as C3.
  pose proof (proj1 (nar_compliant E p b b' x x' HR W W' _ a' HE) P5) as C5.
  assert (C4 : on_side (as_y (bd_A b')) (score (bd_w b') (bd_t b') (vadd x' a'))) by (rewrite (nar_score p b b' x x' HR LW LX _ a' HE), Hy; exact P3).
  assert (C6 : (Z.of_nat (n_changed a') <= bd_max b')%Z) by (unfold size_between in P2; destruct Hmax as [Q|[_ Q]]; [rewrite C3, Q; lia|]; pose proof (changed_actionable (bd_A b') x' a' (wf_len _ _ W') LX' C1) as K; rewrite actionable_length in K; unfold n_actionable_features in Q; lia).
  assert (HL' : log_ok E (bd_cost b')) by now rewrite Hc.
  destruct (fit_total E sv' b' x' b0' HOE S2 HA') as (b1' & [s'|] & Hf').
  2:{ exfalso. exact (c27_thm E sv' b' x' b0' b1' a' HOE S2 F2 HD HL' HA' G' Hf' C1 C2 C6 C5 C4). }
  exists b1', s'. split; [exact Hf'|]. intros Hreg Hct.
  assert (Hs : session sv b0 ([s] ++ []) b1) by (exact (ses_fit sv b0 b1 (Some s) [] b1 Hf (ses_done sv b1))).
  destruct (c29_costs E sv b x b0 ([s] ++ []) b1 s HOE S1 HA Hct Hs (or_introl eq_refl)) as [K1 K2].
  assert (HC : exists cs', embeds 0 n p (s_costs s) cs').
  { apply embeds_down; [exact HB|rewrite (proj1 K1); apply HE|]. intros j c Hj Hn.
    assert (Hl : (j < n)%nat) by (pose proof (proj1 HE) as Q0; pose proof (proj1 K1) as Q1; fold n in Q0; rewrite <- Q0, <- Q1; apply nth_error_Some; congruence).
    destruct (nth_error x j) as [xj|] eqn:Hx; [|apply nth_error_None in Hx; unfold n in Hl; lia].
    destruct (nth_error (as_elems (bd_A b)) j) as [e|] eqn:He; [|apply nth_error_None in He; pose proof (wf_len _ _ W); unfold n in Hl; lia].
    destruct (nth_error (s_actions s) j) as [aj|] eqn:Ha; [|apply nth_error_None in Ha; rewrite (proj1 HE) in Ha; lia].
    assert (aj = 0) as -> by (destruct HE as (_ & _ & Z); eauto).
    destruct (proj2 K1 j e xj 0 c He Hx Ha Hj) as [[_ Q]|[Q _]]; [exact Q|congruence]. }
  destruct HC as [cs' Rc]. pose proof (proj1 (nar_costs E p b b' x x' HR _ a' HE (bd_cost b) _ cs' Rc) K1) as C7. rewrite <- Hc in C7.
  rewrite K2. rewrite <- (embeds_qsum n p (s_costs s) cs' ND HB Rc).
  eapply (c29_thm E sv' b' x' b0' b1' s' a' cs'); eauto; [eapply nar_regular; eauto|congruence].
Qed.
Lemma up_no_worse b1' s' : fit sv' b0' = Ok (b1', Some s') -> exists b1 s, fit sv b0 = Ok (b1, Some s) /\ (regular E (bd_A b) x -> bd_cost b <> CMax -> s_cost s <= s_cost s').
Proof.
  intro Hf. destruct (fit_some E sv' b' x' b0' HOE S2 HA' b1' s' Hf) as (P1 & P2 & P3). pose proof (fit_movable E sv' b' x' b0' HOE S2 HA' b1' s' Hf) as P4.
  pose proof G' as (O1 & O2 & _). pose proof (fit_compliant E sv' b' x' b0' HOE S2 HA' b1' s' Hf O1 O2) as P5.
  destruct (embeds_up 0 n p (s_actions s') ND HB) as [a HE]; [rewrite (proj1 P1); exact (nar_len p b b' x x' HR)|].
  pose proof (proj2 (nar_permitted p b b' x x' HR a _ HE) P1) as C1.
  pose proof (proj2 (nar_movable p b b' x x' HR a _ HE) P4) as C2.
  pose proof (nar_changed p b b' x x' HR LW LX a _ HE) as C3.
  pose proof (proj2 (nar_compliant E p b b' x x' HR W W' a _ HE) P5) as C5.
  assert (C4 : on_side (as_y (bd_A b)) (score (bd_w b) (bd_t b) (vadd x a))) by (rewrite <- (nar_score p b b' x x' HR LW LX a _ HE), <- Hy; exact P3).
  assert (C6 : (Z.of_nat (n_changed a) <= bd_max b)%Z) by (unfold size_between in P2; destruct Hmax as [Q|[Q _]]; [rewrite <- C3, <- Q; lia|]; pose proof (changed_actionable (bd_A b) x a (wf_len _ _ W) LX C1) as K; rewrite actionable_length in K; unfold n_actionable_features in Q; lia).
  destruct (fit_total E sv b x b0 HOE S1 HA) as (b1 & [s|] & Hf').
  2:{ exfalso. exact (c27_thm E sv b x b0 b1 a HOE S1 F1 HD HL HA G Hf' C1 C2 C6 C5 C4). }
  exists b1, s. split; [exact Hf'|]. intros Hreg Hct.
  assert (Hs : session sv' b0' ([s'] ++ []) b1') by (exact (ses_fit sv' b0' b1' (Some s') [] b1' Hf (ses_done sv' b1'))).
  destruct (c29_costs E sv' b' x' b0' ([s'] ++ []) b1' s' HOE S2 HA' ltac:(congruence) Hs (or_introl eq_refl)) as [K1 K2].
  destruct (embeds_up 0 n p (s_costs s') ND HB) as [cs Rc]; [rewrite (proj1 K1), (proj1 P1); exact (nar_len p b b' x x' HR)|].
  pose proof (proj2 (nar_costs E p b b' x x' HR a _ HE (bd_cost b') _ (s_costs s') Rc) K1) as C7. rewrite Hc in C7.
  rewrite K2. rewrite (embeds_qsum n p cs (s_costs s') ND HB Rc).
  eapply (c29_thm E sv b x b0 b1 s a cs); eauto.
Qed.
End Answers.
Lemma fewer_thm E sv sv' p b x b' x' b0 b0' : ok_env E -> sound_solver sv -> finishing_solver sv -> sound_solver sv' -> finishing_solver sv' -> density E -> log_ok E (bd_cost b) ->
  assigned E sv b x b0 -> assigned E sv' b' x' b0' -> narrowed p b x b' x' -> good_setup E b x -> orderly E (bd_A b') (bd_w b') x' ->
  exists b1 r b1' r', fit sv b0 = Ok (b1, r) /\ fit sv' b0' = Ok (b1', r') /\
    match r, r' with
    | Some s, Some s' => regular E (bd_A b) x -> bd_cost b <> CMax -> s_cost s' = s_cost s
    | None, None => True
    | _, _ => False
    end.
Proof.
  intros HE S F S' F' HD HL HA HA' HR G O'.
  pose proof (nar_setup E p b b' x x' HR (proj2 (reachable_sane _ _ _ (proj1 HA))) G O') as G'.
  destruct (fit_total E sv b x b0 HE S HA) as (b1 & r & Hf). destruct (fit_total E sv' b' x' b0' HE S' HA') as (b1' & r' & Hf').
  exists b1, r, b1', r'. split; [exact Hf|]. split; [exact Hf'|].
  pose proof (down_no_worse E sv sv' p b b' b0 b0' x x' HE S S' F' HD HL HA HA' HR G G') as K1. pose proof (up_no_worse E sv sv' p b b' b0 b0' x x' HE S F S' HD HL HA HA' HR G G') as K2.
  destruct r as [s|], r' as [s'|]; auto.
  - intros Hreg Hct. destruct (K1 b1 s Hf) as (c1 & u & Q1 & Q2). rewrite Hf' in Q1. injection Q1 as <- <-.
    destruct (K2 b1' s' Hf') as (c2 & u2 & Q3 & Q4). rewrite Hf in Q3. injection Q3 as <- <-. apply Qcle_antisym; auto.
  - destruct (K1 b1 s Hf) as (c1 & u & Q1 & _). congruence.
  - destruct (K2 b1' s' Hf') as (c2 & u2 & Q3 & _). congruence.
Qed.
