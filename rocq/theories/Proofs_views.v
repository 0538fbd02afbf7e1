(** Proofs about selections, reading attributes and rendered tables. *)
From Verif Require Export Spec_views Proofs_props_element Proofs_props_actionset Proofs_builder5.
#[local] Open Scope string_scope.
#[local] Open Scope list_scope.
#[local] Open Scope Qc_scope.

(** ** Selections *)
Lemma f2_impl {A B} (P Q : A -> B -> Prop) l m : (forall a b, P a b -> Q a b) -> Forall2 P l m -> Forall2 Q l m.
Proof. intros H. induction 1; constructor; auto. Qed.
Lemma nth_error_seq0 n k p : nth_error (seq 0 n) k = Some p -> p = k /\ (k < n)%nat.
Proof.
  intro H. assert (k < n)%nat as L by (rewrite <- (seq_length n 0); apply nth_error_Some; congruence).
  rewrite (nth_error_nth' _ 0%nat) in H by (now rewrite seq_length). rewrite seq_nth in H by exact L. cbn in H. split; congruence.
Qed.
Lemma name_pos_spec A z p : name_pos A z = Ok p -> position (as_len A) z p.
Proof.
  unfold name_pos, of_option, py_index. rewrite seq_length. intro H.
  destruct ((0 <=? z) && (z <? Z.of_nat (as_len A)))%Z eqn:C.
  - apply andb_true_iff in C. destruct C as [C1 C2]. apply Z.leb_le in C1. apply Z.ltb_lt in C2.
    destruct (nth_error (seq 0 (as_len A)) (Z.to_nat z)) as [q|] eqn:N; [|discriminate H]. injection H as <-.
    apply nth_error_seq0 in N. destruct N as [-> N]. unfold position. lia.
  - destruct ((- Z.of_nat (as_len A) <=? z) && (z <? 0))%Z eqn:D; [|discriminate H].
    apply andb_true_iff in D. destruct D as [D1 D2]. apply Z.leb_le in D1. apply Z.ltb_lt in D2.
    destruct (nth_error (seq 0 (as_len A)) (Z.to_nat (Z.of_nat (as_len A) + z))) as [q|] eqn:N; [|discriminate H]. injection H as <-.
    apply nth_error_seq0 in N. destruct N as [-> N]. unfold position. lia.
Qed.
Lemma key_pos_spec A s p : key_pos A s = Ok p -> nth_error (as_names A) p = Some s.
Proof. unfold key_pos, of_option. destruct (index_of s (as_names A)) as [q|] eqn:N; [|discriminate]. intro H. injection H as <-. now apply index_of_ok. Qed.
Lemma skipn_seq0 k s n : skipn k (seq s n) = seq (s + k) (n - k).
Proof.
  revert s n. induction k as [|k IH]; intros s n; [now rewrite Nat.add_0_r, Nat.sub_0_r|].
  destruct n as [|n]; [reflexivity|]. cbn [seq skipn]. rewrite IH. cbn [Nat.sub]. f_equal. lia.
Qed.
Lemma firstn_seq0 k s n : firstn k (seq s n) = seq s (Nat.min k n).
Proof.
  revert s n. induction k as [|k IH]; intros s n; [reflexivity|]. destruct n as [|n]; [reflexivity|].
  cbn [seq firstn Nat.min]. now rewrite IH.
Qed.
Lemma seq_sorted s n : StronglySorted lt (seq s n).
Proof.
  revert s. induction n as [|n IH]; intro s; cbn; constructor; [apply IH|].
  apply Forall_forall. intros p Hp. apply in_seq in Hp. lia.
Qed.
Lemma mask_sorted k m : StronglySorted lt (mask_positions k m).
Proof.
  revert k. induction m as [|b m IH]; intro k; cbn; [constructor|]. destruct b; [|apply IH].
  constructor; [apply IH|]. apply Forall_forall. intros p Hp. apply mask_positions_iff in Hp. destruct Hp as (i & -> & _). lia.
Qed.
Lemma select_spec A i ps : select A i = Ok ps -> names_features A i ps.
Proof.
  destruct i as [s|z|l|m|l|a b]; cbn [select names_features].
  - intro H. bnd H as p Hp. injection H as <-. exists p. split; [reflexivity|]. now apply key_pos_spec.
  - intro H. bnd H as p Hp. injection H as <-. exists p. split; [reflexivity|]. now apply name_pos_spec.
  - unfold select_list. destruct l as [|v l]; [discriminate|].
    assert (K : mapM (fun v => match as_int v with Some z => name_pos A z | None => Err TypeError end) (v :: l) = Ok ps ->
      Forall2 (fun v p => exists z, (v = PInt z \/ v = PNpInt z \/ exists b : bool, v = PBool b /\ z = if b then 1%Z else 0%Z) /\ position (as_len A) z p) (v :: l) ps).
    { intro H. apply mapM_ok in H. eapply f2_impl; [|exact H]. cbn beta. intros u p Hu.
      destruct u; cbn in Hu; try discriminate Hu; apply name_pos_spec in Hu; eexists; (split; [|exact Hu]); eauto 6. }
    destruct v; try (intro H; discriminate H); try exact K. clear K.
    intro H. apply mapM_ok in H. eapply f2_impl; [|exact H]. cbn beta. intros u p Hu.
    destruct u; try discriminate Hu. exists s0. split; [reflexivity|]. now apply key_pos_spec.
  - destruct (Nat.eqb_spec (length m) (as_len A)) as [L|L]; [|discriminate]. intro H. injection H as <-.
    split; [exact L|]. split; [apply mask_sorted|]. intro p. rewrite mask_positions_iff.
    split; [intros (i & -> & Hi); exact Hi|intro Hp; exists p; auto].
  - intro H. apply mapM_ok in H. eapply f2_impl; [|exact H]. intros z p Hz. now apply name_pos_spec.
  - intro H. injection H as <-. unfold py_slice, py_slice_bounds. rewrite seq_length.
    rewrite skipn_seq0, firstn_seq0. split; [apply seq_sorted|]. intro p. rewrite in_seq. unfold in_slice, from_end.
    destruct a as [a|], b as [b|]; (split; [intro H; split; [|split; intros z Hz; try discriminate Hz; injection Hz as <-]
                                          |intros (H1 & H2 & H3); try specialize (H2 _ eq_refl); try specialize (H3 _ eq_refl)]);
      try destruct (a <? 0)%Z eqn:Ca; try destruct (b <? 0)%Z eqn:Cb; lia.
Qed.

(** ** Reading *)
Lemma elem_shows E n e v : elem_reachable E e -> In n readable -> elem_getattr n e = Ok v -> shows n e v.
Proof.
  intros HR Hn. unfold readable in Hn. pose proof (reachable_inv _ _ HR) as HI.
  repeat (destruct Hn as [<-|Hn]; [cbn; intro H; injection H as <-|]); try destruct Hn; try constructor.
  - pose proof (c16 E e HR) as K. destruct (e_flip e) as [f|] eqn:F.
    + assert (e_flip e <> None) as F' by congruence. pose proof (inv_flip _ _ HI f F) as Hf. pose proof (inv_dir _ _ HI) as Hd.
      destruct (c16_decided e F') as [C|C]; rewrite C in K |- *; (apply (sh_compat e f); [exact F|]).
      * split; [intros _|reflexivity]. apply proj1 in K. specialize (K eq_refl). destruct K as (K1 & K2 & K3). repeat split; auto; lia.
      * split; [intro X; discriminate X|]. intros (K1 & K2 & K3 & K4). exfalso. apply proj2 in K. assert (Some false = Some true) as X by (apply K; repeat split; auto; lia). discriminate X.
    + rewrite K. now constructor.
  - destruct (b_type (e_bounds e)) eqn:B; constructor; assumption.
  - unfold e_aligned. destruct (e_flip e) as [f|]; split; intro H; try reflexivity; try discriminate H; [exists f; reflexivity|destruct H as (f & H); discriminate H].
  - destruct (e_flip e) as [f|] eqn:F; constructor; assumption.
  - destruct (e_step_type e) eqn:F; constructor; assumption.
Qed.
Lemma elem_getattr_total n e : In n readable -> exists v, elem_getattr n e = Ok v.
Proof.
  intro Hn. unfold readable in Hn. repeat (destruct Hn as [<-|Hn]; [eexists; reflexivity|]). destruct Hn.
Qed.
Lemma shows_complete E n e v : elem_reachable E e -> In n readable -> elem_getattr n e = Ok v <-> shows n e v.
Proof.
  intros HR Hn. split; [now apply (elem_shows E)|]. intro H. destruct (elem_getattr_total n e Hn) as (u & Hu). rewrite Hu. f_equal.
  assert (shows n e u) as S by (now apply (elem_shows E)). clear Hu Hn HR.
  destruct H; inversion S; subst; try reflexivity; try congruence.
  - f_equal. replace f0 with f in * by congruence. destruct b, b0; try reflexivity; intuition discriminate.
  - f_equal. destruct b, b0; try reflexivity; intuition discriminate.
Qed.

Lemma whole_read E A n : aset_reachable E A -> In n readable ->
  exists l, set_getattr A n = Ok l /\ Forall2 (shows n) (as_elems A) l.
Proof.
  intros HR Hn. pose proof (reachable_wf _ _ HR) as HW. unfold set_getattr.
  assert (elem_hasattr n = true /\ String.index 0 n "alignment_known" = None) as [-> ->].
  { unfold readable in Hn. repeat (destruct Hn as [<-|Hn]; [split; reflexivity|]). destruct Hn. }
  destruct (mapM_total (elem_getattr n) (as_elems A)) as (l & Hl). { intros e _. now apply elem_getattr_total. }
  exists l. split; [exact Hl|]. apply mapM_ok in Hl. destruct HW as (_ & _ & HF & _). clear HR.
  induction Hl as [|e v es l He Hl IH]; [constructor|]. inversion HF; subst. constructor; [now apply (elem_shows E)|auto].
Qed.
Lemma index_read E A i ps n : aset_reachable E A -> select A i = Ok ps -> NoDup ps -> In n readable ->
  exists l, index_getattr A i n = Ok l /\ Forall2 (fun p v => exists e, nth_error (as_elems A) p = Some e /\ shows n e v) ps l.
Proof.
  intros HR HS HN Hn. pose proof (reachable_wf _ _ HR) as HW. pose proof (wf_len _ _ HW) as HL.
  assert (Hlt : forall p, In p ps -> (p < length (as_elems A))%nat) by (intros p Hp; rewrite HL; eapply select_lt; eauto).
  set (at_ := fun p => match nth_error (as_elems A) p with Some e => elem_getattr n e | None => Err KeyError end).
  assert (T : exists l, mapM at_ ps = Ok l).
  { apply mapM_total. intros p Hp. unfold at_. apply Hlt, nth_error_Some in Hp. destruct (nth_error (as_elems A) p) as [e|]; [|congruence].
    now apply elem_getattr_total. }
  destruct T as (l & Hl). exists l. split.
  - unfold index_getattr. rewrite HS. cbn [bind]. fold at_.
    assert (K : mapM (fun w : nat * nat => at_ (fst w)) (slice_dict A ps) = Ok l).
    { rewrite slice_dict_eq; [|exact HN|exact Hlt|destruct HW as (W1 & W2 & _); rewrite W2; apply W1].
      rewrite <- Hl. clear -at_. generalize 0%nat as k. induction ps as [|p ps IH]; intro k; [reflexivity|].
      cbn. destruct (at_ p); cbn; [|reflexivity]. now rewrite IH. }
    destruct i; (exact Hl || exact K).
  - apply mapM_ok in Hl. destruct HW as (_ & _ & HF & _). rewrite Forall_forall in HF. eapply f2_impl; [|exact Hl]. cbn beta. intros p v Hp. unfold at_ in Hp.
    destruct (nth_error (as_elems A) p) as [e|] eqn:N; [|discriminate Hp]. exists e. split; [reflexivity|].
    apply (elem_shows E); [apply HF; eapply nth_error_In, N|exact Hn|exact Hp].
Qed.

(** ** Writing back *)
Lemma list_set_id {A} p (x : A) l : nth_error l p = Some x -> list_set p x l = l.
Proof. revert p. induction l as [|a l IH]; intros [|p]; cbn; intro H; try discriminate; [congruence|]. now rewrite IH. Qed.
Lemma assign_noop n vals work es :
  (forall p j, In (p, j) work -> exists e v, nth_error es p = Some e /\ nth_error vals j = Some v /\ elem_setattr n v e = Ok e) ->
  assign_loop n vals work es = (es, Ok tt).
Proof.
  induction work as [|[p j] r IH]; intro H; [reflexivity|]. cbn. destruct (H p j (or_introl eq_refl)) as (e & v & H1 & H2 & H3).
  rewrite H1, H2, H3. rewrite list_set_id by exact H1. apply IH. intros p' j' Hin. apply H. now right.
Qed.
Lemma qsign_qz z : (z = 1 \/ z = 0 \/ z = -1)%Z -> qsign (qz z) = z.
Proof. intros [->|[->| ->]]; reflexivity. Qed.
Lemma mk_bound_id vs lb ub tv b : mk_bound vs lb ub tv = Ok b -> b_type b = Absolute ->
  mk_bound vs (PFloat (Fin (b_lb b))) (PFloat (Fin (b_ub b))) (PStr "absolute") = Ok b.
Proof.
  unfold mk_bound. intros H T. bnd H as t Ht. destruct t.
  - bnd H as r Hr. destruct r as [[[l u] ql] qu]. cbn [bind] in H. bnd Hr as l' Hl. bnd Hr as u' Hu. injection Hr as -> -> <- <-.
    bnd H as c Hc. apply passert_ok in Hc. destruct (determine_variable_type vs) eqn:D; injection H as <-; cbn.
    all: try (rewrite Hc; reflexivity).
    rewrite (proj2 (qle_iff (qz (qfloor l)) (qz (qceil u)))). 
    + cbn. now rewrite qfloor_qz, qceil_qz.
    + qbool. pose proof (qfloor_le l). pose proof (qceil_ge u). qlra.
  - bnd H as r Hr. destruct r as [[[l u] ql] qu]. bnd H as c Hc. destruct (determine_variable_type vs); injection H as <-; discriminate T.
Qed.
Lemma write_back E n e v : elem_reachable E e -> plain_attribute n e -> elem_getattr n e = Ok v -> elem_setattr n v e = Ok e.
Proof.
  intros HR HP HG. pose proof (reachable_inv _ _ HR) as HI. destruct HP as [->|[->|[->|[->|[[-> HP]|[[-> HP]|[[->| ->] HP]]]]]]];
    cbn in HG; injection HG as <-; cbn.
  - destruct e as [? ? ? ? a ? ? ? ? ? ? ? ?]; destruct a; reflexivity.
  - destruct e; reflexivity.
  - unfold set_step_type. destruct e as [? ? ? ? a ? s ? ? ? ? ? ?]; destruct s; reflexivity.
  - unfold set_step_direction, sign_arg. cbn. rewrite qsign_qz by apply (inv_dir _ _ HI). destruct e; reflexivity.
  - unfold set_step_size. cbn. pose proof (inv_size _ _ HI) as H0. apply qlt_iff in H0. rewrite H0. cbn.
    destruct (e_step_type e) eqn:S; [|destruct e; reflexivity]. specialize (HP eq_refl). apply qle_iff in HP. rewrite HP. destruct e; reflexivity.
  - destruct (e_flip e) as [f|] eqn:F; [|congruence]. unfold set_flip_direction, sign_arg. cbn. rewrite qsign_qz by apply (inv_flip _ _ HI f F).
    cbn. rewrite <- F. destruct e; reflexivity.
  - destruct (inv_bounds _ _ HI) as (l & u & t & Hb). unfold set_lb. rewrite HP. fold (e_ub e). 
    unfold e_lb, e_ub. rewrite (mk_bound_id _ _ _ _ _ Hb HP). destruct e; reflexivity.
  - destruct (inv_bounds _ _ HI) as (l & u & t & Hb). unfold set_ub. rewrite HP.
    unfold e_lb, e_ub. rewrite (mk_bound_id _ _ _ _ _ Hb HP). destruct e; reflexivity.
Qed.
Lemma plain_has n e : plain_attribute n e -> elem_hasattr n = true.
Proof. intros [->|[->|[->|[->|[[-> ?]|[[-> ?]|[[->| ->] ?]]]]]]]; reflexivity. Qed.
Lemma write_back_set E A n l : aset_reachable E A -> Forall (plain_attribute n) (as_elems A) -> set_getattr A n = Ok l ->
  set_setattr A n (PList l) = (A, Ok tt).
Proof.
  intros HR HP HG. pose proof (reachable_wf _ _ HR) as HW. pose proof (wf_len _ _ HW) as HL.
  unfold set_getattr in HG. unfold set_setattr. destruct (elem_hasattr n); [|discriminate HG].
  destruct (String.index 0 n "alignment_known"); [discriminate HG|]. apply mapM_ok in HG. apply Forall2_nth in HG. destruct HG as [HG0 HG].
  cbn. rewrite <- HG0, HL, Nat.eqb_refl. rewrite assign_noop.
  - destruct A; reflexivity.
  - intros p j Hin. apply in_map_iff in Hin. destruct Hin as (k & Hk & Hk'). injection Hk as -> ->. apply in_seq in Hk'. cbn in Hk'.
    assert (j < length (as_elems A))%nat as Hj by lia. apply nth_error_Some in Hj. destruct (nth_error (as_elems A) j) as [e|] eqn:N; [|congruence].
    assert (j < length l)%nat as Hj2 by lia. apply nth_error_Some in Hj2. destruct (nth_error l j) as [v|] eqn:Hv; [|congruence].
    exists e, v. repeat split; auto. apply (write_back E); auto; [| |exact (HG _ _ _ N Hv)].
    + destruct HW as (_ & _ & HF & _). rewrite Forall_forall in HF. eapply HF, nth_error_In, N.
    + rewrite Forall_forall in HP. eapply HP, nth_error_In, N.
Qed.
Lemma readable_has n : In n readable -> elem_hasattr n = true.
Proof. intro Hn. unfold readable in Hn. repeat (destruct Hn as [<-|Hn]; [reflexivity|]). destruct Hn. Qed.
Lemma write_back_index E A i ps n l : aset_reachable E A -> select A i = Ok ps -> NoDup ps -> In n readable ->
  (forall p e, In p ps -> nth_error (as_elems A) p = Some e -> plain_attribute n e) -> index_getattr A i n = Ok l ->
  match i with
  | IStr _ | IInt _ => exists v, l = [v] /\ index_setattr A i n v = (A, Ok tt)
  | _ => index_setattr A i n (PList l) = (A, Ok tt)
  end.
Proof.
  intros HR HS HN Hn HP HG. pose proof (reachable_wf _ _ HR) as HW. pose proof (wf_len _ _ HW) as HL.
  assert (Hlt : forall p, In p ps -> (p < length (as_elems A))%nat) by (intros p Hp; rewrite HL; eapply select_lt; eauto).
  assert (HE : forall p e, nth_error (as_elems A) p = Some e -> elem_reachable E e).
  { intros p e N. destruct HW as (_ & _ & HF & _). rewrite Forall_forall in HF. eapply HF, nth_error_In, N. }
  unfold index_getattr in HG. rewrite HS in HG. cbn [bind] in HG.
  assert (Hsd : slice_dict A ps = combine ps (seq 0 (length ps))).
  { apply slice_dict_eq; [exact HN|exact Hlt|destruct HW as (W1 & W2 & _); rewrite W2; apply W1]. }
  assert (K : mapM (fun w : nat * nat => match nth_error (as_elems A) (fst w) with Some e => elem_getattr n e | None => Err KeyError end)
                   (slice_dict A ps) = Ok l ->
       (if elem_hasattr n then let work := slice_dict A ps in match expand_values (PList l) (length work) with Err x => (A, Err x) | Ok vals =>
          let '(es, r) := assign_loop n vals work (as_elems A) in (with_elems A es, r) end else (A, Err AssertionError)) = (A, Ok tt)).
  { clear HG. intro HG. rewrite (readable_has _ Hn). cbv zeta. rewrite Hsd in *. apply mapM_ok in HG. apply Forall2_nth in HG. destruct HG as [HG0 HG].
    cbn [expand_values]. rewrite HG0, Nat.eqb_refl. rewrite assign_noop; [destruct A; reflexivity|].
    intros p j Hin. apply In_nth_error in Hin. destruct Hin as (k & Hk). pose proof Hk as Hk0. apply combine_nth_seq in Hk. destruct Hk as [Hk ->].
    assert (In p ps) as Hp by (eapply nth_error_In, Hk). pose proof (Hlt _ Hp) as Hpl. apply nth_error_Some in Hpl.
    destruct (nth_error (as_elems A) p) as [e|] eqn:Ne; [|congruence]. cbn [Nat.add].
    assert (k < length l)%nat as Hkl by (rewrite <- HG0; apply nth_error_Some; congruence). apply nth_error_Some in Hkl.
    destruct (nth_error l k) as [v|] eqn:Nv; [|congruence]. exists e, v. repeat split.
    specialize (HG _ _ _ Hk0 Nv). cbn [fst] in HG. rewrite Ne in HG. apply (write_back E); eauto. }
  assert (K1 : forall v0, ps = [v0] -> mapM (fun p => match nth_error (as_elems A) p with Some e => elem_getattr n e | None => Err KeyError end) ps = Ok l ->
     exists v, l = [v] /\ exists e, nth_error (as_elems A) v0 = Some e /\ elem_setattr n v e = Ok e).
  { intros p -> H. apply mapM_ok in H. inversion H as [|? v ? l' H1 H2]; subst. inversion H2; subst. exists v. split; [reflexivity|].
    destruct (nth_error (as_elems A) p) as [e|] eqn:Ne; [|discriminate H1]. exists e. split; [reflexivity|].
    apply (write_back E); eauto. eapply HP; [now left|exact Ne]. }
  destruct i as [s|z|s|m|s|a b]; try (unfold index_setattr; rewrite HS; apply K; exact HG).
  - pose proof (select_spec _ _ _ HS) as (p & Hp & _). destruct (K1 p Hp HG) as (v & -> & e & N & Hv). exists v. split; [reflexivity|].
    unfold index_setattr. rewrite HS, Hp, N, Hv, list_set_id by exact N. destruct A; reflexivity.
  - pose proof (select_spec _ _ _ HS) as (p & Hp & _). destruct (K1 p Hp HG) as (v & -> & e & N & Hv). exists v. split; [reflexivity|].
    unfold index_setattr. rewrite HS, Hp, N, Hv, list_set_id by exact N. destruct A; reflexivity.
Qed.
