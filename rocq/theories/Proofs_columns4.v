(** C119 with constraints that are in line in both orders: same verdict, and same cost for 'total' and 'local'. *)
From Verif Require Import Proofs_props_element Proofs_props_actionset Spec_columns Proofs_num Proofs_registry Proofs_actionset Proofs_session Proofs_builder Proofs_builder3 Proofs_builder8 Proofs_columns Proofs_columns3 Proofs_vec Proofs_concrete Proofs_scen Proofs_scen2 Proofs_compare4 Proofs_constrained.
#[local] Open Scope string_scope.
#[local] Open Scope list_scope.
#[local] Open Scope Qc_scope.

Lemma rearranged_exists {T} p (l : list T) : Permutation p (seq 0 (length l)) -> exists l', rearranged p l l'.
Proof.
  intro HP. assert (H : forall j, In j p -> (j < length l)%nat) by (intros j Hj; apply (Permutation_in _ HP), in_seq in Hj; lia).
  clear HP. induction p as [|j p IH]; [exists []; constructor|]. destruct IH as [l' Hl]; [intros; apply H; now right|].
  destruct (nth_error l j) as [v|] eqn:Hv; [exists (v :: l'); constructor; assumption|]. apply nth_error_None in Hv. specialize (H j (or_introl eq_refl)). lia.
Qed.
Lemma rearranged_at {T} p (l l' : list T) k v : rearranged p l l' -> nth_error l' k = Some v -> exists j, nth_error p k = Some j /\ nth_error l j = Some v.
Proof.
  intros HR Hv. assert (L : (k < length p)%nat) by (rewrite <- (rearranged_len _ _ _ HR); apply nth_error_Some; congruence).
  destruct (nth_error p k) as [j|] eqn:Hj; [|apply nth_error_None in Hj; lia]. exists j. split; [reflexivity|]. now rewrite <- (rearranged_nth p l l' k j HR Hj).
Qed.
Lemma vadd_len a b : length a = length b -> length (vadd a b) = length a.
Proof. apply vadd_length. Qed.
Lemma vadd_re p a a' b b' : rearranged p a a' -> rearranged p b b' -> rearranged p (vadd a b) (vadd a' b').
Proof.
  intros Ha. revert b'. induction Ha as [|j u p a' Hu Ha IH]; intros b' Hb; inversion Hb as [|j0 v p0 b0 Hv Hb0]; subst; [constructor|].
  change (vadd (u :: a') (v :: b0)) with (u + v :: vadd a' b0). constructor; [|apply IH; exact Hb0].
  apply vadd_nth; assumption.
Qed.
Lemma count_perm {T} (f : T -> bool) l l' : Permutation l l' -> length (filter f l) = length (filter f l').
Proof. induction 1; cbn; try congruence; repeat match goal with |- context [if ?b then _ else _] => destruct b end; cbn; congruence. Qed.

(** Rearranging back. *)
Lemma same_limits_back p q n A A' : Permutation p (seq 0 n) -> Permutation q (seq 0 n) ->
  (forall k j, nth_error p k = Some j <-> nth_error q j = Some k) -> same_limits p A A' -> same_limits q A' A.
Proof.
  intros HP HQ HI [H1 H2]. split.
  - intros id c' Hc'. destruct (H2 id c' Hc') as (c & Hc). destruct (H1 id c Hc) as (c2 & K1 & K2 & K3 & K4).
    assert (c2 = c') by (unfold stored in *; congruence). subst c2. exists c. split; [exact Hc|]. split; [congruence|]. split; [congruence|].
    intros k j Hk. apply HI in Hk. now rewrite (K4 j k Hk).
  - intros id c Hc. destruct (H1 id c Hc) as (c' & K & _). eauto.
Qed.
Lemma inverse2 n p : Permutation p (seq 0 n) -> exists q, Permutation q (seq 0 n) /\
  (forall k j, nth_error p k = Some j <-> nth_error q j = Some k) /\
  forall (T : Type) (l l' : list T), length l = n -> rearranged p l l' -> rearranged q l' l.
Proof.
  intro HP. destruct (inverse n p HP) as (q & HQ & K). exists q. split; [exact HQ|]. split; [|exact K].
  assert (Lp : length p = n) by (rewrite (Permutation_length HP); apply seq_length).
  assert (Lq : length q = n) by (rewrite (Permutation_length HQ); apply seq_length).
  assert (R : rearranged p (seq 0 n) p).
  { unfold rearranged. apply Forall2_nth. split; [reflexivity|]. intros i a b Ha Hb. rewrite Ha in Hb. injection Hb as <-.
    apply nth_error_In in Ha. apply (Permutation_in _ HP), in_seq in Ha. rewrite (nth_error_nth' _ 0%nat) by (rewrite seq_length; lia). now rewrite seq_nth by lia. }
  pose proof (K nat (seq 0 n) p (seq_length n 0) R) as RQ.
  assert (D : NoDup p) by (apply (Permutation_NoDup (l := seq 0 n)); [now apply Permutation_sym|apply seq_NoDup]).
  intros k j. split; intro H.
  - assert (Hj : (j < n)%nat) by (apply nth_error_In in H; apply (Permutation_in _ HP), in_seq in H; lia).
    destruct (nth_error q j) as [k'|] eqn:Hq; [|apply nth_error_None in Hq; lia].
    pose proof (rearranged_nth q p (seq 0 n) j k' RQ Hq) as E. rewrite (nth_error_nth' _ 0%nat) in E by (rewrite seq_length; lia). rewrite seq_nth in E by lia.
    f_equal. eapply NoDup_nth_error; [exact D| |rewrite H; symmetry; exact E]. apply nth_error_Some. congruence. 
  - pose proof (rearranged_nth q p (seq 0 n) j k RQ H) as E.
    assert (Hj : (j < n)%nat) by (rewrite <- Lq; apply nth_error_Some; congruence).
    rewrite (nth_error_nth' _ 0%nat) in E by (rewrite seq_length; lia). rewrite seq_nth in E by lia. now symmetry.
Qed.
Lemma reordered_back E p b x b' x' : reordered p b x b' x' -> wf_aset E (bd_A b) -> length (bd_w b) = as_len (bd_A b) -> length x = as_len (bd_A b) -> exists q, reordered q b' x' b x.
Proof.
  intros (HP & HN & HEl & HW & HX & Hy & Ht & Hc & H1 & H2 & HS) HF Lw Lx. destruct (inverse2 _ _ HP) as (q & HQ & HI & K). exists q.
  pose proof (wf_len _ _ HF) as LE. assert (LW' : length (bd_w b') = length (bd_w b)) by (rewrite (rearranged_len _ _ _ HW), (Permutation_length HP); apply seq_length).
  unfold reordered. rewrite LW'. split; [exact HQ|]. split; [apply K; [unfold as_len in Lw; congruence|exact HN]|]. split; [apply K; [congruence|exact HEl]|]. split; [apply K; auto|].
  split; [apply K; [congruence|exact HX]|]. do 5 (split; [congruence|]). eapply same_limits_back; [exact HP|exact HQ|exact HI|exact HS].
Qed.

Section Carry.
Context (E : env) (p : list nat) (b b' : builder) (x x' : list Qc).
Context (HR : reordered p b x b' x') (W : wf_aset E (bd_A b)) (W' : wf_aset E (bd_A b')).
Context (LW : length (bd_w b) = as_len (bd_A b)) (LX : length x = as_len (bd_A b)).
Let HP := proj1 HR. Let RN := proj1 (proj2 HR). Let RE := proj1 (proj2 (proj2 HR)). Let RW := proj1 (proj2 (proj2 (proj2 HR))). Let RX := proj1 (proj2 (proj2 (proj2 (proj2 HR)))).
Lemma len_p : length p = as_len (bd_A b). Proof. rewrite (Permutation_length HP), seq_length. exact LW. Qed.
Lemma len_A' : as_len (bd_A b') = as_len (bd_A b). Proof. unfold as_len at 1. rewrite (rearranged_len _ _ _ RN). apply len_p. Qed.
Context (a a' : list Qc) (La : length a = as_len (bd_A b)) (Ra : rearranged p a a').
Lemma carry_permitted : permitted_action (bd_A b) x a -> permitted_action (bd_A b') x' a'.
Proof.
  intros [_ H]. split; [rewrite (rearranged_len _ _ _ Ra), len_A'; apply len_p|]. intros k e xk ak He Hx Hk.
  destruct (rearranged_at _ _ _ _ _ RE He) as (j & Hj & He'). rewrite (rearranged_nth _ _ _ _ _ RX Hj) in Hx. rewrite (rearranged_nth _ _ _ _ _ Ra Hj) in Hk. eauto.
Qed.
Lemma carry_movable : movable_only (bd_A b) x a -> movable_only (bd_A b') x' a'.
Proof.
  intros H k e xk ak He Hx Hk. destruct (rearranged_at _ _ _ _ _ RE He) as (j & Hj & He'). rewrite (rearranged_nth _ _ _ _ _ RX Hj) in Hx. rewrite (rearranged_nth _ _ _ _ _ Ra Hj) in Hk. eauto.
Qed.
Lemma carry_changed : n_changed a' = n_changed a.
Proof. unfold n_changed. apply count_perm. apply (rearranged_perm (as_len (bd_A b)) p); auto. rewrite <- LW. exact HP. Qed.
Lemma carry_score : score (bd_w b') (bd_t b') (vadd x' a') = score (bd_w b) (bd_t b) (vadd x a).
Proof.
  unfold score. pose proof HR as (_ & _ & _ & _ & _ & _ & Ht & _). rewrite Ht. f_equal.
  apply (dot_perm (as_len (bd_A b)) p); auto; [rewrite <- LW; exact HP|rewrite vadd_len; congruence|now apply vadd_re].
Qed.
Lemma carry_score0 : score (bd_w b') (bd_t b') x' = score (bd_w b) (bd_t b) x.
Proof.
  unfold score. pose proof HR as (_ & _ & _ & _ & _ & _ & Ht & _). rewrite Ht. f_equal. apply (dot_perm (as_len (bd_A b)) p); auto. rewrite <- LW. exact HP.
Qed.
Lemma carry_on v v' c c' : rearranged p v v' -> length v = as_len (bd_A b) -> stored (as_cons (bd_A b)) (c_id c) c -> stored (as_cons (bd_A b')) (c_id c') c' ->
  (forall k j, nth_error p k = Some j -> In k (c_indices c') <-> In j (c_indices c)) -> n_on v' (c_indices c') = n_on v (c_indices c).
Proof.
  intros Rv Lv Hc Hc' HI.
  assert (G : forall A B, wf_aset E A -> stored (as_cons A) (c_id B) B -> NoDup (c_indices B) /\ forall j, In j (c_indices B) -> (j < as_len A)%nat).
  { intros A B (_ & _ & _ & WN & (_ & WC) & _) HB. destruct (WC _ _ HB) as (_ & _ & _ & _ & F & S & _). split.
    - revert S. clear. intro S. induction S as [|j l S IH HF]; constructor; auto. intro Hj. rewrite Forall_forall in HF. specialize (HF j Hj). lia.
    - intros j Hj. rewrite WN in F. unfold as_len. revert F Hj. clear. intros F Hj. induction F as [|n i l l' Hn F IH]; [destruct Hj|]. destruct Hj as [<-|Hj]; [apply nth_error_Some; congruence|auto]. }
  destruct (G _ _ W Hc) as [D1 B1]. destruct (G _ _ W' Hc') as [D2 B2]. rewrite len_A' in B2. pose proof len_p as LP.
  assert (PI : Permutation (map (fun k => nth k p 0%nat) (c_indices c')) (c_indices c)).
  { apply NoDup_Permutation.
    - assert (D : NoDup p) by (apply (Permutation_NoDup (l := seq 0 (length (bd_w b)))); [now apply Permutation_sym|apply seq_NoDup]).
      revert D2 B2. clear - D LP. induction (c_indices c') as [|k l IH]; intros D2 B2; [constructor|]. inversion D2 as [|? ? N1 N2]; subst. cbn. constructor; [|apply IH; [exact N2|intros; apply B2; now right]].
      intro Hin. apply in_map_iff in Hin. destruct Hin as (k' & Q & Hk'). apply (proj1 (NoDup_nth p 0%nat)) in Q; auto; [subst; contradiction| |].
      + rewrite LP. apply B2. now right.
      + rewrite LP. apply B2. now left.
    - exact D1.
    - intro j. split.
      + intro Hj. apply in_map_iff in Hj. destruct Hj as (k & <- & Hk). apply (HI k); [|exact Hk]. apply nth_error_nth'. rewrite LP. auto.
      + intro Hj. assert (Ij : In j p) by (apply (Permutation_in _ (Permutation_sym HP)), in_seq; rewrite LW; specialize (B1 j Hj); lia).
        apply In_nth_error in Ij. destruct Ij as [k Hk]. apply in_map_iff. exists k. split; [apply nth_error_nth, Hk|]. now apply (HI k j Hk). }
  unfold n_on. rewrite <- (count_perm _ _ _ PI). revert B2. clear - Rv LP.
  induction (c_indices c') as [|k l IH]; intro B2; [reflexivity|]. cbn [map filter].
  assert (Hk : nth k v' 0 = nth (nth k p 0%nat) v 0).
  { assert (K : nth_error p k = Some (nth k p 0%nat)) by (apply nth_error_nth'; rewrite LP; apply B2; now left).
    pose proof (rearranged_nth _ _ _ _ _ Rv K) as Q.
    destruct (nth_error v (nth k p 0%nat)) as [u|] eqn:Hu.
    - rewrite (nth_error_nth _ _ _ Q), (nth_error_nth _ _ _ Hu). reflexivity.
    - apply nth_error_None in Hu, Q. now rewrite !nth_overflow. }
  rewrite Hk. destruct (negb (nth (nth k p 0%nat) v 0 =? 0)); cbn [length]; rewrite IH; auto; intros; apply B2; now right.
Qed.
Lemma carry_compliant : compliant (bd_A b) x a -> compliant (bd_A b') x' a'.
Proof.
  intros H id c' Hc'. pose proof HR as (_ & _ & _ & _ & _ & _ & _ & _ & _ & _ & H1 & H2).
  destruct (H2 id c' Hc') as (c & Hc). destruct (H1 id c Hc) as (c2 & K1 & K2 & K3 & K4). assert (c2 = c') by (unfold stored in *; congruence). subst c2.
  assert (Q : c_id c = id) by (destruct W as (_ & _ & _ & _ & (_ & WC) & _); apply (WC _ _ Hc)).
  assert (Q' : c_id c' = id) by (destruct W' as (_ & _ & _ & _ & (_ & WC) & _); apply (WC _ _ Hc')).
  rewrite (carry_on (vadd x a) (vadd x' a') c c'); [rewrite K2, K3; apply (H id c Hc)| | | | |].
  - now apply vadd_re.
  - rewrite vadd_len; congruence.
  - now rewrite Q.
  - now rewrite Q'.
  - exact K4.
Qed.
Lemma carry_costs ct cs cs' : action_costs E ct (bd_A b) x a cs -> rearranged p cs cs' -> action_costs E ct (bd_A b') x' a' cs'.
Proof.
  intros [L H] Rc. split; [rewrite (rearranged_len _ _ _ Rc), (rearranged_len _ _ _ Ra); reflexivity|]. intros k e xk ak c He Hx Hk Hc.
  destruct (rearranged_at _ _ _ _ _ RE He) as (j & Hj & He'). rewrite (rearranged_nth _ _ _ _ _ RX Hj) in Hx. rewrite (rearranged_nth _ _ _ _ _ Ra Hj) in Hk. rewrite (rearranged_nth _ _ _ _ _ Rc Hj) in Hc. eauto.
Qed.
End Carry.
Section Carry0.
Context (E : env) (p : list nat) (b b' : builder) (x x' : list Qc).
Context (HR : reordered p b x b' x') (W : wf_aset E (bd_A b)) (W' : wf_aset E (bd_A b')).
Context (LW : length (bd_w b) = as_len (bd_A b)) (LX : length x = as_len (bd_A b)).
Lemma carry_setup : good_setup E b x -> orderly E (bd_A b') (bd_w b') x' -> good_setup E b' x'.
Proof.
  intros (_ & (FL & F) & C & M & D) O. pose proof HR as (HP & RN & RE & RW & RX & Hy & Ht & Hc & H1 & H2 & _). split; [exact O|]. split; [split|split; [|split]].
  - rewrite (rearranged_len _ _ _ RW), (rearranged_len _ _ _ RE). reflexivity.
  - intros k e c He Hk. destruct (rearranged_at _ _ _ _ _ RE He) as (j & Hj & He'). rewrite (rearranged_nth _ _ _ _ _ RW Hj) in Hk. rewrite Hy. eauto.
  - intros k e He. destruct (rearranged_at _ _ _ _ _ RE He) as (j & Hj & He'). eauto.
  - congruence.
  - rewrite Hy. rewrite (carry_score0 p b b' x x' HR LW LX). exact D.
Qed.
Lemma carry_regular : regular E (bd_A b) x -> regular E (bd_A b') x'.
Proof.
  intros [S R]. pose proof HR as (HP & RN & RE & RW & RX & _). split.
  - intros k e xk He Hx. destruct (rearranged_at _ _ _ _ _ RE He) as (j & Hj & He'). rewrite (rearranged_nth _ _ _ _ _ RX Hj) in Hx. eauto.
  - intros k e xk He Hx. destruct (rearranged_at _ _ _ _ _ RE He) as (j & Hj & He'). rewrite (rearranged_nth _ _ _ _ _ RX Hj) in Hx. eauto.
Qed.
End Carry0.

Lemma columns_no_worse E sv sv' p b x b' x' b0 b0' b1 s : ok_env E -> sound_solver sv -> finishing_solver sv -> sound_solver sv' -> finishing_solver sv' -> density E -> log_ok E (bd_cost b) ->
  assigned E sv b x b0 -> assigned E sv' b' x' b0' -> reordered p b x b' x' -> good_setup E b x -> good_setup E b' x' -> fit sv b0 = Ok (b1, Some s) ->
  exists b1' s', fit sv' b0' = Ok (b1', Some s') /\ (regular E (bd_A b') x' -> bd_cost b <> CMax -> s_cost s' <= s_cost s).
Proof.
  intros HE S F S' F' HD HL HA HA' HR G G' Hf.
  destruct (reachable_sane _ _ _ (proj1 HA)) as [R1 LW]. destruct (reachable_sane _ _ _ (proj1 HA')) as [R2 _]. apply reachable_wf in R1, R2.
  assert (LX : length x = as_len (bd_A b)) by (destruct HA as [_ Q]; unfold set_x in Q; destruct (Nat.eqb (length x) (length (bd_w b))) eqn:Ql; [apply Nat.eqb_eq in Ql; congruence|discriminate Q]).
  destruct (fit_some E sv b x b0 HE S HA b1 s Hf) as (P1 & P2 & P3). pose proof (fit_movable E sv b x b0 HE S HA b1 s Hf) as P4.
  pose proof G as (O1 & O2 & _). pose proof (fit_compliant E sv b x b0 HE S HA b1 s Hf O1 O2) as P5.
  assert (La : length (s_actions s) = as_len (bd_A b)) by apply P1.
  pose proof HR as (HP & _ & _ & _ & _ & Hy & _ & Hc & _ & Hmax & _).
  destruct (rearranged_exists p (s_actions s)) as [a' Ra]; [rewrite La, <- LW; exact HP|].
  pose proof (carry_permitted p b b' x x' HR LW (s_actions s) a' Ra P1) as C1.
  pose proof (carry_movable p b b' x x' HR (s_actions s) a' Ra P4) as C2.
  pose proof (carry_changed p b b' x x' HR LW (s_actions s) a' La Ra) as C3.
  pose proof (carry_compliant E p b b' x x' HR R1 R2 LW LX (s_actions s) a' La Ra P5) as C5.
  assert (C4 : on_side (as_y (bd_A b')) (score (bd_w b') (bd_t b') (vadd x' a'))) by (rewrite (carry_score p b b' x x' HR LW LX (s_actions s) a' La Ra), Hy; exact P3).
  assert (C6 : (Z.of_nat (n_changed a') <= bd_max b')%Z) by (rewrite C3, Hmax; unfold size_between in P2; lia).
  assert (HL' : log_ok E (bd_cost b')) by now rewrite Hc.
  destruct (fit_total E sv' b' x' b0' HE S' HA') as (b1' & [s'|] & Hf').
  2:{ exfalso. exact (c27_thm E sv' b' x' b0' b1' a' HE S' F' HD HL' HA' G' Hf' C1 C2 C6 C5 C4). }
  exists b1', s'. split; [exact Hf'|]. intros Hreg Hct.
  assert (Hs : session sv b0 ([s] ++ []) b1) by (exact (ses_fit sv b0 b1 (Some s) [] b1 Hf (ses_done sv b1))).
  destruct (c29_costs E sv b x b0 ([s] ++ []) b1 s HE S HA Hct Hs (or_introl eq_refl)) as [K1 K2].
  assert (Lc : length (s_costs s) = as_len (bd_A b)) by (rewrite (proj1 K1); exact La).
  destruct (rearranged_exists p (s_costs s)) as [cs' Rc]; [rewrite Lc, <- LW; exact HP|].
  pose proof (carry_costs E p b b' x x' HR (s_actions s) a' Ra (bd_cost b) _ cs' K1 Rc) as C7. rewrite <- Hc in C7.
  rewrite K2. rewrite <- (qsum_perm cs' (s_costs s)).
  - eapply (c29_thm E sv' b' x' b0' b1' s' a' cs'); eauto. congruence.
  - apply (rearranged_perm (as_len (bd_A b)) p); auto. rewrite <- LW. exact HP.
Qed.
Lemma columns_constrained E sv sv' p b x b' x' b0 b0' : ok_env E -> sound_solver sv -> finishing_solver sv -> sound_solver sv' -> finishing_solver sv' -> density E -> log_ok E (bd_cost b) ->
  assigned E sv b x b0 -> assigned E sv' b' x' b0' -> reordered p b x b' x' -> good_setup E b x -> orderly E (bd_A b') (bd_w b') x' ->
  exists b1 r b1' r', fit sv b0 = Ok (b1, r) /\ fit sv' b0' = Ok (b1', r') /\
    match r, r' with
    | Some s, Some s' => regular E (bd_A b) x -> bd_cost b <> CMax -> s_cost s = s_cost s'
    | None, None => True
    | _, _ => False
    end.
Proof.
  intros HE S F S' F' HD HL HA HA' HR G O'.
  destruct (reachable_sane _ _ _ (proj1 HA)) as [R1 LW]. destruct (reachable_sane _ _ _ (proj1 HA')) as [R2 _]. apply reachable_wf in R1, R2.
  assert (LX : length x = as_len (bd_A b)) by (destruct HA as [_ Q]; unfold set_x in Q; destruct (Nat.eqb (length x) (length (bd_w b))) eqn:Ql; [apply Nat.eqb_eq in Ql; congruence|discriminate Q]).
  pose proof (carry_setup E p b b' x x' HR LW LX G O') as G'.
  destruct (reordered_back E p b x b' x' HR R1 LW LX) as [q HQ].
  destruct (fit_total E sv b x b0 HE S HA) as (b1 & r & Hf). destruct (fit_total E sv' b' x' b0' HE S' HA') as (b1' & r' & Hf').
  exists b1, r, b1', r'. split; [exact Hf|]. split; [exact Hf'|].
  pose proof HR as (_ & _ & _ & _ & _ & _ & _ & Hc & _).
  destruct r as [s|], r' as [s'|]; auto.
  - intros Hreg Hct.
    destruct (columns_no_worse E sv sv' p b x b' x' b0 b0' b1 s HE S F S' F' HD HL HA HA' HR G G' Hf) as (c1 & u & K1 & K2). rewrite Hf' in K1. injection K1 as <- <-.
    destruct (columns_no_worse E sv' sv q b' x' b x b0' b0 b1' s' HE S' F' S F HD ltac:(now rewrite Hc) HA' HA HQ G' G Hf') as (c2 & u2 & K3 & K4). rewrite Hf in K3. injection K3 as <- <-.
    apply Qcle_antisym; [apply K4; [exact Hreg|congruence]|apply K2; [|exact Hct]]. eapply carry_regular; eauto.
  - destruct (columns_no_worse E sv sv' p b x b' x' b0 b0' b1 s HE S F S' F' HD HL HA HA' HR G G' Hf) as (c1 & u & K1 & K2). rewrite Hf' in K1. discriminate K1.
  - destruct (columns_no_worse E sv' sv q b' x' b x b0' b0 b1' s' HE S' F' S F HD ltac:(now rewrite Hc) HA' HA HQ G' G Hf') as (c2 & u2 & K3 & K4). rewrite Hf in K3. discriminate K3.
Qed.

(** ** A case: the constraint on a and b, with the third feature moved to the front. *)
Definition tab3r : list (list Qc) := [[z 0; z 0; z 0]; [z 0; z 1; z 1]; [z 1; z 0; z 0]; [z 0; z 1; z 0]].
Definition x010 : list Qc := [z 0; z 1; z 0].
Definition sc_conr k ct := mk env0 tab3r ["c"; "a"; "b"] 1 [OAdd ["a"; "b"] (z 0) (z 1) (Some "one")] k [z 1; z 1; z 2] (- z 3) ct x010.
Definition p201 : list nat := [2; 0; 1]%nat.
Lemma p201_ok : Permutation p201 (seq 0 3).
Proof. change (seq 0 3) with ([0; 1] ++ [2])%nat. change p201 with ([2] ++ [0; 1])%nat. apply Permutation_app_comm. Qed.
Lemma constrained_columns k k' ct : exists p b b' b0 b0', (forall sv, assigned env0 sv b x100 b0) /\ (forall sv, assigned env0 sv b' x010 b0') /\ reordered p b x100 b' x010 /\ p <> [0; 1; 2]%nat /\
  (exists c, stored (as_cons (bd_A b)) "one" c /\ c_indices c = [0; 1]%nat /\ c_lb c = 0%Z /\ c_ub c = 1%Z) /\
  good_setup env0 b x100 /\ orderly env0 (bd_A b') (bd_w b') x010 /\ regular env0 (bd_A b) x100 /\ bd_kind b = k /\ bd_kind b' = k' /\ bd_cost b = ct /\
  forall sv, sound_solver sv -> finishing_solver sv -> exists b1 s, fit sv b0 = Ok (b1, Some s).
Proof.
  destruct (pairb_ok (sc_con k ct) (sc_conr k' ct) (fun b b0 b' b0' => Nat.eqb (length (bd_w b)) 3 && con_pre k ct b && reorderedb p201 b x100 b' x010 && in_lineb (bd_A b') (bd_w b') x010 && nonnegb (bd_A b') x010 && strictb env0 (bd_A b') x010 && resolvableb (bd_A b') x010 &&
    match bd_kind b', k' with PyMIP, PyMIP | CPX, CPX => true | _, _ => false end && fit_test b0 some_b)) as (b & b0 & b' & b0' & H & H' & HT); [destruct k, k', ct; vm_compute; reflexivity|].
  do 8 (apply andb_true_iff in HT; destruct HT as [HT ?]). apply Nat.eqb_eq in HT. rename H7 into HP.
  unfold con_pre in HP. do 16 (apply andb_true_iff in HP; destruct HP as [HP ?]).
  assert (R1 : regular env0 (bd_A b) x100) by (split; [now apply strictb_ok|now apply resolvableb_ok]).
  assert (R2 : regular env0 (bd_A b') x010) by (split; [now apply strictb_ok|now apply resolvableb_ok]).
  exists p201, b, b', b0, b0'. split; [exact (sc_assigned _ _ _ H)|]. split; [exact (sc_assigned _ _ _ H')|]. split; [apply reorderedb_ok; [rewrite HT; exact p201_ok|assumption]|]. split; [discriminate|].
  split; [now apply conb_ok|]. split.
  { split; [now apply orderlyb_ok|]. split; [now apply flipsb_ok|]. split; [now apply currentb_ok|]. split; [now apply Z.leb_le|now apply deniedb'_ok]. }
  split; [now apply orderlyb_ok|]. split; [exact R1|]. split; [destruct (bd_kind b), k; congruence|]. split; [destruct (bd_kind b'), k'; congruence|]. split; [destruct (bd_cost b), ct; congruence|].
  intros sv S F. destruct (sc_fit _ _ _ some_b H env0_ok H0 sv S F) as (b1 & [s|] & Hf & Ht); [eauto|discriminate Ht].
Qed.
