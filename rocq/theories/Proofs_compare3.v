(** C94, C95: resuming enumerations, and the length of mutually exclusive ones. *)
From Verif Require Import Proofs_props_element Proofs_props_actionset Spec_compare Proofs_mip Proofs_info Proofs_vec Proofs_build Proofs_enum Proofs_session Proofs_recourse Proofs_exchange Proofs_builder Proofs_builder2 Proofs_builder4 Proofs_flipset3 Proofs_builder6 Proofs_builder7 Proofs_builder8 Proofs_dict.
#[local] Open Scope string_scope.
#[local] Open Scope list_scope.
#[local] Open Scope Qc_scope.

(** ** Fuel *)
Lemma loop_fuel sv et : forall fuel total b b' l, populate_loop sv fuel total et b = Some (Ok (b', l)) ->
  forall fuel', (length l < fuel')%nat -> populate_loop sv fuel' total et b = Some (Ok (b', l)).
Proof.
  induction fuel as [|fuel IH]; intros total b b' l H [|fuel'] L; try lia; cbn [populate_loop] in *; destruct (match total with Some 0%nat => true | _ => false end); try exact H; try discriminate H.
  destruct (fit sv b) as [[b1 [i|]]|]; try discriminate H; [|exact H]. destruct (remove_solution et b1) as [b2|]; [|discriminate H].
  destruct (populate_loop sv fuel (option_map pred total) et b2) as [[[b3 l3]|]|] eqn:EL; try discriminate H. injection H as <- <-. cbn in L. rewrite (IH _ _ _ _ EL fuel') by lia. reflexivity.
Qed.
(** ** Resuming *)
Definition plus_total (n : nat) (total : option nat) : option nat := option_map (Nat.add n) total.
Lemma loop_resume sv et : forall f1 n b b1 l1, populate_loop sv f1 (Some n) et b = Some (Ok (b1, l1)) -> length l1 = n ->
  forall f2 total b2 l2, populate_loop sv f2 total et b1 = Some (Ok (b2, l2)) -> populate_loop sv (n + f2) (plus_total n total) et b = Some (Ok (b2, l1 ++ l2)).
Proof.
  induction f1 as [|f1 IH]; intros [|n] b b1 l1 H HL f2 total b2 l2 H2; cbn [populate_loop] in H; try discriminate H.
  - injection H as <- <-. cbn [app Nat.add plus_total]. destruct total; exact H2.
  - injection H as <- <-. cbn [app Nat.add plus_total]. destruct total; exact H2.
  - cbn [Nat.add populate_loop]. replace (match plus_total (S n) total with Some 0%nat => true | _ => false end) with false by (destruct total; reflexivity).
    destruct (fit sv b) as [[c1 [i|]]|]; try discriminate H.
    + destruct (remove_solution et c1) as [c2|]; [|discriminate H]. cbn [option_map pred] in H. destruct (populate_loop sv f1 (Some n) et c2) as [[[b3 l3]|]|] eqn:EL; try discriminate H. injection H as <- <-. cbn in HL.
      specialize (IH n c2 b3 l3 EL ltac:(lia) f2 total b2 l2 H2). replace (option_map pred (plus_total (S n) total)) with (plus_total n total) by (destruct total; reflexivity). rewrite IH. reflexivity.
    + injection H as <- <-. discriminate HL.
Qed.
Lemma loop_short sv et : forall fuel total b b1 l, populate_loop sv fuel total et b = Some (Ok (b1, l)) -> total <> Some (length l) ->
  exists b', fit sv b' = Ok (b1, None) /\ forall n', match n' with Some n' => (length l < n')%nat | None => True end -> populate_loop sv (S (length l)) n' et b = Some (Ok (b1, l)).
Proof.
  induction fuel as [|fuel IH]; intros total b b1 l H HL; cbn [populate_loop] in H.
  { destruct total as [[|n]|]; try discriminate H. injection H as <- <-. now contradict HL. }
  destruct total as [[|n]|]; [injection H as <- <-; now contradict HL| |].
  all: destruct (fit sv b) as [[c1 [i|]]|] eqn:Ef; try discriminate H;
    [|injection H as <- <-; exists b; split; [exact Ef|]; intros [[|n']|] L; cbn in L |- *; try lia; now rewrite Ef];
    destruct (remove_solution et c1) as [c2|] eqn:Er; [|discriminate H]; cbn [option_map pred] in H; destruct (populate_loop sv fuel _ et c2) as [[[b3 l3]|]|] eqn:EL; try discriminate H; injection H as <- <-;
    destruct (IH _ _ _ _ EL) as (b' & K1 & K2); [intro Q; apply HL; cbn; congruence|]; exists b'; (split; [exact K1|]);
    intros [[|n']|] L; cbn in L; try lia; change (length (i :: l3)) with (S (length l3)); remember (S (length l3)) as kk eqn:Ek in K2 |- *; cbn [populate_loop]; rewrite Ef, Er; cbn [option_map pred]; rewrite K2 by (try exact I; lia); reflexivity.
Qed.
Lemma fit_none_mip sv b b1 : fit sv b = Ok (b1, None) -> exists ms, bd_mip b = Some ms /\ bd_mip b1 = Some ms /\ bd_kind b1 = bd_kind b /\ exposed (bd_kind b) (sv (bd_calls b) (ms_mip ms)) = None.
Proof.
  unfold fit, solve_mip. destruct (bd_mip b) as [ms|]; [|discriminate]. cbn [bind]. unfold get_solution. cbn. intro H. injection H as <- H. exists ms. repeat split.
  unfold solution_info in H. destruct (exposed _ _); [discriminate H|reflexivity].
Qed.
Lemma fit_again sv b b1 ms P : sound_solver sv -> finishing_solver sv -> good b1 ms P -> fit sv b = Ok (b1, None) -> exists b2, fit sv b1 = Ok (b2, None).
Proof.
  intros HS HF G H. destruct (fit_none_mip _ _ _ H) as (ms0 & M & M1 & Kd & X). rewrite (gd_mip _ _ _ G) in M1. injection M1 as <-.
  pose proof (finishing_good sv b1 ms P HF G) as C1. pose proof (HS (bd_calls b1) (ms_mip ms)) as V1. pose proof (HS (bd_calls b) (ms_mip ms)) as V.
  pose proof (HF (bd_calls b) (ms_mip ms) (ex_intro _ _ (conj C1 V1))) as C.
  destruct (fit_status sv b1 ms (gd_mip _ _ _ G)) as (b2 & Hf). exists b2. rewrite Hf. f_equal. f_equal.
  destruct (sv (bd_calls b) (ms_mip ms)) as [s0 [|]| | |]; try (destruct C; fail); [destruct (bd_kind b); discriminate X|]. cbn [valid_outcome] in V.
  destruct (sv (bd_calls b1) (ms_mip ms)) as [s1 [|]| | |]; try (destruct C1; fail).
  - destruct V1 as [V1 _]. rewrite V in V1. discriminate V1.
  - unfold solution_info. destruct (bd_kind b1); reflexivity.
Qed.
Lemma enum_mip E sv b x b0 l b1 : ok_env E -> sound_solver sv -> assigned E sv b x b0 -> enumeration sv b0 l b1 -> exists ms P, good b1 ms P.
Proof.
  intros HE HS HA He. destruct (enumeration_ready E sv b x b0 HE HS HA l b1 He) as (ms & ecs & ms' & _ & _ & _ & _ & _ & G). eauto.
Qed.
Lemma resume_thm E sv b x b0 l b1 n f1 et b2 l1 f2 total b3 l2 : ok_env E -> sound_solver sv -> finishing_solver sv -> assigned E sv b x b0 -> enumeration sv b0 l b1 ->
  populate sv f1 (Some n) et b1 = Some (Ok (b2, l1)) -> populate sv f2 total et b2 = Some (Ok (b3, l2)) ->
  exists fuel b4, populate sv fuel (plus_total n total) et b1 = Some (Ok (b4, l1 ++ l2)).
Proof.
  intros HE HS HF HA He H1 H2.
  assert (N1 : n <> 0%nat /\ bd_mip b1 <> None). { split; intro Q; unfold populate in H1; rewrite Q in H1; [destruct (bd_mip b1)|]; discriminate H1. }
  assert (N2 : total <> Some 0%nat /\ bd_mip b2 <> None). { split; intro Q; unfold populate in H2; rewrite Q in H2; [destruct (bd_mip b2)|]; discriminate H2. }
  destruct N1 as [N1 M1], N2 as [N2 M2]. assert (He2 : enumeration sv b0 (l ++ map (pair et) l1) b2).
  { clear - He H1. induction He as [b|b c r l b2' Hf He IH|b fu to e c l' l b2' Hp He IH].
    - cbn [app]. rewrite <- (app_nil_r (map (pair et) l1)). eapply en_populate; [exact H1|constructor].
    - eapply en_fit; [exact Hf|auto].
    - rewrite <- app_assoc. eapply en_populate; [exact Hp|auto]. }
  destruct (enum_mip E sv b x b0 _ b2 HE HS HA He2) as (ms & P & G).
  rewrite populate_is_loop in H1, H2 by congruence.
  assert (NT : plus_total n total <> Some 0%nat) by (destruct total as [m|]; cbn; [intro Q; injection Q as Q; lia|discriminate]).
  destruct (Nat.eq_dec (length l1) n) as [Q|Q].
  - exists (n + f2)%nat, b3. rewrite populate_is_loop by assumption. eapply loop_resume; eauto.
  - destruct (loop_short _ _ _ _ _ _ _ H1) as (b' & K1 & K2); [congruence|]. destruct (fit_again sv b' b2 ms P HS HF G K1) as (b5 & K5).
    assert (l2 = []) as ->. { destruct f2 as [|f2]; cbn [populate_loop] in H2; [destruct total as [[|m]|]; try discriminate H2; now contradict N2|]. destruct total as [[|m]|]; [now contradict N2| |]; rewrite K5 in H2; injection H2 as _ <-; reflexivity. }
    exists (S (length l1)), b2. rewrite populate_is_loop by assumption. rewrite app_nil_r. apply K2. destruct total as [m|]; [|exact I]. cbn [plus_total option_map].
    assert (length l1 <= n)%nat; [|destruct m; [now contradict N2|lia]].
    clear - H1. revert n b1 b2 l1 H1. induction f1 as [|f1 IH]; intros n b1 b2 l1 H; cbn [populate_loop] in H.
    + destruct n; [injection H as _ <-; cbn; lia|discriminate H].
    + destruct n; [injection H as _ <-; cbn; lia|]. destruct (fit sv b1) as [[c1 [i|]]|]; try discriminate H; [|injection H as _ <-; cbn; lia].
      destruct (remove_solution et c1) as [c2|]; [|discriminate H]. destruct (populate_loop sv f1 _ et c2) as [[[b3 l3]|]|] eqn:EL; try discriminate H. injection H as _ <-. apply IH in EL. cbn in *. lia.
Qed.

(** ** Mutually exclusive enumerations *)
Definition positions (a : list Qc) : list nat := filter (fun j => negb (nth j a 0 =? 0)) (seq 0 (length a)).
Lemma positions_in a j : In j (positions a) <-> changes a j.
Proof.
  unfold positions, changes. rewrite filter_In, in_seq. split.
  - intros [L H]. destruct (nth_error a j) as [aj|] eqn:Ea; [|apply nth_error_None in Ea; lia]. exists aj. split; [reflexivity|]. intros ->. rewrite (nth_error_nth _ _ 0 Ea) in H. discriminate H.
  - intros (aj & Ea & Hn). assert (j < length a)%nat by (apply nth_error_Some; congruence). split; [lia|]. rewrite (nth_error_nth _ _ 0 Ea). destruct (qeq_spec aj 0); [contradiction|reflexivity].
Qed.
Lemma filter_pos (a : list Qc) : forall k, length (filter (fun j => negb (nth (j - k) a 0 =? 0)) (seq k (length a))) = length (filter (fun v => negb (v =? 0)) a).
Proof.
  induction a as [|c a IH]; intro k; [reflexivity|]. cbn [length seq filter]. rewrite Nat.sub_diag. change (nth 0 (c :: a) 0) with c.
  assert (K : filter (fun j => negb (nth (j - k) (c :: a) 0 =? 0)) (seq (S k) (length a)) = filter (fun j => negb (nth (j - S k) a 0 =? 0)) (seq (S k) (length a))).
  { apply filter_ext_in. intros j Hj. apply in_seq in Hj. replace (j - k)%nat with (S (j - S k)) by lia. reflexivity. }
  rewrite K. destruct (negb (c =? 0)); cbn [length]; now rewrite IH.
Qed.
Lemma positions_length a : length (positions a) = n_changed a.
Proof. unfold positions, n_changed. rewrite <- (filter_pos a 0). f_equal. apply filter_ext. intro j. now rewrite Nat.sub_0_r. Qed.
Lemma NoDup_app' {A} (l m : list A) : NoDup l -> NoDup m -> (forall a, In a l -> ~ In a m) -> NoDup (l ++ m).
Proof. intros H1 H2 H. induction H1 as [|a l Hn H1 IH]; [exact H2|]. cbn. constructor; [|apply IH; intros b Hb; apply H; now right]. intro Q. apply in_app_iff in Q. destruct Q as [Q|Q]; [contradiction|]. exact (H a (or_introl eq_refl) Q). Qed.
Lemma NoDup_flat {A} (f : A -> list nat) l : (forall a, In a l -> NoDup (f a)) -> (forall i j a b, (i < j)%nat -> nth_error l i = Some a -> nth_error l j = Some b -> forall k, ~ (In k (f a) /\ In k (f b))) -> NoDup (flat_map f l).
Proof.
  induction l as [|a l IH]; intros H1 H2; [constructor|]. cbn [flat_map]. apply NoDup_app'.
  - apply H1. now left.
  - apply IH; [intros; apply H1; now right|]. intros i j c d L Hi Hj. apply (H2 (S i) (S j) c d); [lia|exact Hi|exact Hj].
  - intros k Hk Hk'. apply in_flat_map in Hk'. destruct Hk' as (c & Hc & Hk'). destruct (In_nth_error _ _ Hc) as (i & Hi). exact (H2 0%nat (S i) a c ltac:(lia) eq_refl Hi k (conj Hk Hk')).
Qed.
Lemma flat_length {A} (f : A -> list nat) l : length (flat_map f l) = list_sum (map (fun a => length (f a)) l).
Proof. induction l as [|a l IH]; [reflexivity|]. cbn. now rewrite app_length, IH. Qed.
Definition act_positions (es : list element) (k : nat) : list nat := map fst (filter (fun p => e_actionable (snd p)) (combine (seq k (length es)) es)).
Lemma act_length es : forall k, length (act_positions es k) = length (filter e_actionable es).
Proof. unfold act_positions. induction es as [|e es IH]; intro k; [reflexivity|]. cbn [length seq combine filter snd]. destruct (e_actionable e); cbn; now rewrite IH. Qed.
Lemma act_in es j e : nth_error es j = Some e -> e_actionable e = true -> forall k, In (k + j)%nat (act_positions es k).
Proof.
  unfold act_positions. revert j. induction es as [|e0 es IH]; intros [|j] Hj Ha k; cbn in Hj; try discriminate Hj.
  - injection Hj as ->. cbn. rewrite Ha. left. cbn. lia.
  - cbn [length seq combine filter snd]. specialize (IH j Hj Ha (S k)). replace (k + S j)%nat with (S k + j)%nat by lia. destruct (e_actionable e0); [right|]; exact IH.
Qed.
Lemma exclusive_thm E sv b x b0 l b1 : ok_env E -> sound_solver sv -> assigned E sv b x b0 -> enumeration sv b0 l b1 -> Forall (fun p => fst p = MutuallyExclusive) l ->
  (list_sum (map (fun p => n_changed (s_actions (snd p))) l) <= n_actionable_features (bd_A b))%nat.
Proof.
  intros HE HS HA He HF. destruct (assigned_ready E sv b x b0 HE HA) as (ms & R). destruct (enumeration_session _ _ _ _ He) as (ls & Hs & HIn).
  assert (EQ : list_sum (map (fun p => n_changed (s_actions (snd p))) l) = length (flat_map (fun p => positions (s_actions (snd p))) l)).
  { rewrite flat_length. f_equal. apply map_ext. intro p. symmetry. apply positions_length. }
  rewrite EQ. unfold n_actionable_features. rewrite <- (act_length _ 0). apply NoDup_incl_length.
  - apply (NoDup_flat (fun p => positions (s_actions (snd p)))).
    + intros p _. apply NoDup_filter, seq_NoDup.
    + intros i j [et s] [et' s'] L Hi Hj k [K1 K2]. cbn [snd] in *. rewrite positions_in in K1, K2.
      assert (et = MutuallyExclusive) as -> by (rewrite Forall_forall in HF; exact (HF _ (nth_error_In _ _ Hi))).
      exact (c36_thm E sv b x b0 l b1 i j s et' s' HE HS HA He L Hi Hj k (conj K1 K2)).
  - intros j Hj. apply in_flat_map in Hj. destruct Hj as (p & Hp & Hj). apply positions_in in Hj. destruct Hj as (aj & Ha & Hn).
    destruct (c25_thm E sv b x b0 ls b1 (snd p) HE HS HA Hs (HIn p Hp)) as (La & HP).
    assert (Lj : (j < as_len (bd_A b))%nat) by (rewrite <- La; apply nth_error_Some; congruence).
    destruct (nth_error (as_elems (bd_A b)) j) as [e|] eqn:Ee; [|exfalso; apply nth_error_None in Ee; pose proof (rd_el _ _ _ _ _ R) as RL; unfold as_len in *; rewrite RL in Ee; exact (Nat.lt_irrefl _ (Nat.lt_le_trans _ _ _ Lj Ee))].
    destruct (nth_error x j) as [xj|] eqn:Ex; [|exfalso; apply nth_error_None in Ex; pose proof (rd_x _ _ _ _ _ R) as RX; unfold as_len in *; rewrite RX in Ex; exact (Nat.lt_irrefl _ (Nat.lt_le_trans _ _ _ Lj Ex))].
    destruct (HP j e xj aj Ee Ex Ha) as [Q|(Q & _)]; [|exact (act_in _ _ _ Ee Q 0)].
    exfalso. apply Hn. replace aj with ((xj + aj) - xj) by ring. rewrite Q. ring.
Qed.
Lemma sum_ge {A} (f : A -> nat) l : (forall a, In a l -> (1 <= f a)%nat) -> (length l <= list_sum (map f l))%nat.
Proof. induction l as [|a l IH]; intro H; [cbn; lia|]. change (S (length l) <= f a + list_sum (map f l))%nat. pose proof (H a (or_introl eq_refl)). specialize (IH (fun b Hb => H b (or_intror Hb))). lia. Qed.
Lemma exclusive_ends E sv b x b0 fuel total : ok_env E -> sound_solver sv -> assigned E sv b x b0 -> total <> Some 0%nat -> (n_actionable_features (bd_A b) < fuel)%nat ->
  exists b1 l, populate sv fuel total MutuallyExclusive b0 = Some (Ok (b1, l)) /\ (length l <= n_actionable_features (bd_A b))%nat.
Proof.
  intros HE HS HA Ht Hf. destruct (c39_term_thm E sv b x b0 [] b0 (S (2 ^ as_len (bd_A b))) total MutuallyExclusive HE HS HA (en_done sv b0) Ht ltac:(lia)) as (b1 & l & Hp & _).
  assert (He : enumeration sv b0 (map (pair MutuallyExclusive) l ++ []) b1) by (eapply en_populate; [exact Hp|constructor]). rewrite app_nil_r in He.
  assert (L : (length l <= n_actionable_features (bd_A b))%nat).
  { eapply Nat.le_trans; [|apply (exclusive_thm E sv b x b0 _ b1 HE HS HA He)].
    - rewrite map_map. apply sum_ge. intros s Hs. cbn [snd]. destruct (enumeration_session _ _ _ _ He) as (ls & Hses & HIn).
      apply (c31_thm E sv b x b0 ls b1 s HE HS HA Hses). apply (HIn (MutuallyExclusive, s)). now apply in_map.
    - apply Forall_forall. intros p Hp'. apply in_map_iff in Hp'. destruct Hp' as (s & <- & _). reflexivity. }
  exists b1, l. split; [|exact L]. assert (M : bd_mip b0 <> None) by (intro Q; unfold populate in Hp; rewrite Q in Hp; discriminate Hp).
  rewrite populate_is_loop in Hp |- * by assumption. apply (loop_fuel _ _ _ _ _ _ _ Hp). lia.
Qed.
