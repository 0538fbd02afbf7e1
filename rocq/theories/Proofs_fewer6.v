(** C137 for audits. *)
From Verif Require Import Spec_audit Proofs_builder5 Proofs_builder7 Proofs_props_element Proofs_props_actionset Spec_fewer Spec_setup Proofs_num Proofs_registry Proofs_actionset Proofs_session Proofs_builder Proofs_builder2 Proofs_builder3 Proofs_builder8 Proofs_columns Proofs_columns3 Proofs_columns4 Proofs_vec Proofs_concrete Proofs_scen Proofs_scen2 Proofs_compare4 Proofs_constrained Proofs_list Proofs_subset Proofs_flipset3 Proofs_audit2 Proofs_audit3 Proofs_audit4 Proofs_setup Proofs_fewer Proofs_fewer2 Proofs_fewer3.
#[local] Open Scope string_scope.
#[local] Open Scope list_scope.
#[local] Open Scope Qc_scope.

Definition reached (A : action_set) (w : list Qc) (t : Qc) (x : list Qc) : Prop :=
  exists a, permitted_action A x a /\ movable_only A x a /\ compliant A x a /\ on_side (as_y A) (score w t (vadd x a)).
Lemma narrowed_reached E p A A' w w' t t' x x' : ok_env E -> wf_aset E A -> wf_aset E A' -> length w = as_len A -> length x = as_len A ->
  narrowed_set p A w A' w' -> rearranged p x x' -> score w' t' x' = score w t x -> (reached A w t x <-> reached A' w' t' x').
Proof.
  intros HE W W' LW LX (H1 & H2 & H3 & H4 & H5 & H6 & H7 & H8) RX HS.
  set (b := {| bd_kind := PyMIP; bd_cost := CTotal; bd_A := A; bd_w := w; bd_t := t; bd_min := 0; bd_max := Z.of_nat (n_actionable_features A); bd_actionable := []; bd_x := None; bd_mip := None; bd_sol := None; bd_calls := 0 |}).
  set (b' := {| bd_kind := PyMIP; bd_cost := CTotal; bd_A := A'; bd_w := w'; bd_t := t'; bd_min := 0; bd_max := Z.of_nat (n_actionable_features A'); bd_actionable := []; bd_x := None; bd_mip := None; bd_sol := None; bd_calls := 0 |}).
  assert (HR : narrowed p b x b' x').
  { repeat (split; [assumption|]). split; [reflexivity|]. split; [reflexivity|]. split; [right; cbn; lia|]. split; assumption. }
  split.
  - intros (a & P1 & P2 & P3 & P4). set (u := trim E A w a).
    assert (Q1 : permitted_action A x u) by (now apply trim_permitted). assert (Q4 : on_side (as_y A) (score w t (vadd x u))) by (now apply trim_side).
    assert (Q3 : compliant A x u) by (now apply trim_compliant). assert (Q6 : worthwhile A w u) by (now apply (trim_worthwhile E A w x)).
    assert (Q2 : movable_only A x u).
    { intros j e xj aj He Hx Ha N. assert (Ch : changes a j) by (apply (trim_changes E A w x LW LX a j P1); exists aj; auto). destruct Ch as (aj' & Ha' & N'). exact (P2 j e xj aj' He Hx Ha' N'). }
    destruct (nar_down E p b b' x x' HR W LW LX u Q1 Q6) as [a' HE']. exists a'.
    split; [exact (proj1 (nar_permitted p b b' x x' HR u a' HE') Q1)|]. split; [exact (proj1 (nar_movable p b b' x x' HR u a' HE') Q2)|].
    split; [exact (proj1 (nar_compliant E p b b' x x' HR W W' u a' HE') Q3)|].
    pose proof (nar_score p b b' x x' HR LW LX u a' HE') as K. cbn in K. rewrite K, H6. exact Q4.
  - intros (a' & P1 & P2 & P3 & P4).
    assert (HB : forall j, In j p -> (j < as_len A)%nat) by (exact (nar_bound p b b' x x' HR LW LX)).
    destruct (embeds_up 0 (as_len A) p a' H1 HB) as [a HE']; [rewrite (proj1 P1); exact (nar_len p b b' x x' HR)|]. exists a.
    split; [exact (proj2 (nar_permitted p b b' x x' HR a a' HE') P1)|]. split; [exact (proj2 (nar_movable p b b' x x' HR a a' HE') P2)|].
    split; [exact (proj2 (nar_compliant E p b b' x x' HR W W' a a' HE') P3)|].
    pose proof (nar_score p b b' x x' HR LW LX a a' HE') as K. cbn in K. rewrite <- K, <- H6. exact P4.
Qed.
Lemma fewer_audits {I J} E sv sv' k k' p A A' w w' t t' b b' (X : list (I * list Qc)) (Y : list (J * list Qc)) y c out c' out' :
  ok_env E -> sound_solver sv -> finishing_solver sv -> sound_solver sv' -> finishing_solver sv' -> density E ->
  aset_reachable E A -> current_percentiles A -> aset_reachable E A' -> auditor_used E sv k A w t b -> auditor_used E sv' k' A' w' t' b' -> (0 <? y)%Z = (0 <? as_y A)%Z ->
  narrowed_set p A w A' w' -> audit E sv b (table_of X) y = (c, Ok out) -> audit E sv' b' (table_of Y) y = (c', Ok out') ->
  forall i i' r r' l l', nth_error X i = Some r -> nth_error out i = Some l -> nth_error Y i' = Some r' -> nth_error out' i' = Some l' ->
    rearranged p (snd r) (snd r') -> score w' t' (snd r') = score w t (snd r) -> orderly E A w (snd r) -> orderly E A' w' (snd r') -> denied y (score w t (snd r)) ->
    ((exists v, snd l = Some (true, Fin v)) <-> (exists v, snd l' = Some (true, Fin v))) /\ (snd l = Some (false, PosInf) <-> snd l' = Some (false, PosInf)).
Proof.
  intros HE S F S' F' HD HA HC HA' HU HU' HY HN H H' i i' r r' l l' Hr Hl Hr' Hl' RX HS O O' Den. pose proof HN as (_ & RN & RE & RW & _ & Hy & _).
  assert (HC' : current_percentiles A') by (intros m e He; destruct (rearranged_at _ _ _ _ _ RE He) as (j & Hj & He'); eauto).
  pose proof (c52 E sv k A w t b X y c out HE S F HD HA HC HU HY H) as T. pose proof (c52 E sv' k' A' w' t' b' Y y c' out' HE S' F' HD HA' HC' HU' ltac:(now rewrite Hy) H') as T'.
  apply Forall2_nth in T, T'. destruct T as [_ T], T' as [_ T']. destruct (T i r l Hr Hl O Den) as [T1 T2]. destruct (T' i' r' l' Hr' Hl' O' ltac:(now rewrite HS)) as [T1' T2'].
  destruct (used_fresh _ _ _ _ _ _ _ HA HU) as (HRb & Fr & _).
  apply audit_ok in H. destruct H as (X0 & E0 & _ & HL & _). apply table_inj in E0. subst X0. pose proof (HL r (nth_error_In _ _ Hr)) as LX. rewrite (fr_w _ _ _ _ _ _ _ Fr), (fr_len _ _ _ _ _ _ _ Fr) in LX.
  pose proof (narrowed_reached E p A A' w w' t t' (snd r) (snd r') HE (reachable_wf _ _ HA) (reachable_wf _ _ HA') (fr_len _ _ _ _ _ _ _ Fr) LX HN RX HS) as K.
  assert (Sd : forall s, on_side y s <-> on_side (as_y A) s) by (intro s; unfold on_side; now rewrite HY). assert (Sd' : forall s, on_side y s <-> on_side (as_y A') s) by (intro s; now rewrite Hy).
  unfold reached in K. split.
  - rewrite T1, T1'. split; intros (a & P1 & P2 & P3 & P4).
    + destruct (proj1 K) as (a' & Q1 & Q2 & Q3 & Q4); [exists a; rewrite <- Sd; auto|]. exists a'. rewrite Sd'. auto.
    + destruct (proj2 K) as (a' & Q1 & Q2 & Q3 & Q4); [exists a; rewrite <- Sd'; auto|]. exists a'. rewrite Sd. auto.
  - rewrite T2, T2'. split; intros G a P1 P2 P3 P4.
    + destruct (proj2 K) as (a' & Q1 & Q2 & Q3 & Q4); [exists a; rewrite <- Sd'; auto|]. apply (G a'); auto. now apply Sd.
    + destruct (proj1 K) as (a' & Q1 & Q2 & Q3 & Q4); [exists a; rewrite <- Sd; auto|]. apply (G a'); auto. now apply Sd'.
Qed.
(** ** A case *)
Definition nsetb (p : list nat) (A : action_set) (w : list Qc) (A' : action_set) (w' : list Qc) : bool :=
  rearrangedb String.eqb p (as_names A) (as_names A') && rearrangedb elemb p (as_elems A) (as_elems A') && rearrangedb (fun u v : Qc => u =? v) p w w' && outb p A w && (as_y A' =? as_y A)%Z &&
  (one_limitb p A A' || unconstrainedb A && unconstrainedb A') && onlyb p A.
Lemma nsetb_ok p A w A' w' : NoDup p -> nsetb p A w A' w' = true -> narrowed_set p A w A' w'.
Proof.
  intros HP H. unfold nsetb in H. do 6 (apply andb_true_iff in H; destruct H as [H ?]). split; [exact HP|].
  split; [exact (rearrangedb_ok _ str_ok _ _ _ H)|]. split; [exact (rearrangedb_ok _ elemb_ok _ _ _ H5)|]. split; [exact (rearrangedb_ok _ qeqb_ok _ _ _ H4)|].
  split; [now apply outb_ok|]. split; [now apply Z.eqb_eq|]. split; [|now apply onlyb_ok].
  apply orb_true_iff in H1. destruct H1 as [H1|H1]; [now apply one_limitb_ok|]. apply andb_true_iff in H1. destruct H1 as [U U']. apply unconstrainedb_ok in U, U'. unfold same_limits, stored, unconstrained in *. rewrite U, U'. split; intros ? ? Q; discriminate Q.
Qed.
Definition yes (r : option (list Qc * list Qc * Qc)) : bool := match r with Some _ => true | None => false end.
Lemma one_row sv k A w t b (i : nat) u : aset_reachable env0 A -> auditor_created env0 k A w t b -> sound_solver sv -> finishing_solver sv -> length u = length w -> to_audit w t 1 u = true -> x_test env0 b u yes = true ->
  exists b' v, audit env0 sv b (table_of [(i, u)]) 1 = (b', Ok [(i, Some (true, Fin v))]).
Proof.
  intros HA HC HS HF HL Ho Hx. destruct (auditor_fresh _ _ _ _ _ _ HA HC) as (F & _). pose proof (fr_w _ _ _ _ _ _ _ F) as Ew. pose proof (fr_t _ _ _ _ _ _ _ F) as Et.
  destruct (audit_one env0 sv b [(i, u)] 1 u yes env0_ok HS HF (created_reach _ _ _ _ _ _ _ HA HC)) as (b' & r & g & Hr & Ha & Hg).
  - discriminate.
  - intros p [<-|[]]. rewrite Ew. exact HL.
  - left; reflexivity.
  - exists 0%nat. unfold todo_of. rewrite Ew, Et. cbn [map snd unique_rows]. unfold unique_rows. cbn. cbn in Ho. rewrite Ho. reflexivity.
  - exact Hx.
  - exists b'. cbn [map fst snd] in *. rewrite Hg in Ha by now left. destruct r as [s|]; [|discriminate Hr]. cbn [verdict_of] in Ha. eauto.
Qed.
Definition audits_pre (A A' : action_set) (b b' : builder) : bool :=
  nsetb [0; 1]%nat A [z 1; z 2; z 5; z 0] A' [z 1; z 2] && unconstrainedb A && unconstrainedb A' && currentb A && (as_y A =? 1)%Z && x_test env0 b x012 yes && x_test env0 b' [z 0; z 1] yes.
Lemma audits_case k k' : exists A b A' b', aset_reachable env0 A /\ aset_reachable env0 A' /\ auditor_created env0 k A [z 1; z 2; z 5; z 0] (- z 17) b /\ auditor_created env0 k' A' [z 1; z 2] (- z 7) b' /\
  narrowed_set [0; 1]%nat A [z 1; z 2; z 5; z 0] A' [z 1; z 2] /\ current_percentiles A /\ as_y A = 1%Z /\
  orderly env0 A [z 1; z 2; z 5; z 0] x012 /\ orderly env0 A' [z 1; z 2] [z 0; z 1] /\ denied 1 (score [z 1; z 2; z 5; z 0] (- z 17) x012) /\
  rearranged [0; 1]%nat x012 [z 0; z 1] /\ score [z 1; z 2] (- z 7) [z 0; z 1] = score [z 1; z 2; z 5; z 0] (- z 17) x012 /\
  forall sv, sound_solver sv -> finishing_solver sv ->
    (exists c v, audit env0 sv b (table_of [(4%nat, x012)]) 1 = (c, Ok [(4%nat, Some (true, Fin v))])) /\
    (exists c v, audit env0 sv b' (table_of [(6%nat, [z 0; z 1])]) 1 = (c, Ok [(6%nat, Some (true, Fin v))])).
Proof.
  assert (T : aud_case (sc2d k CMax) (fun A b => ok_and (sc_aset (sc2c k' CMax)) (fun A' => ok_and (mk_auditor env0 k' A' (sc_args [z 1; z 2] (- z 7))) (fun b' => audits_pre A A' b b'))) = true) by (destruct k, k'; vm_compute; reflexivity).
  destruct (aud_case_ok _ _ T) as (A & b & HA & HC & HT). apply ok_and_true in HT. destruct HT as (A' & HA' & HT). apply ok_and_true in HT. destruct HT as (b' & Hb' & HT).
  change (sc_env (sc2d k CMax)) with env0 in *. change (sc_kind (sc2d k CMax)) with k in *. change (sc_w (sc2d k CMax)) with [z 1; z 2; z 5; z 0] in *. change (sc_t (sc2d k CMax)) with (- z 17) in *.
  assert (HC' : auditor_created env0 k' A' [z 1; z 2] (- z 7) b') by (exists (sc_args [z 1; z 2] (- z 7)); split; [exact (coef_parse _ _)|exact Hb']).
  pose proof (sc_aset_reach _ _ HA') as R'. change (sc_env (sc2c k' CMax)) with env0 in R'.
  unfold audits_pre in HT. do 6 (apply andb_true_iff in HT; destruct HT as [HT ?]).
  exists A, b, A', b'. split; [exact HA|]. split; [exact R'|]. split; [exact HC|]. split; [exact HC'|]. split; [apply nsetb_ok; [now apply nodup_nat|exact HT]|].
  split; [now apply currentb_ok|]. split; [now apply Z.eqb_eq|]. split; [now apply unconstrained_orderly, unconstrainedb_ok|]. split; [now apply unconstrained_orderly, unconstrainedb_ok|].
  split; [apply deniedb; vm_compute; reflexivity|]. split; [repeat (constructor; [reflexivity|]); constructor|]. split; [apply Qc_is_canon; vm_compute; reflexivity|].
  intros sv HS HF. split.
  - exact (one_row sv k A _ _ b 4 x012 HA HC HS HF eq_refl eq_refl H0).
  - exact (one_row sv k' A' _ _ b' 6 [z 0; z 1] R' HC' HS HF eq_refl eq_refl H).
Qed.
