(** More lemmas about flipsets: sortedness, the flat table, filing what the builder returns. *)
From Verif Require Import Proofs_props_element Proofs_props_actionset Spec_flipset Proofs_vec Proofs_flipset.
From Verif Require Import Proofs_mip Proofs_info Proofs_build Proofs_enum Proofs_session Proofs_recourse Proofs_exchange Proofs_far Proofs_concrete Proofs_builder Proofs_builder2 Proofs_builder3 Proofs_builder4 Proofs_builder5 Proofs_scen Proofs_scen2 Proofs_builder6 Proofs_builder7 Proofs_builder8.
#[local] Open Scope list_scope.
#[local] Open Scope Qc_scope.

(** ** Sortedness *)
Definition sorted_inv (ks : list column) (f : flipset) : Prop :=
  f_by f = ks /\ f_inplace f = true /\ scalar_keys ks /\ ascending ks (f_df f).
Lemma resort_sorted srt f ks : ok_sorter srt -> f_by f = ks -> f_inplace f = true -> scalar_keys ks ->
  exists d, f_resort srt f = (f_with_items f (f_items f) d, Ok tt) /\ ascending ks d.
Proof.
  intros (S1 & _) E1 E2 HK. unfold f_resort. rewrite E1. destruct (S1 ks (f_df f) HK) as (d & Hd & HA). rewrite Hd, E2. eauto.
Qed.
Lemma resort_inv srt f ks : ok_sorter srt -> f_by f = ks -> f_inplace f = true -> scalar_keys ks -> sorted_inv ks (fst (f_resort srt f)).
Proof. intros S E1 E2 HK. destruct (resort_sorted srt f ks S E1 E2 HK) as (d & -> & HA). repeat split; assumption. Qed.
Lemma add_sorted srt f ks items : ok_sorter srt -> sorted_inv ks f -> sorted_inv ks (fst (f_add srt f items)).
Proof.
  intros S H. pose proof H as (E1 & E2 & HK & HA). unfold f_add. destruct (mapM _ _) as [l|e]; [|exact H]. unfold add_to_df. destruct l as [|v l]; [exact H|].
  destruct (mapM _ _) as [rows|e]; [|exact H]. now apply resort_inv.
Qed.
Lemma sorted_step E sv srt ks f o : ok_sorter srt -> plain_sort o -> sorted_inv ks f ->
  sorted_inv (match requested o with Some ks' => ks' | None => ks end) (flipset_step E sv srt f o).
Proof.
  intros S [P1 P2] H. pose proof S as (S1 & _). pose proof H as (E1 & E2 & HK & HA). destruct o as [fuel total et ct|q|l|]; cbn [flipset_step requested].
  - unfold f_populate. destruct (match f_builder f with Some b => _ | None => _ end) as [b|e]; [|exact H].
    destruct (populate _ _ _ _ _) as [[[b' l]|e]|]; [|exact H|exact H].
    pose proof (add_sorted srt (f_with_builder f (Some b')) ks (map sol_item l) S H) as K. destruct (f_add srt (f_with_builder f (Some b')) (map sol_item l)) as [f' r]. exact K.
  - destruct q as [|names ip ax|names].
    + now apply resort_inv.
    + destruct ip; [|exfalso; exact (P2 names ax eq_refl)]. cbn in P1 |- *. destruct ax.
      * destruct (all_some names) as [[|c ks']|]; try exact H. specialize (P1 _ eq_refl). destruct (S1 _ (f_df f) P1) as (d & Hd & HA'). rewrite Hd. cbn. repeat split; assumption.
      * destruct (all_some names) as [[|c ks']|]; exact H.
    + cbn in P1 |- *. destruct names as [|n names]; [now apply resort_inv|]. cbn -[all_some] in *. destruct (all_some _) as [[|c ks']|]; try exact H.
      specialize (P1 _ eq_refl). destruct (S1 _ (f_df f) P1) as (d & Hd & HA'). rewrite Hd. cbn. repeat split; assumption.
  - now apply add_sorted.
  - unfold to_flat_df. pose proof (resort_inv srt f ks S E1 E2 HK) as K. destruct (f_resort srt f) as [f' [u|e]]; exact K.
Qed.
Lemma sorted_run E sv srt ops : ok_sorter srt -> forall ks f, Forall plain_sort ops -> sorted_inv ks f ->
  sorted_inv (fold_left (fun ks o => match requested o with Some ks' => ks' | None => ks end) ops ks) (flipset_run E sv srt f ops).
Proof.
  intro S. induction ops as [|o ops IH]; intros ks f HP H; [exact H|]. inversion HP; subst. cbn. apply IH; [assumption|]. now apply sorted_step.
Qed.

(** ** The flat table *)
Lemma sorted_unique (l : list nat) : forall l', StronglySorted lt l -> StronglySorted lt l' -> (forall j, In j l <-> In j l') -> l = l'.
Proof.
  induction l as [|a l IH]; intros l' H H' HI.
  - destruct l' as [|b l']; [reflexivity|]. destruct (proj2 (HI b) (or_introl eq_refl)).
  - destruct l' as [|b l']; [destruct (proj1 (HI a) (or_introl eq_refl))|]. inversion H as [|? ? Hs Hf]; inversion H' as [|? ? Hs' Hf']; subst.
    rewrite Forall_forall in Hf, Hf'. assert (a = b) as <-.
    { destruct (proj1 (HI a) (or_introl eq_refl)) as [->|K]; [reflexivity|]. destruct (proj2 (HI b) (or_introl eq_refl)) as [->|K']; [reflexivity|]. specialize (Hf _ K'). specialize (Hf' _ K). lia. }
    f_equal. apply IH; auto. intro j. specialize (HI j). cbn in HI. split; intro K.
    + destruct (proj1 HI (or_intror K)) as [->|]; [|assumption]. specialize (Hf _ K). lia.
    + destruct (proj2 HI (or_intror K)) as [->|]; [|assumption]. specialize (Hf' _ K). lia.
Qed.
Lemma filter_sorted (p : nat -> bool) l : StronglySorted lt l -> StronglySorted lt (filter p l).
Proof.
  induction 1 as [|a l Hs IH Hf]; [constructor|]. cbn. destruct (p a); [|exact IH]. constructor; [exact IH|]. rewrite Forall_forall in *. intros b Hb. apply filter_In in Hb. now apply Hf.
Qed.
Lemma seq_sorted n : forall s, StronglySorted lt (seq s n).
Proof. induction n as [|n IH]; intro s; [constructor|]. cbn. constructor; [apply IH|]. apply Forall_forall. intros b Hb. apply in_seq in Hb. lia. Qed.
Lemma changes_filter a : forall j, In j (filter (fun j => negb (nth j a 0 =? 0)) (seq 0 (length a))) <-> changes a j.
Proof.
  intro j. rewrite filter_In, in_seq. split.
  - intros [H1 H2]. exists (nth j a 0). split; [apply nth_error_nth'; lia|]. apply negb_true_iff in H2. now apply qeq_false.
  - intros (aj & H1 & H2). assert (j < length a)%nat by (apply nth_error_Some; congruence). split; [lia|]. rewrite (nth_error_nth a j 0 H1). apply negb_true_iff. now apply qeq_false.
Qed.
Lemma flat_map_filter {X Y} (p : X -> bool) (g : X -> Y) l : flat_map (fun j => if p j then [] else [g j]) l = map g (filter (fun j => negb (p j)) l).
Proof. induction l as [|j l IH]; [reflexivity|]. cbn. destruct (p j); cbn; now rewrite IH. Qed.
Lemma forall2_nth {X} (l : list X) d js vs : Forall2 (fun j v => nth_error l j = Some v) js vs -> vs = map (fun j => nth j l d) js.
Proof. induction 1 as [|j v js vs H _ IH]; [reflexivity|]. cbn. rewrite IH, (nth_error_nth l j d H). reflexivity. Qed.
Lemma forall2_plus x a js vs : Forall2 (fun j v => exists xj aj, nth_error x j = Some xj /\ nth_error a j = Some aj /\ v = xj + aj) js vs -> vs = map (fun j => nth j x 0 + nth j a 0) js.
Proof. induction 1 as [|j v js vs (xj & aj & H1 & H2 & ->) _ IH]; [reflexivity|]. cbn. now rewrite IH, (nth_error_nth x j 0 H1), (nth_error_nth a j 0 H2). Qed.

(** The lines of one row. *)
Definition row_lines (p : nat * frow) : list flat_line :=
  map (fun q => {| fl_item := fst p; fl_feature := fst (fst q); fl_from := snd (fst q); fl_to := snd q |})
      (combine (combine (r_features (snd p)) (r_x (snd p))) (r_xnew (snd p))).
Lemma combine_map3 {X Y Z W} (f : X -> Y) (g : X -> Z) (h : X -> W) l : combine (combine (map f l) (map g l)) (map h l) = map (fun j => (f j, g j, h j)) l.
Proof. induction l as [|j l IH]; [reflexivity|]. cbn. now rewrite IH. Qed.
Lemma row_lines_change w t x names i r lab : describes w t x names i r -> row_lines (lab, r) = change_lines names x lab (fi_actions i).
Proof.
  intros (_ & _ & _ & H1 & H2 & H3 & H4 & H5 & _). unfold row_lines, change_lines. cbn [fst snd].
  rewrite (forall2_nth _ ""%string _ _ H3), (forall2_nth _ 0 _ _ H4), (forall2_plus _ _ _ _ H5), combine_map3, map_map. cbn [fst snd].
  rewrite (flat_map_filter (fun j => nth j (fi_actions i) 0 =? 0)). f_equal. apply sorted_unique; [exact H1|apply filter_sorted, seq_sorted|]. intro j. now rewrite H2, changes_filter.
Qed.
Lemma describes_lengths w t x names i r : describes w t x names i r -> length (r_features r) = length (r_x r) /\ length (r_x r) = length (r_xnew r).
Proof. intros (_ & _ & _ & _ & _ & H3 & H4 & H5 & _). apply Forall2_length in H3, H4, H5. lia. Qed.

Lemma merge_keys {X Y} (l : list (nat * nat * X)) : forall (r : list (nat * nat * Y)), map fst l = map fst r -> NoDup (map fst l) ->
  merge l r = map (fun p => (fst (fst p), (snd (fst p), snd (snd p)))) (combine l r).
Proof.
  assert (K0 : forall (k1 k2 : nat * nat), Nat.eqb (fst k1) (fst k2) && Nat.eqb (snd k1) (snd k2) = true <-> k1 = k2).
  { intros [a b] [c d]. cbn. rewrite andb_true_iff, !Nat.eqb_eq. split; [intros [-> ->]; reflexivity|intro H; injection H; auto]. }
  assert (KN : forall (a : nat * nat * X) (r : list (nat * nat * Y)), ~ In (fst a) (map fst r) ->
    flat_map (fun b => if Nat.eqb (fst (fst a)) (fst (fst b)) && Nat.eqb (snd (fst a)) (snd (fst b)) then [(fst a, (snd a, snd b))] else []) r = []).
  { intros a r H. induction r as [|b r IH]; [reflexivity|]. cbn [flat_map]. destruct (_ && _) eqn:E; [apply K0 in E; exfalso; apply H; left; now rewrite E|]. apply IH. intro Q. apply H. now right. }
  induction l as [|a l IH]; intros [|b r] H ND; try discriminate H; [reflexivity|]. cbn in H. injection H as Hab Hr. inversion ND as [|? ? NI ND']; subst.
  unfold merge. cbn [flat_map]. rewrite (proj2 (K0 (fst a) (fst b)) Hab). rewrite KN by (rewrite <- Hr; exact NI). cbn [combine map fst snd app]. f_equal.
  rewrite <- (IH r Hr ND'). unfold merge. assert (KB : forall a', In a' l -> Nat.eqb (fst (fst a')) (fst (fst b)) && Nat.eqb (snd (fst a')) (snd (fst b)) = false).
  { intros a' Ha'. destruct (_ && _) eqn:E; [|reflexivity]. apply K0 in E. exfalso. apply NI. rewrite Hab, <- E. now apply in_map. }
  clear -KB. induction l as [|a' l IH]; [reflexivity|]. cbn [flat_map]. rewrite (KB a' (or_introl eq_refl)). cbn [app]. f_equal. apply IH. intros a2 H2. apply KB. now right.
Qed.
Lemma explode_keys {X Y} (g : frow -> list X) (h : frow -> list Y) d : (forall p, In p d -> length (g (snd p)) = length (h (snd p))) -> map fst (explode g d) = map fst (explode h d).
Proof.
  intro H. induction d as [|p d IH]; [reflexivity|]. unfold explode in *. cbn [flat_map]. rewrite !map_app, IH by (intros q Hq; apply H; now right). f_equal. rewrite !map_map. cbn [fst].
  pose proof (H p (or_introl eq_refl)) as HL. generalize 0%nat. revert HL. generalize (h (snd p)). induction (g (snd p)) as [|a l IHl]; intros [|b r] HL s; try discriminate HL; [reflexivity|]. cbn. f_equal. apply IHl. cbn in HL. lia.
Qed.
Lemma explode_nodup {X} (g : frow -> list X) d : NoDup (map fst d) -> NoDup (map fst (explode g d)).
Proof.
  induction d as [|p d IH]; intro H; [constructor|]. cbn in H. inversion H as [|? ? NI ND]; subst. unfold explode. cbn [flat_map]. rewrite map_app.
  assert (K1 : forall l s, map fst (map (fun q : nat * X => (fst p, fst q, snd q)) (combine (seq s (length l)) l)) = map (pair (fst p)) (seq s (length l))).
  { induction l as [|a l IHl]; intro s; [reflexivity|]. cbn. now rewrite IHl. }
  rewrite K1.
  assert (KI : forall q, In q (map fst (explode g d)) -> In (fst q) (map fst d)).
  { clear. intros q Hq. apply in_map_iff in Hq. destruct Hq as (u & <- & Hu). unfold explode in Hu. apply in_flat_map in Hu. destruct Hu as (p & Hp & Hu). apply in_map_iff in Hu. destruct Hu as (v & <- & _). cbn. now apply in_map. }
  fold (explode g d). specialize (IH ND). revert IH KI. generalize (map fst (explode g d)). intros L HL KI. generalize 0%nat.
  induction (length (g (snd p))) as [|n IHn]; intro s; [exact HL|]. cbn. constructor; [|apply IHn]. rewrite in_app_iff. intros [K|K].
  - apply in_map_iff in K. destruct K as (j & Hj & Hin). injection Hj as <-. apply in_seq in Hin. lia.
  - apply KI in K. cbn in K. contradiction.
Qed.
Lemma combine_app_eq {U V} (a a' : list U) (b b' : list V) : length a = length b -> combine (a ++ a') (b ++ b') = combine a b ++ combine a' b'.
Proof. revert b. induction a as [|u a IHa]; intros [|v b] Q; try discriminate Q; [reflexivity|]. cbn. f_equal. apply IHa. cbn in Q. lia. Qed.
Lemma merge_explode {X Y} (g : frow -> list X) (h : frow -> list Y) d : NoDup (map fst d) -> (forall p, In p d -> length (g (snd p)) = length (h (snd p))) ->
  merge (explode g d) (explode h d) = explode (fun r => combine (g r) (h r)) d.
Proof.
  intros ND HL. rewrite merge_keys; [|now apply explode_keys|now apply explode_nodup]. clear ND. induction d as [|p d IH]; [reflexivity|].
  unfold explode in *. cbn [flat_map]. pose proof (HL p (or_introl eq_refl)) as H0.
  rewrite combine_app_eq by (rewrite !map_length, !combine_length, !seq_length; lia). rewrite map_app, IH by (intros q Hq; apply HL; now right). f_equal.
  revert H0. generalize (h (snd p)). generalize 0%nat. induction (g (snd p)) as [|u l IHl]; intros s [|v l'] Q; try discriminate Q; [reflexivity|]. cbn. f_equal. apply IHl. cbn in Q. lia.
Qed.
Lemma flat_lines_rows d : NoDup (map fst d) -> (forall p, In p d -> length (r_features (snd p)) = length (r_x (snd p)) /\ length (r_x (snd p)) = length (r_xnew (snd p))) ->
  flat_lines d = flat_map row_lines d.
Proof.
  intros ND HL. unfold flat_lines.
  rewrite merge_explode; [|exact ND|intros p Hp; apply (HL p Hp)]. rewrite merge_explode; [|exact ND|intros p Hp; destruct (HL p Hp); rewrite combine_length; lia].
  clear ND HL. unfold explode. induction d as [|p d IH]; [reflexivity|]. cbn [flat_map]. rewrite map_app, IH. f_equal. unfold row_lines. rewrite map_map. cbn [fst snd].
  generalize (combine (combine (r_features (snd p)) (r_x (snd p))) (r_xnew (snd p))). generalize 0%nat. intros s l. revert s. induction l as [|u l IHl]; intro s; [reflexivity|]. cbn. f_equal. apply IHl.
Qed.
Lemma relabel_fst rows : map fst (relabel rows) = seq 0 (length rows).
Proof. unfold relabel. generalize 0%nat. induction rows as [|r rows IH]; intro s; [reflexivity|]. cbn. now rewrite IH. Qed.
Lemma relabel_in p rows : In p (relabel rows) -> In (snd p) rows.
Proof. intro H. rewrite <- (relabel_snd rows). now apply in_map. Qed.

Lemma flat_lines_change w t x names its rows d : Forall2 (describes w t x names) its rows -> Permutation d (relabel rows) ->
  Permutation (flat_lines d) (flat_map (fun p => change_lines names x (fst p) (fi_actions (snd p))) (combine (seq 0 (length its)) its)).
Proof.
  intros H P. rewrite flat_lines_rows.
  - rewrite P. unfold relabel. assert (HLr : length its = length rows) by (eapply Forall2_length; exact H). rewrite <- HLr. clear P HLr. generalize 0%nat. induction H as [|i r its rows Hi H IH]; intro s; [constructor|].
    cbn [length seq combine flat_map fst snd]. rewrite (row_lines_change _ _ _ _ _ _ s Hi). apply Permutation_app_head. apply IH.
  - rewrite P. rewrite relabel_fst. apply seq_NoDup.
  - intros p Hp. rewrite P in Hp. apply relabel_in in Hp. clear -H Hp. induction H as [|i r its rows Hi H IH]; [destruct Hp|]. destruct Hp as [<-|Hp]; [eapply describes_lengths; eauto|auto].
Qed.
