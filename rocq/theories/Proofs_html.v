(** Proofs for C110: HTML pages. *)
From Verif Require Import Spec_html Spec_audit Proofs_num Proofs_actionset Proofs_flipset Proofs_flipset2 Proofs_flipset3 Proofs_flipset4 Proofs_builder6 Proofs_builder7 Proofs_agree Proofs_concrete Proofs_scen Proofs_builder8.
#[local] Open Scope string_scope.
#[local] Open Scope list_scope.
#[local] Open Scope Qc_scope.

Lemma show_value q : cell_value (show_cell q) = q.
Proof. unfold show_cell. destruct (qz (qtrunc q) =? q) eqn:H; [|reflexivity]. apply qeq_iff in H. exact H. Qed.
Lemma show_tidy q : tidy (show_cell q).
Proof.
  unfold show_cell. destruct (qz (qtrunc q) =? q) eqn:H; [exact I|]. cbn. intros n ->.
  assert (K : (qz (qtrunc (qz n)) =? qz n) = true). { apply qeq_iff. f_equal. unfold qtrunc. destruct (0 <=? qz n); [apply qfloor_qz|apply qceil_qz]. }
  congruence.
Qed.

Lemma rows_say lines : forall seen, map row_says (html_rows seen lines) = lines.
Proof. induction lines as [|[a b c d] r IH]; intro seen; [reflexivity|]. cbn [html_rows map]. rewrite IH. unfold row_says. cbn. now rewrite !show_value. Qed.
Lemma rows_tidy lines : forall seen r, In r (html_rows seen lines) -> tidy (hr_from r) /\ tidy (hr_to r).
Proof. induction lines as [|l ls IH]; intros seen r H; [destruct H|]. destruct H as [<-|H]; [split; apply show_tidy|eauto]. Qed.
(** The rows of item i are numbered 1, 2, ...: [numbers]. *)
Definition numbers (i : nat) (rows : list html_row) : list nat := map (fun r => snd (hr_label r)) (filter (fun r => Nat.eqb (fst (hr_label r)) i) rows).
Lemma rows_numbers lines i : forall seen, numbers i (html_rows seen lines) = seq (S (count_occ Nat.eq_dec seen i)) (length (numbers i (html_rows seen lines))).
Proof.
  unfold numbers. induction lines as [|l ls IH]; intro seen; [reflexivity|]. cbn [html_rows filter hr_label fst]. destruct (Nat.eqb (fl_item l) i) eqn:H.
  - apply Nat.eqb_eq in H. cbn [map length seq hr_label snd]. rewrite H. f_equal. rewrite (IH (i :: seen)) at 1. cbn [count_occ]. destruct (Nat.eq_dec i i); [reflexivity|congruence].
  - apply Nat.eqb_neq in H. rewrite (IH (fl_item l :: seen)) at 1. cbn [count_occ]. destruct (Nat.eq_dec (fl_item l) i); [congruence|reflexivity].
Qed.
Lemma rows_fresh lines : forall seen r, In r (html_rows seen lines) -> (count_occ Nat.eq_dec seen (fst (hr_label r)) < snd (hr_label r))%nat.
Proof.
  induction lines as [|l ls IH]; intros seen r H; [destruct H|]. destruct H as [<-|H]; [cbn; lia|]. specialize (IH _ _ H). cbn [count_occ] in IH. destruct (Nat.eq_dec (fl_item l) (fst (hr_label r))); lia.
Qed.
Lemma rows_nodup lines : forall seen, NoDup (map hr_label (html_rows seen lines)).
Proof.
  induction lines as [|l ls IH]; intro seen; [constructor|]. cbn [html_rows map hr_label]. constructor; [|apply IH]. intro H. apply in_map_iff in H. destruct H as (r & Hr & H). apply rows_fresh in H. rewrite Hr in H. cbn in H. destruct (Nat.eq_dec (fl_item l) (fl_item l)); [lia|congruence].
Qed.
Lemma distinct_ok ls : distinct_labels ls = true <-> NoDup ls.
Proof.
  induction ls as [|[a b] r IH]; [split; [constructor|reflexivity]|]. cbn [distinct_labels]. rewrite andb_true_iff, negb_true_iff, IH. split.
  - intros [H1 H2]. constructor; [|exact H2]. intro K. assert (Q : existsb (fun m => Nat.eqb (fst (a, b)) (fst m) && Nat.eqb (snd (a, b)) (snd m)) r = true) by (apply existsb_exists; exists (a, b); split; [exact K|]; cbn; now rewrite !Nat.eqb_refl). congruence.
  - intro H. inversion H as [|? ? H1 H2]; subst. split; [|exact H2]. apply not_true_iff_false. intro K. apply existsb_exists in K. destruct K as ([c d] & K1 & K2). cbn in K2. apply andb_true_iff in K2. destruct K2 as [K2 K3]. apply Nat.eqb_eq in K2, K3. subst. contradiction.
Qed.
Lemma rows_colour lines : forall seen r, In r (html_rows seen lines) -> hr_colour r = row_colour (hr_label r).
Proof. induction lines as [|l ls IH]; intros seen r H; [destruct H|]. destruct H as [<-|H]; [reflexivity|eauto]. Qed.

Lemma to_html_unfold srt order f f' r : to_html srt order f = (f', r) -> exists r0, to_flat_df srt order f = (f', r0) /\ r = match r0 with Err e => Err e | Ok None => Ok NoRecourse | Ok (Some lines) => Ok (Page (html_rows [] lines)) end.
Proof.
  unfold to_html. destruct (to_flat_df srt order f) as [f1 r0]. intro H. injection H as <- <-. exists r0. split; [reflexivity|]. destruct r0 as [[lines|]|e]; try reflexivity.
  rewrite (proj2 (distinct_ok _) (rows_nodup lines [])). reflexivity.
Qed.

(** Every item of a flipset changes something. *)
Lemma items_resort srt f : f_items (fst (f_resort srt f)) = f_items f.
Proof. unfold f_resort. destruct (srt _ _); [|reflexivity]. cbn. now destruct (f_inplace f). Qed.
Section Items.
Context (E : env) (sv : solver) (srt : sorter) (k : backend) (A : action_set) (x w : list Qc) (t : Qc).
Context (HLx : length x = as_len A) (HLw : length w = as_len A).
Definition busy (v : fitem) : Prop := exists j, changes (fi_actions v) j.
Lemma busy_add f items : frame k A x w t f -> Forall busy (f_items f) -> Forall busy (f_items (fst (f_add srt f items))).
Proof.
  intros F H. destruct (mapM (validate_item f) items) as [l|e] eqn:Ev; [|rewrite (add_err srt f items e Ev); exact H].
  apply (validated_filable k A x w t HLx HLw eq_refl f items l F) in Ev. destruct (add_ok k A x w t HLx HLw eq_refl srt f items l F Ev) as (rows & _ & ->).
  assert (B : Forall busy l). { clear -Ev. induction Ev as [|i v items l ((_ & _ & _ & _ & B & _) & _) _ IH]; constructor; assumption. }
  destruct l as [|v l]; [cbn; now rewrite app_nil_r|]. rewrite items_resort. cbn [f_items f_with_items]. apply Forall_app. split; assumption.
Qed.
Lemma busy_step f o : frame k A x w t f -> Forall busy (f_items f) -> Forall busy (f_items (flipset_step E sv srt f o)).
Proof.
  intros F H. destruct o as [fuel total et ct|q|l|]; cbn [flipset_step].
  - unfold f_populate. destruct (match f_builder f with Some b => _ | None => _ end) as [b|e]; [|exact H]. destruct (populate _ _ _ _ _) as [[[b' l]|e]|]; try exact H.
    pose proof (busy_add (f_with_builder f (Some b')) (map sol_item l) (frame_builder _ _ _ _ _ _ _ F) H) as K. destruct (f_add srt (f_with_builder f (Some b')) (map sol_item l)). exact K.
  - destruct q as [|names ip ax|names]; [cbn [f_sort]; now rewrite items_resort| |].
    + cbn. destruct (all_some names) as [[|c ks]|]; try exact H. destruct ax; [|exact H]. destruct (srt _ _); [|exact H]. cbn. destruct ip; exact H.
    + destruct names as [|n names]; [cbn [f_sort]; now rewrite items_resort|]. cbn -[all_some]. destruct (all_some _) as [[|c ks]|]; try exact H. destruct (srt _ _); exact H.
  - now apply busy_add.
  - unfold to_flat_df. pose proof (items_resort srt f) as K. destruct (f_resort srt f) as [f' [u|e]]; cbn [fst] in *; now rewrite K.
Qed.
Lemma busy_reachable ob f : flipset_reachable E sv srt k A x w t ob f -> Forall busy (f_items f).
Proof.
  intros (f0 & ops & H & ->). destruct (frame_created _ _ _ _ _ _ _ H) as (F & E1 & _).
  assert (K : Forall busy (f_items f0)) by (rewrite E1; constructor). clear H E1. revert f0 F K. induction ops as [|o ops IH]; intros f0 F K; [exact K|]. cbn. apply IH; [now apply frame_step|now apply busy_step].
Qed.
End Items.

Lemma busy_lines names x lab a : (exists j, changes a j) -> exists l, In l (change_lines names x lab a) /\ fl_item l = lab.
Proof.
  intros (j & Hj). unfold changes in Hj. destruct Hj as (aj & Hj & Hn). eexists. split.
  - unfold change_lines. apply in_flat_map. exists j. split; [apply in_seq; assert (j < length a)%nat by (apply nth_error_Some; congruence); lia|].
    rewrite (nth_error_nth a j 0 Hj). destruct (aj =? 0) eqn:Q; [apply qeq_iff in Q; contradiction|]. left. reflexivity.
  - reflexivity.
Qed.
Lemma change_items names x lab a l : In l (change_lines names x lab a) -> fl_item l = lab.
Proof. intro H. apply in_flat_map in H. destruct H as (j & _ & H). destruct (nth j a 0 =? 0); [destruct H|destruct H as [<-|[]]; reflexivity]. Qed.

Lemma sorted_split (l : list flat_line) i a b c d : StronglySorted (fun a b => (fl_item a <= fl_item b)%nat) l -> nth_error l i = Some a -> nth_error l (S i) = Some b -> In c l -> fl_item c = d -> (d <= fl_item a \/ fl_item b <= d)%nat.
Proof.
  intros HS. revert i. induction HS as [|h l HS IH HF]; intros i Ha Hb Hc Hd; [destruct Hc|]. rewrite Forall_forall in HF. destruct i as [|i].
  - cbn in Ha. injection Ha as ->. destruct Hc as [<-|Hc]; [left; lia|]. cbn in Hb. destruct l as [|b' l]; [discriminate Hb|]. cbn in Hb. injection Hb as ->.
    destruct Hc as [<-|Hc]; [right; lia|]. inversion HS as [|? ? _ HF2]; subst. rewrite Forall_forall in HF2. right. now apply HF2.
  - cbn in Ha, Hb. destruct Hc as [<-|Hc]; [|eapply IH; eauto]. left. rewrite <- Hd. apply HF. eapply nth_error_In. exact Ha.
Qed.
Lemma html_label_items lines : forall seen, map (fun r => fst (hr_label r)) (html_rows seen lines) = map fl_item lines.
Proof. induction lines as [|l ls IH]; intro seen; [reflexivity|]. cbn. now rewrite IH. Qed.

Lemma rows_banded names x its lines : StronglySorted (fun a b => (fl_item a <= fl_item b)%nat) lines -> Forall busy its ->
  Permutation lines (flat_map (fun p => change_lines names x (fst p) (fi_actions (snd p))) (combine (seq 0 (length its)) its)) -> banded (html_rows [] lines).
Proof.
  intros HS HB HP i r r' H H'.
  assert (L : forall n q, nth_error (html_rows [] lines) n = Some q -> exists l, nth_error lines n = Some l /\ fl_item l = fst (hr_label q)).
  { intros n q Q. pose proof (map_nth_error (fun r => fst (hr_label r)) n _ Q) as M. rewrite html_label_items in M. rewrite nth_error_map in M. destruct (nth_error lines n) as [l|]; [|discriminate M]. exists l. cbn in M. split; [reflexivity|congruence]. }
  destruct (L _ _ H) as (l & Hl & El). destruct (L _ _ H') as (l' & Hl' & El'). rewrite (rows_colour _ _ _ (nth_error_In _ _ H)), (rows_colour _ _ _ (nth_error_In _ _ H')). unfold row_colour. rewrite <- El, <- El'.
  split; [|intros ->; reflexivity]. intro HC.
  assert (Le : (fl_item l <= fl_item l')%nat).
  { clear -HS Hl Hl'. revert i Hl Hl'. induction HS as [|h t HS IH HF]; intros i Hl Hl'; [destruct i; discriminate Hl|]. destruct i as [|i]; [|cbn in Hl, Hl'; eauto]. cbn in Hl, Hl'. injection Hl as <-. rewrite Forall_forall in HF. apply HF. destruct t; [discriminate Hl'|]. cbn in Hl'. injection Hl' as <-. now left. }
  destruct (Nat.eq_dec (fl_item l) (fl_item l')) as [|Ne]; [assumption|]. exfalso.
  assert (In l' lines) as I' by (eapply nth_error_In; eauto). rewrite HP in I'. apply in_flat_map in I'. destruct I' as ([m v] & I1 & I2). apply change_items in I2. cbn [fst] in I2.
  assert (B : (m < length its)%nat). { apply in_combine_l in I1. apply in_seq in I1. lia. }
  destruct (Nat.eq_dec (fl_item l') (S (fl_item l))) as [Eq|Ne2].
  - rewrite Eq in HC. destruct (Nat.eqb (fl_item l mod 2) 1) eqn:Q1, (Nat.eqb (S (fl_item l) mod 2) 1) eqn:Q2; try discriminate HC.
    + apply Nat.eqb_eq in Q1, Q2. pose proof (Nat.div_mod (fl_item l) 2 ltac:(lia)). pose proof (Nat.div_mod (S (fl_item l)) 2 ltac:(lia)). lia.
    + apply Nat.eqb_neq in Q1, Q2. pose proof (Nat.div_mod (fl_item l) 2 ltac:(lia)). pose proof (Nat.div_mod (S (fl_item l)) 2 ltac:(lia)). pose proof (Nat.mod_upper_bound (fl_item l) 2 ltac:(lia)). pose proof (Nat.mod_upper_bound (S (fl_item l)) 2 ltac:(lia)). lia.
  - set (d := S (fl_item l)). assert (Hd : (d < length its)%nat) by (unfold d; lia). destruct (nth_error its d) as [v'|] eqn:Hv; [|apply nth_error_None in Hv; lia].
    rewrite Forall_forall in HB. destruct (busy_lines names x d (fi_actions v') (HB _ (nth_error_In _ _ Hv))) as (c & C1 & C2).
    assert (In c lines) as Ic. { rewrite HP. apply in_flat_map. exists (d, v'). split; [|exact C1]. apply (nth_error_In _ d). clear -Hd Hv. revert d Hd Hv.
      assert (G : forall (ll : list fitem) s d v, nth_error ll d = Some v -> nth_error (combine (seq s (length ll)) ll) d = Some ((s + d)%nat, v)).
      { clear. induction ll as [|h ll IH]; intros s d v Hv; [destruct d; discriminate Hv|]. destruct d as [|d]; cbn in Hv |- *; [injection Hv as ->; now rewrite Nat.add_0_r|]. rewrite (IH (S s) d v Hv). do 2 f_equal. lia. }
      intros d Hd Hv. exact (G its 0%nat d v' Hv). }
    destruct (sorted_split lines i l l' c d HS Hl Hl' Ic C2); unfold d in *; lia.
Qed.

Lemma html_table E sv srt k A x w t ob f order f' p : ok_sorter srt -> length x = as_len A -> length w = as_len A -> flipset_reachable E sv srt k A x w t ob f -> ok_order order ->
  to_html srt order f = (f', Ok p) ->
  (f_items f = [] /\ p = NoRecourse) \/
  exists rows its, p = Page rows /\ f_items f <> [] /\ Permutation its (f_items f) /\
    Permutation (map row_says rows) (flat_map (fun q => change_lines (as_names A) x (fst q) (fi_actions (snd q))) (combine (seq 0 (length its)) its)) /\
    (forall r, In r rows -> tidy (hr_from r) /\ tidy (hr_to r)) /\ NoDup (map hr_label rows) /\ banded rows /\
    forall i, map (fun r => snd (hr_label r)) (filter (fun r => Nat.eqb (fst (hr_label r)) i) rows) = seq 1 (length (filter (fun r => Nat.eqb (fst (hr_label r)) i) rows)).
Proof.
  intros HS HLx HLw HF HO H. destruct (to_html_unfold _ _ _ _ _ H) as (r0 & Hr & Hp). destruct r0 as [o|e]; [|discriminate Hp].
  destruct (c57 E sv srt k A x w t ob f HS HLx HLw HF order HO f' _ Hr ltac:(discriminate)) as [[Z1 Z2]|(lines & its & Q1 & Q2 & Q3 & Q4)].
  - left. split; [exact Z1|]. injection Z2 as ->. congruence.
  - right. injection Q1 as ->. injection Hp as ->. exists (html_rows [] lines), its. split; [reflexivity|]. pose proof (busy_reachable E sv srt k A x w t HLx HLw ob f HF) as HB.
    assert (HB' : Forall busy its) by (rewrite Forall_forall in *; intros v Hv; apply HB; now rewrite <- Q2).
    split. { intro Z. unfold to_flat_df in Hr. pose proof (inv_resort A x w t srt f HS (fl_inv E sv srt k A x w t ob f HS HLx HLw HF)) as K. pose proof (items_resort srt f) as KI. destruct (f_resort srt f) as [f1 [u|e]]; [|discriminate Hr]. cbn [fst] in K, KI. injection Hr as _ Hr.
      destruct K as (_ & its2 & rows & K1 & K2 & K3). rewrite KI, Z in K1. apply Permutation_sym, Permutation_nil in K1. subst its2. inversion K2; subst. apply Permutation_sym, Permutation_nil in K3. rewrite K3 in Hr. discriminate Hr. }
    split; [exact Q2|]. split; [rewrite rows_say; exact Q4|]. split; [apply rows_tidy|]. split; [apply rows_nodup|]. split; [eapply rows_banded; eauto|].
    intro i. pose proof (rows_numbers lines i []) as N. unfold numbers in N. rewrite map_length in N. exact N.
Qed.
(** It always gives a page while the table is sorted by scalar columns. *)
Lemma html_total srt order f : ok_sorter srt -> scalar_keys (f_by f) -> exists f' p, to_html srt order f = (f', Ok p).
Proof.
  intros (S1 & _) HK. destruct (to_html srt order f) as [f' r] eqn:H. destruct (to_html_unfold _ _ _ _ _ H) as (r0 & Hr & ->). unfold to_flat_df, f_resort in Hr. destruct (S1 (f_by f) (f_df f) HK) as (d & Hd & _). rewrite Hd in Hr. injection Hr as _ <-. exists f'. destruct (f_df _); eauto.
Qed.

(** ** The message *)
Lemma message_ok E sv srt k A x w t fuel total et ct f f1 order f2 p : ok_env E -> sound_solver sv -> finishing_solver sv -> ok_sorter srt -> ok_order order -> density E -> log_ok E ct ->
  aset_reachable E A -> current_percentiles A -> alignment_known A = false \/ flips_match A w -> orderly E A w x -> denied (as_y A) (score w t x) ->
  flipset_created k A x w t None f -> total <> Some 0%nat -> (2 ^ as_len A < fuel)%nat -> f_populate E sv srt fuel total et ct f = Some (f1, Ok tt) -> to_html srt order f1 = (f2, Ok p) ->
  (p = NoRecourse <-> forall a, permitted_action A x a -> movable_only A x a -> compliant A x a -> ~ on_side (as_y A) (score w t (vadd x a))).
Proof.
  intros HE HS HF HSr HO HD HL HA HC HFl HOr D HCr HT Hfu HP HH.
  assert (FR : flipset_reachable E sv srt k A x w t None f) by (exists f, []; split; [exact HCr|reflexivity]).
  assert (F0 : f_builder f = None /\ f_items f = [] /\ scalar_keys (f_by f)). { destruct HCr as (a & Pa & HCr). unfold mk_flipset in HCr. rewrite Pa in HCr. cbn [bind] in HCr. injection HCr as <-. repeat split. }
  destruct F0 as (F1 & F2 & F3).
  destruct (c45 E sv srt k A x w t f fuel total et ct HE HS HSr HA FR D F3 HT Hfu) as [(e & _ & _ & K)|(b0 & b1 & l & f1' & K1 & K2 & K3 & K4 & K5)]; [rewrite K in HP; discriminate HP|].
  rewrite K3 in HP. injection HP as <-. destruct K1 as [K1|[_ K1]]; [congruence|].
  destruct (fresh_verdict E sv k A (coef_args w t) ct w t x b0 HE HS HF HD HL HA (coef_parse _ _) K1 HOr HFl HC D) as (b2 & r & Hf & Hr).
  pose proof (populate_first _ _ _ _ _ _ _ _ _ K2 Hf) as PF. rewrite F2 in K4. cbn [app] in K4.
  assert (FR1 : flipset_reachable E sv srt k A x w t None f1').
  { exists f, [FPopulate fuel total et ct]. split; [exact HCr|]. cbn. now rewrite K3. }
  assert (HLw : length x = as_len A /\ length w = as_len A).
  { destruct (created_own E sv k A x w t ct b0 HA K1) as (c & Fc & (_ & Hx)). destruct (set_x_ok _ _ _ _ Hx) as (ms & EL & _). pose proof (fr_len _ _ _ _ _ _ _ Fc) as L1. pose proof (fr_w _ _ _ _ _ _ _ Fc) as L2. rewrite L2 in *. split; congruence. }
  destruct HLw as [HLx HLw].
  destruct (html_table E sv srt k A x w t None f1' order f2 p HSr HLx HLw FR1 HO HH) as [[Z ->]|(rows & its & -> & Z & _)].
  - rewrite K4 in Z. destruct r as [s|]; [destruct PF as (l' & ->); discriminate Z|]. split; [intros _; exact Hr|reflexivity].
  - split; [discriminate|]. intro N. exfalso. destruct r as [s|]; [|subst l; rewrite K4 in Z; now apply Z]. destruct Hr as (R1 & R0 & R2 & R3). exact (N _ R1 R0 R3 R2).
Qed.

Lemma plain_orderly E A w x : unconstrained A -> orderly E A w x.
Proof.
  intro H. assert (N : forall j, ~ constrained_at A j). { intros j (id & c & Hc & _). unfold unconstrained in H. unfold stored in Hc. rewrite H in Hc. discriminate Hc. }
  split; [intros j i e wi xi Hj; destruct (N _ Hj)|intros j e xj Hj; destruct (N _ Hj)].
Qed.
Lemma html_empty srt order k A x w t f : ok_sorter srt -> flipset_created k A x w t None f -> exists f', to_html srt order f = (f', Ok NoRecourse).
Proof.
  intros (_ & _ & _ & S4) (a & Pa & HCr). unfold mk_flipset in HCr. rewrite Pa in HCr. cbn [bind] in HCr. injection HCr as <-. unfold to_html, to_flat_df, f_resort. cbn [f_by f_df]. rewrite S4. cbn [f_inplace f_df f_with_items]. eexists. reflexivity.
Qed.
Lemma message_refuted : exists A f, aset_reachable env0 A /\ flipset_created PyMIP A x01 [z 1; z 1] (- z 3) None f /\ as_y A = 1%Z /\ denied 1 (score [z 1; z 1] (- z 3) x01) /\
  forall srt order, ok_sorter srt -> (exists f', to_html srt order f = (f', Ok NoRecourse)) /\
    forall sv fuel et ct, sound_solver sv -> finishing_solver sv -> (2 ^ as_len A < fuel)%nat -> exists f', f_populate env0 sv srt fuel None et ct f = Some (f', Ok tt) /\ f_items f' <> [].
Proof.
  destruct (agree_case (- z 3) true ltac:(left; split; reflexivity)) as (A & b & f & HA & HC & HU & HCu & HAl & HY & HG & HD & HCr & H). exists A, f. split; [exact HA|]. split; [exact HCr|]. split; [exact HY|]. split; [exact HD|].
  intros srt order HSr. split; [eapply html_empty; eauto|]. intros sv fuel et ct HS HF Hfu. destruct (H sv HS HF) as ((b' & v & Ha) & Hp). destruct (Hp srt fuel et ct HSr Hfu) as (f' & Hf). exists f'. split; [exact Hf|].
  assert (HUs : auditor_used env0 sv PyMIP A [z 1; z 1] (- z 3) b) by (exists b, []; split; [exact HC|split; [intros o []|reflexivity]]).
  pose proof (agree_verdict env0 sv sv srt PyMIP PyMIP A [z 1; z 1] (- z 3) b [(5%nat, x01)] 1 b' _ fuel None et ct env0_ok HS HF HS HF HSr env0_density (fun _ => env0_log) HA HCu (or_introl HAl) HUs ltac:(now rewrite HY) Ha ltac:(discriminate) Hfu) as K.
  inversion K as [|? ? ? ? K1 _]; subst. cbn [snd] in K1. destruct (K1 (plain_orderly _ _ _ _ HU) HD f f' HCr Hf) as [K2 K3].
  intro Z. apply K3 in Z. discriminate Z.
Qed.
Lemma message_case t0 (fe : bool) : (t0 = - z 3 /\ fe = true) \/ (t0 = - z 7 /\ fe = false) -> exists A f, aset_reachable env0 A /\ current_percentiles A /\ alignment_known A = false /\ orderly env0 A [z 1; z 1] x01 /\ fits_grids A x01 /\ denied (as_y A) (score [z 1; z 1] t0 x01) /\
  flipset_created PyMIP A x01 [z 1; z 1] t0 None f /\
  forall sv srt order fuel et ct, sound_solver sv -> finishing_solver sv -> ok_sorter srt -> ok_order order -> (2 ^ as_len A < fuel)%nat -> exists f1 f2 p, f_populate env0 sv srt fuel None et ct f = Some (f1, Ok tt) /\ to_html srt order f1 = (f2, Ok p) /\ (p = NoRecourse <-> fe = false).
Proof.
  intro HT. destruct (agree_case t0 fe HT) as (A & b & f & HA & HC & HU & HCu & HAl & HY & HG & HD & HCr & H). exists A, f. split; [exact HA|]. split; [exact HCu|]. split; [exact HAl|]. split; [now apply plain_orderly|]. split; [exact HG|]. split; [now rewrite HY|]. split; [exact HCr|].
  intros sv srt order fuel et ct HS HF HSr HO Hfu. destruct (H sv HS HF) as ((b' & v & Ha) & Hp). destruct (Hp srt fuel et ct HSr Hfu) as (f1 & Hf).
  assert (HUs : auditor_used env0 sv PyMIP A [z 1; z 1] t0 b) by (exists b, []; split; [exact HC|split; [intros o []|reflexivity]]).
  pose proof (agree_verdict env0 sv sv srt PyMIP PyMIP A [z 1; z 1] t0 b [(5%nat, x01)] 1 b' _ fuel None et ct env0_ok HS HF HS HF HSr env0_density (fun _ => env0_log) HA HCu (or_introl HAl) HUs ltac:(now rewrite HY) Ha ltac:(discriminate) Hfu) as K.
  inversion K as [|? ? ? ? K1 _]; subst. cbn [snd] in K1. destruct (K1 (plain_orderly _ _ _ _ HU) HD f f1 HCr Hf) as [K2 K3]. clear K K1.
  assert (FR0 : flipset_reachable env0 sv srt PyMIP A x01 [z 1; z 1] t0 None f) by (exists f, []; split; [exact HCr|reflexivity]).
  assert (FR : flipset_reachable env0 sv srt PyMIP A x01 [z 1; z 1] t0 None f1) by (exists f, [FPopulate fuel None et ct]; split; [exact HCr|]; cbn; now rewrite Hf).
  assert (F3 : scalar_keys (f_by f)). { destruct HCr as (a & Pa & HCr). unfold mk_flipset in HCr. rewrite Pa in HCr. cbn [bind] in HCr. injection HCr as <-. reflexivity. }
  destruct (to_html srt order f1) as [f2 r] eqn:Hh.
  destruct (c45 env0 sv srt PyMIP A x01 [z 1; z 1] t0 f fuel None et ct env0_ok HS HSr HA FR0 ltac:(now rewrite HY) F3 ltac:(discriminate) Hfu) as [(e & _ & _ & Q)|(b0 & b1 & l & f1' & Q1 & Q2 & Q3 & Q4 & Q5)]; [rewrite Q in Hf; discriminate Hf|].
  assert (HL : length x01 = as_len A /\ length [z 1; z 1] = as_len A).
  { destruct Q1 as [Q1|[_ Q1]]; [destruct HCr as (a & Pa & HCr); unfold mk_flipset in HCr; rewrite Pa in HCr; cbn [bind] in HCr; injection HCr as <-; discriminate Q1|].
    destruct (created_own env0 sv PyMIP A x01 [z 1; z 1] t0 ct b0 HA Q1) as (c & Fc & (_ & Hx)). destruct (set_x_ok _ _ _ _ Hx) as (ms & EL & _). pose proof (fr_len _ _ _ _ _ _ _ Fc) as L1. split; [exact L1|exact L1]. }
  destruct HL as [HLx HLw].
  assert (KB : scalar_keys (f_by f1)).
  { rewrite Q3 in Hf. injection Hf as <-. 
    assert (KF : f_by f1' = f_by f). { clear -Q3 HCr Q1. unfold f_populate in Q3. destruct (match f_builder f with Some b => _ | None => _ end) as [bb|]; [|discriminate Q3]. destruct (populate _ _ _ _ _) as [[[bb' ll]|]|]; [|discriminate Q3|discriminate Q3].
      assert (Q4 : f_add srt (f_with_builder f (Some bb')) (map sol_item ll) = (f1', Ok tt)) by congruence. unfold f_add in Q4. destruct (mapM _ _) as [vs|]; [|discriminate Q4]. unfold add_to_df in Q4. destruct vs; [injection Q4 as <-; reflexivity|]. destruct (mapM _ _); [|discriminate Q4]. unfold f_resort in Q4. destruct (srt _ _); [|discriminate Q4]. injection Q4 as <-. cbn. destruct (f_inplace f); reflexivity. }
    now rewrite KF. }
  destruct (html_total srt order f1 HSr KB) as (f2' & p & Hh'). rewrite Hh in Hh'. injection Hh' as <- ->. exists f1, f2, p. split; [exact Hf|]. split; [exact Hh|].
  destruct (html_table env0 sv srt PyMIP A x01 [z 1; z 1] t0 None f1 order f2 p HSr HLx HLw FR HO Hh) as [[Z ->]|(rows & its & -> & Z & _)].
  - split; [intros _|reflexivity]. apply K3 in Z. injection Z as -> _. reflexivity.
  - split; [discriminate|]. intros ->. exfalso. apply K2 in Z. destruct Z as (c & Z). injection Z as Z _. discriminate Z.
Qed.
