(** Flipset properties in the form in which Props_flipset.v states them. *)
From Verif Require Import Proofs_props_element Proofs_props_actionset Spec_flipset Proofs_vec Proofs_flipset Proofs_flipset2.
From Verif Require Import Proofs_mip Proofs_info Proofs_build Proofs_enum Proofs_session Proofs_recourse Proofs_exchange Proofs_far Proofs_concrete Proofs_builder Proofs_builder2 Proofs_builder3 Proofs_builder4 Proofs_builder5 Proofs_scen Proofs_scen2 Proofs_builder6 Proofs_builder7 Proofs_builder8.
#[local] Open Scope list_scope.
#[local] Open Scope Qc_scope.

(** ** A lawful sorter exists: insertion sort. *)
Section Insert.
Context {X : Type} (le : X -> X -> bool) (le_total : forall a b, le a b = false -> le b a = true) (le_trans : forall a b c, le a b = true -> le b c = true -> le a c = true).
Fixpoint insert (a : X) (l : list X) : list X := match l with [] => [a] | b :: r => if le a b then a :: b :: r else b :: insert a r end.
Definition isort (l : list X) : list X := fold_right insert [] l.
Lemma insert_perm a l : Permutation (insert a l) (a :: l).
Proof. induction l as [|b r IH]; [reflexivity|]. cbn. destruct (le a b); [reflexivity|]. rewrite IH. apply perm_swap. Qed.
Lemma isort_perm l : Permutation (isort l) l.
Proof. induction l as [|a l IH]; [constructor|]. cbn. rewrite insert_perm. now constructor. Qed.
Lemma insert_sorted a l : StronglySorted (fun p q => le p q = true) l -> StronglySorted (fun p q => le p q = true) (insert a l).
Proof.
  induction 1 as [|b r Hs IH Hf]; [repeat constructor|]. cbn. destruct (le a b) eqn:E.
  - constructor; [constructor; assumption|]. constructor; [exact E|]. rewrite Forall_forall in *. intros c Hc. eapply le_trans; [exact E|now apply Hf].
  - constructor; [exact IH|]. rewrite Forall_forall in *. intros c Hc. apply (Permutation_in _ (insert_perm a r)) in Hc. destruct Hc as [<-|Hc]; [now apply le_total|now apply Hf].
Qed.
Lemma isort_sorted l : StronglySorted (fun p q => le p q = true) (isort l).
Proof. induction l as [|a l IH]; [constructor|]. cbn. now apply insert_sorted. Qed.
End Insert.
Lemma fl_lt_asym a b : fl_lt a b = true -> fl_lt b a = false.
Proof. destruct a, b; cbn; try reflexivity; try discriminate. intro H. apply Bool.not_true_is_false. intro K. qbool. qlra. Qed.
Lemma fl_lt_trans a b c : fl_lt a b = true -> fl_lt b c = true -> fl_lt a c = true.
Proof. destruct a, b, c; cbn; try reflexivity; try discriminate. intros H K. qbool. qlra. Qed.
Lemma fl_le_trans a b c : fl_lt b a = false -> fl_lt c b = false -> fl_lt c a = false.
Proof. destruct a, b, c; cbn; try reflexivity; try discriminate. intros H K. apply Bool.not_true_is_false. intro L. qbool. qlra. Qed.
Lemma fl_total a b : fl_lt a b = false -> fl_lt b a = false \/ fl_lt b a = true.
Proof. intros _. destruct (fl_lt b a); auto. Qed.
Lemma table_le_total ks r r' : table_le ks r r' = false -> table_le ks r' r = true.
Proof.
  induction ks as [|k ks IH]; [discriminate|]. cbn. intro H. apply orb_false_iff in H. destruct H as [H1 H2]. rewrite H1. cbn [negb andb]. apply orb_true_iff.
  apply andb_false_iff in H2. destruct H2 as [H2|H2]; [left; now apply negb_false_iff|right; now apply IH].
Qed.
Lemma c47_order k ks r r' :
  (table_le [] r r' = true) /\
  (table_le (k :: ks) r r' = true <-> table_le [k] r' r = false \/ (table_le [k] r r' = true /\ table_le ks r r' = true)) /\
  (table_le [KSize] r r' = true <-> (r_size r <= r_size r')%nat) /\
  (table_le [KScore] r r' = true <-> r_score r <= r_score r') /\
  (table_le [KYhat] r r' = true <-> (r_yhat r <= r_yhat r')%Z) /\
  (table_le [KFeasible] r r' = true <-> (r_feasible r = true -> r_feasible r' = true)) /\
  (table_le [KFlipped] r r' = true <-> (r_flipped r = true -> r_flipped r' = true)) /\
  (forall c c', r_cost r = Fin c -> r_cost r' = Fin c' -> (table_le [KCost] r r' = true <-> c <= c')) /\
  (forall c, r_cost r = Fin c -> r_cost r' = PosInf -> table_le [KCost] r r' = true /\ table_le [KCost] r' r = false).
Proof.
  assert (Q : forall p q, ((p <? q) || negb (q <? p) && true) = true <-> p <= q).
  { intros p q. rewrite andb_true_r. split; intro H.
    - apply orb_true_iff in H. destruct H as [H|H]; [apply qlt_iff in H; apply Qclt_le_weak; exact H|]. destruct (qlt_spec q p) as [K|K]; [discriminate H|exact K].
    - destruct (qlt_spec q p) as [K|K]; [exfalso; exact (Qcle_not_lt _ _ H K)|]. apply orb_true_r. }
  assert (B : forall b c : bool, (if b then 1 else 0) <= (if c then 1 else 0) <-> (b = true -> c = true)).
  { intros [] []; split; intro H; try reflexivity; try (intro D; discriminate D); try (apply qle_iff; reflexivity).
    - exfalso. apply qle_iff in H. discriminate H.
    - specialize (H eq_refl). discriminate H. }
  split; [reflexivity|]. split.
  { assert (AS : forall a b, fl_lt a b = true -> fl_lt b a = true -> False).
    { intros [p| | |] [q| | |]; cbn; intros H1 H2; try discriminate. apply qlt_iff in H1, H2. exact (Qclt_not_le _ _ H1 (Qclt_le_weak _ _ H2)). }
    cbn [table_le]. destruct (fl_lt (key k r) (key k r')) eqn:E1, (fl_lt (key k r') (key k r)) eqn:E2, (table_le ks r r'); cbn; try (exfalso; exact (AS _ _ E1 E2)); intuition congruence. }
  split; [cbn [table_le key fl_lt]; rewrite Q, qz_le; lia|].
  split; [apply Q|]. split; [cbn [table_le key fl_lt]; rewrite Q; apply qz_le|].
  split; [cbn [table_le key fl_lt fl_bool]; rewrite Q; apply B|]. split; [cbn [table_le key fl_lt fl_bool]; rewrite Q; apply B|].
  split; [intros c c' H1 H2; cbn [table_le key]; rewrite H1, H2; apply Q|]. intros c H1 H2. cbn [table_le key]. rewrite H1, H2. split; reflexivity.
Qed.
Lemma table_le_trans ks a b c : table_le ks a b = true -> table_le ks b c = true -> table_le ks a c = true.
Proof.
  induction ks as [|k ks IH]; [reflexivity|]. cbn. intros H K. apply orb_true_iff in H, K. apply orb_true_iff. destruct H as [H|H], K as [K|K].
  - left. eapply fl_lt_trans; eauto.
  - left. apply andb_true_iff in K. destruct K as [K _]. apply negb_true_iff in K. destruct (fl_lt (key k a) (key k c)) eqn:E; [reflexivity|]. exfalso. pose proof (fl_le_trans _ _ _ K E) as Q. congruence.
  - left. apply andb_true_iff in H. destruct H as [H _]. apply negb_true_iff in H. destruct (fl_lt (key k a) (key k c)) eqn:E; [reflexivity|]. exfalso. pose proof (fl_le_trans _ _ _ E H) as Q. congruence.
  - apply andb_true_iff in H, K. destruct H as [H H'], K as [K K']. apply negb_true_iff in H, K. right. rewrite (fl_le_trans _ _ _ H K). cbn. now apply IH.
Qed.
Definition srt0 : sorter := fun ks d =>
  match d with
  | [] => Ok []
  | _ => if existsb list_column ks && Nat.leb 2 (length ks) then Err TypeError else Ok (isort (fun p q => table_le ks (snd p) (snd q)) d)
  end.
Lemma srt0_ok : ok_sorter srt0.
Proof.
  unfold srt0. split; [|split; [|split]].
  - intros ks d H. unfold scalar_keys in H. destruct d as [|p d]; [exists []; split; [reflexivity|constructor]|]. rewrite H. cbn [andb]. eexists. split; [reflexivity|].
    unfold ascending. apply (isort_sorted (fun p q : nat * frow => table_le ks (snd p) (snd q))); intros; [now apply table_le_total|eapply table_le_trans; eauto].
  - intros ks d d' H. destruct d as [|p d]; [injection H as <-; constructor|]. destruct (_ && _); [discriminate H|]. injection H as <-. exact (isort_perm _ (p :: d)).
  - intros ks d H HL HD. unfold scalar_keys in H. apply Bool.not_false_iff_true in H. destruct d; [congruence|]. rewrite H. cbn [andb]. now rewrite (proj2 (Nat.leb_le _ _) HL).
  - reflexivity.
Qed.
Definition order0 : list flat_line -> list flat_line := isort (fun a b => Nat.leb (fl_item a) (fl_item b)).
Lemma order0_ok : ok_order order0.
Proof.
  intro l. split; [apply isort_perm|]. pose proof (isort_sorted (fun a b : flat_line => Nat.leb (fl_item a) (fl_item b))) as H.
  assert (K : StronglySorted (fun a b => Nat.leb (fl_item a) (fl_item b) = true) (order0 l)). { apply H; intros; apply Nat.leb_le; try (apply Nat.leb_gt in H0); try (apply Nat.leb_le in H0, H1); lia. }
  induction K as [|a r Hs IH Hf]; constructor; [exact IH|]. rewrite Forall_forall in *. intros b Hb. apply Nat.leb_le. now apply Hf.
Qed.

(** ** C44 *)
Lemma qsign_qz s : qz (qsign s) = s \/ (s <> 0 /\ s <> 1 /\ s <> - (1)).
Proof.
  unfold qsign. destruct (Qc_dec s 0) as [[L|L]|E].
  - destruct (Qc_eq_dec s (- (1))) as [->|N]; [left; reflexivity|right]. repeat split; auto; intros ->; revert L; [apply Qcle_not_lt, Qcle_refl|discriminate].
  - destruct (Qc_eq_dec s 1) as [->|N]; [left; reflexivity|right]. repeat split; auto; intros ->; revert L; [apply Qcle_not_lt, Qcle_refl|discriminate].
  - left. subst. reflexivity.
Qed.
Lemma qsign_unit z : z = 0%Z \/ z = 1%Z \/ z = (-1)%Z -> qsign (qz z) = z.
Proof. intros [->|[->| ->]]; reflexivity. Qed.
Lemma qsign_range s : qsign s = 0%Z \/ qsign s = 1%Z \/ qsign s = (-1)%Z.
Proof. unfold qsign. destruct (0 <? s); [auto|]. destruct (s <? 0); auto. Qed.
(** A raw score that equals a prediction has that prediction. *)
Lemma raw_flip s h : h = 0%Z \/ h = 1%Z \/ h = (-1)%Z -> s = qz h -> qsign s = h.
Proof. intros H ->. now apply qsign_unit. Qed.

Section Flip.
Context (E : env) (sv : solver) (srt : sorter) (k : backend) (A : action_set) (x w : list Qc) (t : Qc) (ob : option builder) (f : flipset).
Context (HS : ok_sorter srt) (HLx : length x = as_len A) (HLw : length w = as_len A) (HF : flipset_reachable E sv srt k A x w t ob f).
Let HLn : length (as_names A) = as_len A := eq_refl.
Lemma fl_frame : frame k A x w t f.
Proof. exact (proj1 (inv_reachable k A x w t HLx HLw HLn E sv srt ob f HS HF)). Qed.
Lemma fl_inv : table_inv A x w t f.
Proof. exact (proj2 (inv_reachable k A x w t HLx HLw HLn E sv srt ob f HS HF)). Qed.

(** C46 *)
Lemma c46 : exists its, Permutation its (f_items f) /\ Forall2 (describes w t x (as_names A)) its (map snd (f_df f)).
Proof.
  destruct fl_inv as (_ & its & rows & H1 & H2 & H3). destruct (perm_forall2 (describes w t x (as_names A)) its (map snd (f_df f)) rows) as (its2 & P1 & P2); [|exact H2|].
  - rewrite <- (relabel_snd rows). symmetry. now apply Permutation_map.
  - exists its2. split; [now rewrite <- P1|exact P2].
Qed.
(** C48 *)
Lemma filable_dec i : (exists v, filable A x w t i v) \/ ~ exists v, filable A x w t i v.
Proof.
  destruct (validate_item f i) as [v|e] eqn:Ev; [left; exists v; now apply (validate_iff k A x w t HLx HLw HLn f i v fl_frame)|].
  right. intros (v & Hv). apply (validate_iff k A x w t HLx HLw HLn f i v fl_frame) in Hv. congruence.
Qed.
Lemma c48_all items vs : Forall2 (filable A x w t) items vs ->
  f_items (fst (f_add srt f items)) = f_items f ++ vs /\ (scalar_keys (f_by f) -> snd (f_add srt f items) = Ok tt).
Proof.
  intro H. destruct (add_ok k A x w t HLx HLw HLn srt f items vs fl_frame H) as (rows & _ & ->). destruct vs as [|v vs]; [cbn; auto|].
  unfold f_resort. cbn [f_by f_df f_with_items f_inplace]. destruct (srt (f_by f) _) as [d|e] eqn:Ed.
  - split; [|intros _; reflexivity]. cbn. destruct (f_inplace f); reflexivity.
  - split; [reflexivity|]. intro K. destruct HS as (S1 & _). destruct (S1 (f_by f) (relabel (map snd (f_df f) ++ rows)) K) as (d & Hd & _). congruence.
Qed.
Lemma c48_none items i : In i items -> ~ (exists v, filable A x w t i v) -> exists e, f_add srt f items = (f, Err e).
Proof.
  intros Hi Hn. destruct (mapM (validate_item f) items) as [l|e] eqn:Ev; [|exists e; now apply add_err].
  exfalso. apply (validated_filable k A x w t HLx HLw HLn f items l fl_frame) in Ev. clear -Ev Hi Hn. induction Ev as [|i' v items l Hv _ IH]; [destruct Hi|]. destruct Hi as [<-|Hi]; [apply Hn; eauto|auto].
Qed.
(** C57 *)
Lemma c57 order : ok_order order -> forall f' r, to_flat_df srt order f = (f', r) -> (forall e, r <> Err e) ->
  (f_items f = [] /\ r = Ok None) \/
  exists lines its, r = Ok (Some lines) /\ Permutation its (f_items f) /\ StronglySorted (fun a b => (fl_item a <= fl_item b)%nat) lines /\
    Permutation lines (flat_map (fun p => change_lines (as_names A) x (fst p) (fi_actions (snd p))) (combine (seq 0 (length its)) its)).
Proof.
  intros HO f' r H HE. unfold to_flat_df in H. pose proof (inv_resort A x w t srt f HS fl_inv) as K.
  assert (KI : f_items (fst (f_resort srt f)) = f_items f). { unfold f_resort. destruct (srt _ _); [|reflexivity]. cbn. now destruct (f_inplace f). }
  destruct (f_resort srt f) as [f1 r1]. cbn [fst] in K, KI. destruct r1 as [u|e]; [|injection H as _ <-; now destruct (HE e)]. injection H as _ <-.
  destruct K as (_ & its & rows & H1 & H2 & H3). rewrite KI in H1. destruct (f_df f1) as [|p d] eqn:Ed.
  - left. split; [|reflexivity]. apply Permutation_length in H3. assert (L : length its = length rows) by (eapply Forall2_length; exact H2). unfold relabel in H3. rewrite combine_length, seq_length in H3. apply Permutation_length in H1. cbn in H3. destruct (f_items f); [reflexivity|cbn in H1; lia].
  - right. rewrite <- Ed in *. destruct (HO (flat_lines (f_df f1))) as [O1 O2]. exists (order (flat_lines (f_df f1))), its. split; [reflexivity|]. split; [exact H1|]. split; [exact O2|]. rewrite O1. eapply flat_lines_change; eauto.
Qed.
(** C44 *)
Lemma c44_flip i a c : wf_item (as_len A) i a c -> flips w t x a -> f_items (fst (f_add srt f [i])) = f_items f ++ [{| fi_actions := a; fi_cost := c |}].
Proof.
  intros H Hfl. apply (c48_all [i] [{| fi_actions := a; fi_cost := c |}]). constructor; [|constructor]. split; [exact H|]. intro Q. apply Hfl. unfold prediction at 1. apply raw_flip; [apply qsign_range|exact Q].
Qed.
Lemma c44_any i a c : wf_item (as_len A) i a c -> score w t x <> 0 -> score w t x <> 1 -> score w t x <> - (1) -> f_items (fst (f_add srt f [i])) = f_items f ++ [{| fi_actions := a; fi_cost := c |}].
Proof.
  intros H N0 N1 N2. apply (c48_all [i] [{| fi_actions := a; fi_cost := c |}]). constructor; [|constructor]. split; [exact H|]. intro Q. cbn [fi_actions] in Q.
  unfold prediction in Q. destruct (qsign_range (score w t (vadd x a))) as [R|[R|R]]; rewrite R in Q; [apply N0|apply N1|apply N2]; rewrite Q; reflexivity.
Qed.
Lemma c44_exact i a c : wf_item (as_len A) i a c -> score w t x = 0 \/ score w t x = 1 \/ score w t x = - (1) ->
  (flips w t x a /\ f_items (fst (f_add srt f [i])) = f_items f ++ [{| fi_actions := a; fi_cost := c |}]) \/ (~ flips w t x a /\ exists e, f_add srt f [i] = (f, Err e)).
Proof.
  intros H HU. destruct (Z.eq_dec (prediction w t x) (prediction w t (vadd x a))) as [Q|N]; [right|left; split; [exact N|now apply c44_flip]].
  split; [intro K; now apply K|]. apply (c48_none [i] i (or_introl eq_refl)). intros ([a' c'] & Hw & Hn). cbn [fi_actions fi_cost] in Hw, Hn.
  assert (a' = a) as ->. { destruct H as (_ & E1 & _), Hw as (_ & E2 & _). rewrite E1 in E2. injection E2 as E2. clear -E2. revert a' E2. induction a as [|u a IH]; intros [|v a'] E2; try discriminate E2; [reflexivity|]. cbn in E2. assert (Fin u = Fin v /\ map Fin a = map Fin a') as [Q1 Q2] by (split; congruence). f_equal; [congruence|symmetry; rewrite (IH a' Q2); reflexivity]. }
  apply Hn. rewrite <- Q. unfold prediction. destruct HU as [->|[->| ->]]; reflexivity.
Qed.
End Flip.

(** ** C45 *)
Lemma coef_parse w t : parse_classifier_args (coef_args w t) = Ok (w, t).
Proof. unfold parse_classifier_args, coef_args. cbn. rewrite finite_all_fin. reflexivity. Qed.
Lemma mk_flip_parse k A x w t ob f : flipset_created k A x w t ob f -> f_w f = w /\ f_t f = t.
Proof. intro H. destruct (frame_created _ _ _ _ _ _ _ H) as ([] & _). auto. Qed.
Lemma enumeration_trans sv b l b1 : enumeration sv b l b1 -> forall l2 b2, enumeration sv b1 l2 b2 -> enumeration sv b (l ++ l2) b2.
Proof.
  induction 1 as [b|b b1 r l b2 Hf H IH|b fuel total et b1 l1 l b2 Hp H IH]; intros l3 b3 K; [exact K|eapply en_fit; eauto|]. rewrite <- app_assoc. eapply en_populate; eauto.
Qed.
Lemma enumeration_session sv b l b1 : enumeration sv b l b1 -> exists l', session sv b l' b1 /\ forall p, In p l -> In (snd p) l'.
Proof.
  induction 1 as [b|b b1 r l b2 Hf H (l' & K1 & K2)|b fuel total et b1 l1 l b2 Hp H (l' & K1 & K2)].
  - exists []. split; [constructor|intros p []].
  - eexists. split; [eapply ses_fit; eauto|]. intros p Hp. apply in_app_iff. right. auto.
  - eexists. split; [eapply ses_populate; eauto|]. intros p Q. apply in_app_iff in Q. apply in_app_iff. destruct Q as [Q|Q]; [left|right; auto]. apply in_map_iff in Q. destruct Q as (s & <- & Q). exact Q.
Qed.
(** The flipset's own builder: created by the first populate, and only used by populate since. *)
Definition own_builder E sv k A (x w : list Qc) (t : Qc) (f : flipset) : Prop :=
  match f_builder f with
  | None => True
  | Some b1 => exists ct b b0 l, mk_builder E k A (coef_args w t) ct (Some x) = Ok b0 /\ fresh E k A w t ct b /\ assigned E sv b x b0 /\ enumeration sv b0 l b1
  end.
Lemma add_builder srt f items : f_builder (fst (f_add srt f items)) = f_builder f.
Proof.
  unfold f_add. destruct (mapM _ _) as [l|e]; [|reflexivity]. unfold add_to_df. destruct l; [reflexivity|]. destruct (mapM _ _); [|reflexivity].
  unfold f_resort. destruct (srt _ _); [|reflexivity]. cbn. now destruct (f_inplace f).
Qed.
Lemma resort_builder srt f : f_builder (fst (f_resort srt f)) = f_builder f.
Proof. unfold f_resort. destruct (srt _ _); [|reflexivity]. cbn. now destruct (f_inplace f). Qed.
Lemma created_own E sv k A x w t ct b0 : aset_reachable E A -> mk_builder E k A (coef_args w t) ct (Some x) = Ok b0 ->
  exists b, fresh E k A w t ct b /\ assigned E sv b x b0.
Proof.
  intros HR H. destruct (created_assigned _ _ _ _ _ _ _ HR H) as (b & Hb & _ & _ & Has). exists b. split; [eapply created_fresh; eauto using coef_parse|apply Has].
Qed.
Lemma own_step E sv srt k A x w t f o : aset_reachable E A -> frame k A x w t f -> own_builder E sv k A x w t f -> own_builder E sv k A x w t (flipset_step E sv srt f o).
Proof.
  intros HR F H. destruct o as [fuel total et ct|q|l|]; cbn [flipset_step].
  - unfold f_populate. destruct F. rewrite fm_A, fm_kind, fm_w, fm_t, fm_x.
    assert (K : forall b, (match f_builder f with Some b => Ok b | None => mk_builder E k A (coef_args w t) ct (Some x) end) = Ok b -> own_builder E sv k A x w t (f_with_builder f (Some b))).
    { intros b Hb. unfold own_builder in *. cbn. destruct (f_builder f) as [b1|]; [injection Hb as <-; exact H|]. destruct (created_own E sv k A x w t ct b HR Hb) as (b' & H1 & H2). exists ct, b', b, []. repeat (split; [assumption|]). constructor. }
    destruct (match f_builder f with Some b => _ | None => _ end) as [b|e]; [|exact H]. specialize (K b eq_refl).
    destruct (populate sv fuel total et b) as [[[b' l]|e]|] eqn:Hp; [|exact K|exact H].
    pose proof (add_builder srt (f_with_builder f (Some b')) (map sol_item l)) as Q. destruct (f_add srt (f_with_builder f (Some b')) (map sol_item l)) as [f' r]. cbn [fst] in Q.
    unfold own_builder in *. rewrite Q. cbn in K |- *. destruct K as (ct' & b2 & b0 & l0 & K1 & K2 & K3 & K4). exists ct', b2, b0, (l0 ++ map (pair et) l). do 3 (split; [assumption|]). eapply enumeration_trans; [exact K4|].
    rewrite <- (app_nil_r (map (pair et) l)). eapply en_populate; [exact Hp|constructor].
  - assert (Q : f_builder (fst (f_sort srt f q)) = f_builder f).
    { destruct q as [|names ip ax|names]; [apply resort_builder| |].
      - cbn. destruct (all_some names) as [[|c ks]|]; try reflexivity. destruct ax; [|reflexivity]. destruct (srt _ _); [|reflexivity]. cbn. now destruct ip.
      - destruct names as [|n names]; [apply resort_builder|]. cbn -[all_some]. destruct (all_some _) as [[|c ks]|]; try reflexivity. destruct (srt _ _); reflexivity. }
    unfold own_builder. rewrite Q. exact H.
  - unfold own_builder. rewrite add_builder. exact H.
  - unfold own_builder, to_flat_df. pose proof (resort_builder srt f) as Q. destruct (f_resort srt f) as [f' [u|e]]; cbn in Q |- *; rewrite Q; exact H.
Qed.
Lemma own_reachable E sv srt k A x w t f : aset_reachable E A -> flipset_reachable E sv srt k A x w t None f -> frame k A x w t f /\ own_builder E sv k A x w t f.
Proof.
  intros HR (f0 & ops & H & ->). destruct (frame_created _ _ _ _ _ _ _ H) as (F & _ & _ & Hb & _). assert (O : own_builder E sv k A x w t f0) by (unfold own_builder; now rewrite Hb). clear H Hb.
  revert f0 F O. induction ops as [|o ops IH]; intros f0 F O; [split; assumption|]. cbn. apply IH; [now apply frame_step|now apply own_step].
Qed.
Lemma denied_flips y w t x a : denied y (score w t x) -> on_side y (score w t (vadd x a)) -> flips w t x a.
Proof.
  unfold denied, on_side, flips, prediction. set (s := score w t x). set (s' := score w t (vadd x a)). unfold qsign. destruct (0 <? y)%Z; intros H1 H2 K.
  - assert (L : s < 0) by (apply Qcnot_le_lt; exact H1). rewrite (proj2 (qlt_iff s 0) L) in K. destruct (0 <? s) eqn:Q; [qbool; qlra|]. destruct (0 <? s') eqn:Q1; [discriminate K|]. destruct (s' <? 0) eqn:Q2; [qbool; qlra|discriminate K].
  - assert (L : 0 < s) by (apply Qcnot_le_lt; exact H1). rewrite (proj2 (qlt_iff 0 s) L) in K. destruct (0 <? s') eqn:Q1; [qbool; qlra|]. destruct (s' <? 0); discriminate K.
Qed.
Lemma sol_filable A x w t s : length (s_actions s) = as_len A -> (1 <= n_changed (s_actions s))%nat -> 0 < s_cost s -> flips w t x (s_actions s) -> filable A x w t (sol_item s) (filed s).
Proof.
  intros HL HN HC HFl. split.
  - repeat split; auto; [now apply n_changed_pos|]. right. exists (s_cost s). auto.
  - intro Q. apply HFl. unfold prediction at 1. apply raw_flip; [apply qsign_range|exact Q].
Qed.
Lemma c45 E sv srt k A x w t f fuel total et ct : ok_env E -> sound_solver sv -> ok_sorter srt -> aset_reachable E A ->
  flipset_reachable E sv srt k A x w t None f -> denied (as_y A) (score w t x) -> scalar_keys (f_by f) -> total <> Some 0%nat -> (2 ^ as_len A < fuel)%nat ->
  (exists e, f_builder f = None /\ mk_builder E k A (coef_args w t) ct (Some x) = Err e /\ f_populate E sv srt fuel total et ct f = Some (f, Err e)) \/
  exists b b' l f', (f_builder f = Some b \/ f_builder f = None /\ mk_builder E k A (coef_args w t) ct (Some x) = Ok b) /\
    populate sv fuel total et b = Some (Ok (b', l)) /\ f_populate E sv srt fuel total et ct f = Some (f', Ok tt) /\
    f_items f' = f_items f ++ map filed l /\
    forall s, In s l -> permitted_action A x (s_actions s) /\ on_side (as_y A) (score w t (vadd x (s_actions s))) /\ flips w t x (s_actions s).
Proof.
  intros HE HSv HS HR HF HD HK HT Hfu. destruct (own_reachable _ _ _ _ _ _ _ _ _ HR HF) as [F O]. unfold f_populate. pose proof F as []. rewrite fm_A, fm_kind, fm_w, fm_t, fm_x.
  assert (K : forall b, (match f_builder f with Some b => Ok b | None => mk_builder E k A (coef_args w t) ct (Some x) end) = Ok b ->
    (f_builder f = Some b \/ f_builder f = None /\ mk_builder E k A (coef_args w t) ct (Some x) = Ok b) /\
    exists ct b2 b0 l, fresh E k A w t ct b2 /\ assigned E sv b2 x b0 /\ enumeration sv b0 l b).
  { intros b Hb. unfold own_builder in O. destruct (f_builder f) as [b1|].
    - injection Hb as <-. split; [now left|]. destruct O as (ct' & b2 & b0 & l & _ & O1 & O2 & O3). eauto 8.
    - split; [now right|]. destruct (created_own E sv k A x w t ct b HR Hb) as (b' & H1 & H2). exists ct, b', b, []. repeat (split; [assumption|]). constructor. }
  assert (K0 : forall e, (match f_builder f with Some b => Ok b | None => mk_builder E k A (coef_args w t) ct (Some x) end) = Err e -> f_builder f = None /\ mk_builder E k A (coef_args w t) ct (Some x) = Err e).
  { intros e Hb. destruct (f_builder f); [discriminate Hb|auto]. }
  destruct (match f_builder f with Some b => _ | None => _ end) as [b|e]; [right|left; exists e; destruct (K0 e eq_refl); auto]. destruct (K b eq_refl) as (K1 & ct' & b2 & b0 & l0 & FR & HA & HEn). clear K K0.
  pose proof (fr_sbf _ _ _ _ _ _ _ FR) as SB. pose proof SB as (_ & _ & Sy & _).
  destruct (c39_term_thm E sv b2 x b0 l0 b fuel total et HE HSv HA HEn HT) as (b' & l & Hp & _). { now rewrite (sbf_len _ _ SB). }
  assert (HEn' : enumeration sv b0 (l0 ++ map (pair et) l) b'). { eapply enumeration_trans; [exact HEn|]. rewrite <- (app_nil_r (map (pair et) l)). eapply en_populate; [exact Hp|constructor]. }
  destruct (enumeration_session _ _ _ _ HEn') as (ls & HSes & HIn).
  assert (Facts : forall s, In s l -> permitted_action A x (s_actions s) /\ on_side (as_y A) (score w t (vadd x (s_actions s))) /\ (1 <= n_changed (s_actions s))%nat /\ 0 < s_cost s).
  { intros s Hs. assert (Hin : In s ls). { apply (HIn (et, s)). apply in_app_iff. right. now apply in_map. }
    pose proof (c25_thm E sv b2 x b0 ls b' s HE HSv HA HSes Hin) as P1. pose proof (c26_thm E sv b2 x b0 ls b' s HE HSv HA HSes Hin) as P2. destruct (c31_thm E sv b2 x b0 ls b' s HE HSv HA HSes Hin) as (P3 & _ & P4).
    rewrite Sy, (fr_w _ _ _ _ _ _ _ FR), (fr_t _ _ _ _ _ _ _ FR) in P2. split; [now apply (sbf_permitted _ _ _ _ SB)|auto]. }
  assert (HLw : length w = as_len A) by exact (fr_len _ _ _ _ _ _ _ FR).
  assert (HLx : length x = as_len A). { destruct HA as [_ HA]. destruct (set_x_ok _ _ _ _ HA) as (ms & EL & _). rewrite EL, (fr_w _ _ _ _ _ _ _ FR). exact HLw. }
  assert (HAcc : Forall2 (filable A x w t) (map sol_item l) (map filed l)).
  { clear -Facts HD. induction l as [|s l IH]; constructor; [|apply IH; intros s' Hs'; apply Facts; now right]. destruct (Facts s (or_introl eq_refl)) as ((P1 & _) & P2 & P3 & P4). apply sol_filable; auto. eapply denied_flips; eauto. }
  rewrite Hp. set (g := f_with_builder f (Some b')).
  assert (Fg : frame k A x w t g) by now apply frame_builder.
  destruct (add_ok k A x w t HLx HLw eq_refl srt g (map sol_item l) (map filed l) Fg HAcc) as (rows & _ & Hadd).
  assert (HI : exists f', f_add srt g (map sol_item l) = (f', Ok tt) /\ f_items f' = f_items f ++ map filed l).
  { rewrite Hadd. destruct (map filed l) as [|v vs]; [eexists; split; [reflexivity|]; reflexivity|]. unfold f_resort. cbn [f_by f_df f_with_items f_inplace]. change (f_by g) with (f_by f). destruct HS as (S1 & _). destruct (S1 (f_by f) (relabel (map snd (f_df g) ++ rows)) HK) as (d & Hd & _).
    rewrite Hd. eexists. split; [reflexivity|]. now destruct (f_inplace g). }
  destruct HI as (f' & HI1 & HI2). exists b, b', l, f'. split; [exact K1|]. split; [exact Hp|]. split; [now rewrite HI1|]. split; [exact HI2|].
  intros s Hs. destruct (Facts s Hs) as (P1 & P2 & _). split; [exact P1|]. split; [exact P2|]. eapply denied_flips; eauto.
Qed.
