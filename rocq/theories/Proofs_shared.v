(** Proofs for objects that share an action set. *)
From Verif Require Import Spec_shared Proofs_props_element Proofs_props_actionset Proofs_actionset Proofs_session Proofs_builder6 Proofs_builder7 Proofs_flipset Proofs_queries Proofs_backend Proofs_audit2.
Import ListNotations. Open Scope list_scope. Open Scope Qc_scope.

Lemma with_aset_same b A : bd_A b = A -> with_aset b A = b.
Proof. intros <-. now destruct b. Qed.
Lemma with_aset_twice b A A' : with_aset (with_aset b A) A' = with_aset b A'.
Proof. reflexivity. Qed.
Lemma f_shared_same f A : f_A f = A -> f_builder f = None -> f_shared f A = f.
Proof. intros <- H. destruct f; cbn in *; subst. reflexivity. Qed.
Lemma f_shared_twice f A A' : f_shared (f_shared f A) A' = f_shared f A'.
Proof. unfold f_shared; cbn. destruct (f_builder f); reflexivity. Qed.
Lemma share_twice A A' o : share A' (share A o) = share A' o.
Proof. destruct o; cbn; try reflexivity. now rewrite f_shared_twice. Qed.

(** ** What a step does to the action set *)
Definition nudge (E : env) (A A' : action_set) : Prop := A' = A \/ exists o, A' = aset_step E A o.
Lemma nudge_reach E A A' : nudge E A A' -> aset_reachable E A -> aset_reachable E A'.
Proof. intros [->|[o ->]] H; [exact H|now apply aset_reachable_step]. Qed.
Lemma nudge_names E A A' : nudge E A A' -> aset_reachable E A -> as_names A' = as_names A.
Proof. intros [->|[o ->]] H; [reflexivity|now apply aset_step_names]. Qed.
Lemma left_builder E k A a ct : nudge E A (left_by_builder E k A a ct).
Proof.
  unfold left_by_builder. pose proof (mk_none E k A a ct) as H. destruct (mk_builder E k A a ct None) as [b|]; [|now left].
  destruct H as (w & t & _ & _ & H). destruct (alignment_known A); [now left|]. right.
  exists (OAlign {| k_clf := None; k_classifier := None; k_coefs := None; k_intercept := None; a_pos := [AVec (map Fin w)] |}). cbn [aset_step]. now rewrite H.
Qed.
Lemma left_auditor E A a : nudge E A (left_by_auditor A a).
Proof.
  unfold left_by_auditor. destruct (parse_classifier_args a) as [[w t]|]; [|now left].
  set (aa := {| k_clf := None; k_classifier := None; k_coefs := None; k_intercept := None; a_pos := [AVec (map Fin w)] |}).
  destruct (set_alignment A aa) as [A1|] eqn:H; [|now left]. right. exists (OAlign aa). cbn [aset_step]. now rewrite H.
Qed.
Lemma populate_aset sv et : forall fuel total b b1 l, populate sv fuel total et b = Some (Ok (b1, l)) -> bd_A b1 = bd_A b.
Proof.
  intros fuel total b b1 l H. pose proof (query_populate sv et (bd_A b) fuel total b) as K. rewrite (with_aset_same b _ eq_refl), H in K.
  injection K as K. rewrite K. reflexivity.
Qed.
Lemma step_nudge E sv b o : nudge E (bd_A b) (bd_A (builder_step E sv b o)).
Proof.
  destruct o as [x| |fuel n et|lo hi|k|k|o]; cbn [builder_step]; [left|left|left|left|left|left|right].
  - apply set_x_aset.
  - destruct (fit sv b) as [[b' r]|] eqn:H; [|reflexivity]. eapply fit_aset; eassumption.
  - destruct (populate sv fuel n et b) as [[[b' l]|]|] eqn:H; try reflexivity. eapply populate_aset; eassumption.
  - apply (ss_limits b lo hi).
  - destruct (set_min_items b k) eqn:EF; [|reflexivity]. apply (ss_min _ _ _ EF).
  - destruct (set_max_items b k) eqn:EF; [|reflexivity]. apply (ss_max _ _ _ EF).
  - exists o. reflexivity.
Qed.

(** ** Flipsets do not read the action set once they have a builder *)
Lemma shared_resort srt f A : f_resort srt (f_shared f A) = (f_shared (fst (f_resort srt f)) A, snd (f_resort srt f)).
Proof. unfold f_resort. cbn [f_by f_df f_inplace f_shared]. destruct (srt (f_by f) (f_df f)); [|reflexivity]. destruct (f_inplace f); reflexivity. Qed.
Lemma shared_add srt f A l : f_add srt (f_shared f A) l = (f_shared (fst (f_add srt f l)) A, snd (f_add srt f l)).
Proof.
  unfold f_add. change (mapM (validate_item (f_shared f A)) l) with (mapM (validate_item f) l).
  destruct (mapM (validate_item f) l) as [l'|e]; [|reflexivity]. unfold add_to_df. destruct l' as [|i l']; [reflexivity|].
  change (mapM (item_row (f_with_items (f_shared f A) (f_items (f_shared f A) ++ i :: l') (f_df (f_shared f A)))) (i :: l'))
    with (mapM (item_row (f_with_items f (f_items f ++ i :: l') (f_df f))) (i :: l')).
  destruct (mapM (item_row (f_with_items f (f_items f ++ i :: l') (f_df f))) (i :: l')) as [rows|e]; [|reflexivity].
  apply (shared_resort srt (f_with_items (f_with_items f (f_items f ++ i :: l') (f_df f)) (f_items f ++ i :: l') (relabel (map snd (f_df f) ++ rows))) A).
Qed.
Lemma shared_sort srt f A q : f_sort srt (f_shared f A) q = (f_shared (fst (f_sort srt f q)) A, snd (f_sort srt f q)).
Proof.
  destruct q as [|names ip ax|names].
  - apply shared_resort.
  - cbn. destruct (all_some names) as [[|c ks]|]; try reflexivity. destruct ax; [|reflexivity]. destruct (srt _ _); [|reflexivity]. destruct ip; reflexivity.
  - destruct names as [|n names]; [apply shared_resort|]. cbn -[all_some]. destruct (all_some _) as [[|c ks]|]; try reflexivity. destruct (srt _ _); reflexivity.
Qed.
Lemma shared_flat srt order f A : to_flat_df srt order (f_shared f A) = (f_shared (fst (to_flat_df srt order f)) A, snd (to_flat_df srt order f)).
Proof. unfold to_flat_df. rewrite shared_resort. destruct (f_resort srt f) as [f' [u|e]]; reflexivity. Qed.
Lemma shared_populate E sv srt fuel total et ct f A b : f_builder f = Some b ->
  f_populate E sv srt fuel total et ct (f_shared f A) =
  match f_populate E sv srt fuel total et ct f with Some (f', r) => Some (f_shared f' A, r) | None => None end.
Proof.
  intro H. unfold f_populate. cbn [f_builder f_shared]. rewrite H. cbn [option_map]. rewrite query_populate.
  destruct (populate sv fuel total et b) as [[[b' l]|e]|]; try reflexivity.
  - change (f_with_builder (f_shared f A) (Some (with_aset b' A))) with (f_shared (f_with_builder f (Some b')) A). rewrite shared_add. destruct (f_add srt (f_with_builder f (Some b')) (map sol_item l)); reflexivity.
Qed.
Definition populates (o : flipset_op) : Prop := match o with FPopulate _ _ _ _ => True | _ => False end.
Lemma shared_step E sv srt f A o : f_builder f <> None \/ ~ populates o -> flipset_step E sv srt (f_shared f A) o = f_shared (flipset_step E sv srt f o) A.
Proof.
  intro H. destruct o as [fuel total et ct|q|l|]; cbn [flipset_step].
  - destruct (f_builder f) as [b|] eqn:Hb; [|destruct H as [H|H]; [now elim H|now elim H]]. rewrite (shared_populate E sv srt fuel total et ct f A b Hb).
    destruct (f_populate E sv srt fuel total et ct f) as [[f' r]|]; reflexivity.
  - now rewrite shared_sort.
  - now rewrite shared_add.
  - now rewrite shared_flat.
Qed.
Lemma builder_resort srt f : f_builder (fst (f_resort srt f)) = f_builder f.
Proof. unfold f_resort. destruct (srt _ _); [|reflexivity]. cbn. destruct (f_inplace f); reflexivity. Qed.
Lemma builder_add srt f l : f_builder (fst (f_add srt f l)) = f_builder f.
Proof.
  unfold f_add. destruct (mapM _ _) as [l'|e]; [|reflexivity]. unfold add_to_df. destruct l' as [|i l']; [reflexivity|].
  destruct (mapM _ _) as [rows|e]; [|reflexivity]. now rewrite builder_resort.
Qed.
Lemma builder_sort srt f q : f_builder (fst (f_sort srt f q)) = f_builder f.
Proof.
  destruct q as [|names ip ax|names].
  - apply builder_resort.
  - cbn. destruct (all_some names) as [[|c ks]|]; try reflexivity. destruct ax; [|reflexivity]. destruct (srt _ _); [|reflexivity]. destruct ip; reflexivity.
  - destruct names as [|n names]; [apply builder_resort|]. cbn -[all_some]. destruct (all_some _) as [[|c ks]|]; try reflexivity. destruct (srt _ _); reflexivity.
Qed.
Lemma builder_keeps E sv srt f o : ~ populates o -> f_builder (flipset_step E sv srt f o) = f_builder f.
Proof.
  intro H. destruct o as [fuel total et ct|q|l|]; cbn [flipset_step]; [now elim H|apply builder_sort|apply builder_add|].
  unfold to_flat_df. pose proof (builder_resort srt f) as K. destruct (f_resort srt f) as [f' [u|e]]; exact K.
Qed.
(** populate leaves a flipset without a builder only if it has left it as it was. *)
Lemma still_none E sv srt f o : f_builder (flipset_step E sv srt f o) = None -> populates o -> flipset_step E sv srt f o = f.
Proof.
  destruct o as [fuel total et ct|q|l|]; cbn [flipset_step populates]; intros H P; try contradiction. revert H.
  unfold f_populate. destruct (match f_builder f with Some b => _ | None => _ end) as [b|e]; [|reflexivity].
  destruct (populate sv fuel total et b) as [[[b' l]|e]|]; [|discriminate|reflexivity].
  pose proof (builder_add srt (f_with_builder f (Some b')) (map sol_item l)) as K. destruct (f_add _ _ _) as [f' r]. cbn in *. congruence.
Qed.
Lemma shared_run E sv srt A ops : forall f, Forall (fun o => ~ populates o) ops -> flipset_run E sv srt (f_shared f A) ops = f_shared (flipset_run E sv srt f ops) A.
Proof.
  unfold flipset_run. induction ops as [|o ops IH]; intros f H; [reflexivity|]. inversion H; subst. cbn [fold_left]. rewrite shared_step by now right. now apply IH.
Qed.

(** ** The invariant *)
Definition flip_ok (E : env) (sv : solver) (srt : sorter) (A : action_set) (f : flipset) : Prop :=
  exists k A0 x w t f0 ops, aset_reachable E A0 /\ flipset_created k A0 x w t None f0 /\ f = f_shared (flipset_run E sv srt f0 ops) A /\
    as_names A0 = as_names A /\ (f_builder f = None -> A0 = A /\ Forall (fun o => ~ populates o) ops).
Definition thing_ok (E : env) (sv : solver) (srt : sorter) (A : action_set) (o : thing) : Prop :=
  match o with
  | TBuilder b => bd_A b = A /\ builder_reachable E sv b
  | TAuditor b => bd_A b = A /\ exists k A0 w t, aset_reachable E A0 /\ auditor_reachable E sv k A0 w t b
  | TFlipset f => flip_ok E sv srt A f
  end.
Lemma auditor_step_reach E sv k A w t b o : auditor_reachable E sv k A w t b -> auditor_reachable E sv k A w t (auditor_step E sv b o).
Proof. intros (b0 & ops & H & ->). exists b0, (ops ++ [o]). split; [exact H|]. unfold auditor_run. now rewrite fold_left_app. Qed.
Lemma created_shared E k A A' x w t f : aset_reachable E A -> as_names A' = as_names A -> flipset_created k A x w t None f -> flipset_created k A' x w t None (f_shared f A').
Proof.
  intros HR HN (args & HP & H). exists args. split; [exact HP|]. unfold mk_flipset in *. rewrite HP in *. cbn [bind] in *. injection H as <-.
  unfold f_shared. cbn. unfold as_len. now rewrite HN.
Qed.
Lemma nudge_thing E sv srt A A' o : aset_reachable E A -> nudge E A A' -> thing_ok E sv srt A o -> thing_ok E sv srt A' (share A' o).
Proof.
  intros HR HN H. destruct o as [b|b|f]; cbn [thing_ok share] in *.
  - destruct H as [<- H]. split; [reflexivity|]. destruct HN as [->|[o ->]]; [rewrite with_aset_same; auto|]. now apply (reach_step E sv b (BAset o)).
  - destruct H as [<- (k & A0 & w & t & H0 & H)]. split; [reflexivity|]. exists k, A0, w, t. split; [exact H0|]. destruct HN as [->|[o ->]]; [rewrite with_aset_same; auto|].
    now apply (auditor_step_reach E sv k A0 w t b (AAset o)).
  - destruct H as (k & A0 & x & w & t & f0 & ops & H0 & H1 & H2 & H3 & H4).
    pose proof (nudge_names _ _ _ HN HR) as NN. destruct (f_builder f) as [b|] eqn:Hb.
    + exists k, A0, x, w, t, f0, ops. split; [exact H0|]. split; [exact H1|]. split; [rewrite H2; apply f_shared_twice|]. split; [congruence|].
      cbn. rewrite Hb. discriminate.
    + destruct (H4 eq_refl) as [-> HF]. exists k, A', x, w, t, (f_shared f0 A'), ops. split; [eapply nudge_reach; eassumption|]. split; [eapply created_shared; eassumption|].
      split; [|split; [reflexivity|auto]]. rewrite shared_run by exact HF. rewrite H2. now rewrite !f_shared_twice.
Qed.
Lemma run_snoc E sv srt f ops o : flipset_run E sv srt f (ops ++ [o]) = flipset_step E sv srt (flipset_run E sv srt f ops) o.
Proof. unfold flipset_run. now rewrite fold_left_app. Qed.
Lemma populates_dec o : populates o \/ ~ populates o.
Proof. destruct o; cbn; auto. Qed.
Lemma audit_aset {I} E sv b (X : list (I * list fl)) y : bd_A (fst (audit E sv b X y)) = bd_A b.
Proof.
  assert (HL : forall l b, bd_A (fst (audit_loop E sv b l)) = bd_A b).
  { induction l as [|[i u] l IH]; intro c; [reflexivity|]. cbn [audit_loop]. pose proof (set_x_aset E c u) as K.
    destruct (set_x E c u) as [c1 [q|er]]; cbn [fst] in *; [|exact K]. destruct (fit sv c1) as [[c2 s]|] eqn:HF; [|exact K].
    pose proof (IH c2) as K2. destruct (audit_loop E sv c2 l) as [c3 [out|er]]; cbn [fst] in *; rewrite K2, (fit_aset _ _ _ _ HF); exact K. }
  unfold audit. match goal with |- context [match ?p with Ok _ => _ | Err _ => _ end] => destruct p as [rows|er]; [|reflexivity] end.
  cbv zeta. match goal with |- context [audit_loop E sv b ?l] => pose proof (HL l b) as K; destruct (audit_loop E sv b l) as [b3 [[|o out]|er]]; exact K end.
Qed.
Lemma respond_ok E sv srt A o r A' o' : aset_reachable E A -> thing_ok E sv srt A o -> respond E sv srt A o r = (A', o') ->
  nudge E A A' /\ thing_ok E sv srt A' (share A' o').
Proof.
  intros HR H HC.
  assert (HD : A' = A -> o' = o -> nudge E A A' /\ thing_ok E sv srt A' (share A' o')).
  { intros -> ->. split; [now left|]. apply (nudge_thing E sv srt A A o HR); [now left|exact H]. }
  destruct o as [b|b|f]; destruct r as [op|X y|op]; cbn [respond] in HC; try (injection HC as E1 E2; apply HD; congruence).
  - injection HC as <- <-. cbn [thing_ok share] in *. destruct H as [<- H]. split; [apply step_nudge|]. split; [reflexivity|]. rewrite with_aset_same by reflexivity. now apply reach_step.
  - injection HC as <- <-. cbn [thing_ok share] in *. destruct H as [<- (k & A0 & w & t & H0 & H)]. split; [now left|]. split; [reflexivity|]. exists k, A0, w, t. split; [exact H0|].
    rewrite with_aset_same by apply audit_aset. now apply (auditor_step_reach E sv k A0 w t b (AAudit X y)).
  - injection HC as EA <-. cbn [thing_ok share] in *. pose proof H as (k & A0 & x & w & t & f0 & ops & H0 & H1 & H2 & H3 & H4).
    assert (HG : (A' = A /\ (f_builder f <> None \/ ~ populates op)) \/ (f_builder f = None /\ populates op /\ nudge E A A')).
    { subst A'. destruct (f_builder f) as [b|]; [left; split; [reflexivity|left; discriminate]|]. destruct op; [right|left|left|left]; try (split; [reflexivity|right; cbn; tauto]). cbn. split; [reflexivity|]. split; [exact I|]. apply left_builder. }
    destruct HG as [[-> HG]|(HB & HP & HN)].
    + split; [now left|]. exists k, A0, x, w, t, f0, (ops ++ [op]). split; [exact H0|]. split; [exact H1|]. split; [|split; [exact H3|]].
      * rewrite H2, shared_step; [now rewrite f_shared_twice, run_snoc|]. rewrite H2 in HG. cbn in HG. destruct (f_builder (flipset_run E sv srt f0 ops)); [left; discriminate|]. destruct HG as [HG|HG]; [now elim HG|now right].
      * cbn. intro K. destruct (populates_dec op) as [HP|HP].
        -- destruct HG as [HG|HG]; [|contradiction]. assert (KN : f_builder (flipset_step E sv srt f op) = None) by (destruct (f_builder (flipset_step E sv srt f op)); [discriminate K|reflexivity]).
           rewrite (still_none _ _ _ _ _ KN HP) in KN. contradiction.
        -- rewrite builder_keeps in K by exact HP. destruct (f_builder f); [discriminate K|]. destruct (H4 eq_refl) as [-> HF]. split; [reflexivity|]. apply Forall_app. split; [exact HF|]. constructor; [exact HP|constructor].
    + split; [exact HN|]. destruct (H4 HB) as [-> HF].
      assert (EF : f = flipset_run E sv srt f0 ops).
      { rewrite H2. apply f_shared_same.
        - destruct (frame_created _ _ _ _ _ _ _ H1) as [F0 _]. apply (frame_run E sv srt _ _ _ _ _ ops) in F0. apply (fm_A _ _ _ _ _ _ F0).
        - rewrite H2 in HB. cbn in HB. destruct (f_builder (flipset_run E sv srt f0 ops)); [discriminate HB|reflexivity]. }
      destruct (f_builder (flipset_step E sv srt f op)) as [b|] eqn:HS.
      * exists k, A, x, w, t, f0, (ops ++ [op]). split; [exact H0|]. split; [exact H1|]. split; [now rewrite run_snoc, <- EF|]. split; [symmetry; eapply nudge_names; eassumption|]. cbn. rewrite HS. discriminate.
      * rewrite (still_none _ _ _ _ _ HS HP). apply (nudge_thing E sv srt A A' (TFlipset f) HR HN H).
Qed.

Definition ws_ok E svs srt s : Prop := aset_reachable E (ws_A s) /\ forall i o, holds s i o -> thing_ok E (svs i) srt (ws_A s) o.
Lemma settle_nth A l i o : nth_error (ws_things (settle A l)) i = Some o -> exists o0, nth_error l i = Some o0 /\ o = share A o0.
Proof. cbn. intro H. rewrite nth_error_map in H. destruct (nth_error l i) as [o0|]; [|discriminate H]. injection H as <-. eauto. Qed.
Lemma add_nth {X} (f : X -> thing) r l i o : nth_error (add_thing f r l) i = Some o -> nth_error l i = Some o \/ exists v, r = Ok v /\ o = f v /\ i = length l.
Proof.
  unfold add_thing. destruct r as [v|e]; [|auto]. intro H. destruct (Nat.lt_ge_cases i (length l)) as [Hi|Hi]; [rewrite nth_error_app1 in H; auto|].
  rewrite nth_error_app2 in H by exact Hi. right. exists v. destruct (i - length l)%nat as [|n] eqn:Hn; cbn in H; [injection H as <-; split; [reflexivity|split; [reflexivity|lia]]|destruct n; discriminate H].
Qed.
Lemma mk_aset E k A a ct x b : mk_builder E k A a ct x = Ok b -> bd_A b = left_by_builder E k A a ct.
Proof.
  unfold left_by_builder, mk_builder. intro H. bnd H as [w t] Hp. rewrite Hp. cbn [bind]. bnd H as u Hu. rewrite Hu. cbn [bind]. bnd H as A' HA. rewrite HA. cbn [bind].
  destruct x as [x|]; [|now injection H as <-]. match type of H with (let '(_, _) := set_x E ?c x in _) = _ => pose proof (set_x_aset E c x) as K; destruct (set_x E c x) as [b' r] end. bnd H as v Hv. injection H as <-. exact K.
Qed.
Lemma auditor_left E k A a b : mk_auditor E k A a = Ok b -> bd_A b = left_by_auditor A a.
Proof.
  unfold left_by_auditor, mk_auditor. intro H. bnd H as [w t] Hp. rewrite Hp. bnd H as A1 HA. rewrite HA.
  pose proof (mk_none E k A1 (coef_args w t) CMax) as M. rewrite H in M. destruct M as (w' & t' & _ & _ & M).
  assert (R1 : alignment_known A1 = true).
  { pose proof (set_alignment_spec _ _ _ HA) as (? & ? & _ & _ & _ & _ & _ & K1). unfold alignment_known. rewrite K1. apply forallb_forall. intros e He. apply in_map_iff in He. destruct He as ([e0 f] & <- & _). reflexivity. }
  rewrite R1 in M. exact M.
Qed.
Lemma ws_step_ok E svs srt s o : ws_ok E svs srt s -> ws_ok E svs srt (ws_step E svs srt s o).
Proof.
  intros [HR HT]. destruct o as [op|k a ct x|k a|k x a|i r]; cbn [ws_step].
  - assert (HN : nudge E (ws_A s) (aset_step E (ws_A s) op)) by (right; eauto). split; [eapply nudge_reach; eassumption|]. intros i o H. apply settle_nth in H. destruct H as (o0 & H & ->). apply (nudge_thing _ _ _ _ _ _ HR HN), HT, H.
  - pose proof (left_builder E k (ws_A s) a ct) as HN. split; [eapply nudge_reach; eassumption|]. intros i o H. apply settle_nth in H. destruct H as (o0 & H & ->). apply add_nth in H. destruct H as [H|(v & H & -> & _)]; [apply (nudge_thing _ _ _ _ _ _ HR HN), HT, H|].
    cbn. split; [reflexivity|]. rewrite with_aset_same by (eapply mk_aset; eassumption). exists v, []. split; [|reflexivity]. exists k, (ws_A s), a, ct, x. auto.
  - pose proof (left_auditor E (ws_A s) a) as HN. split; [eapply nudge_reach; eassumption|]. intros i o H. apply settle_nth in H. destruct H as (o0 & H & ->). apply add_nth in H. destruct H as [H|(v & H & -> & _)]; [apply (nudge_thing _ _ _ _ _ _ HR HN), HT, H|].
    cbn. split; [reflexivity|]. rewrite with_aset_same by (eapply auditor_left; eassumption). pose proof H as H'. unfold mk_auditor in H'. bnd H' as [w t] Hp. exists k, (ws_A s), w, t. split; [exact HR|]. exists v, []. split; [|reflexivity]. exists a. auto.
  - split; [exact HR|]. intros i o H. apply settle_nth in H. destruct H as (o0 & H & ->). apply add_nth in H. destruct H as [H|(v & H & -> & _)]; [apply (nudge_thing _ _ _ _ _ _ HR (or_introl eq_refl)), HT, H|].
    cbn. pose proof H as H'. unfold mk_flipset in H'. bnd H' as [w t] Hp. exists k, (ws_A s), x, w, t, v, []. split; [exact HR|]. split; [exists a; auto|]. split; [reflexivity|]. split; [reflexivity|]. auto.
  - destruct (nth_error (ws_things s) i) as [o0|] eqn:Hi; [|now split]. destruct (respond E (svs i) srt (ws_A s) o0 r) as [A' o'] eqn:HC.
    destruct (respond_ok E (svs i) srt (ws_A s) o0 r A' o' HR (HT i o0 Hi) HC) as [HN HO]. split; [eapply nudge_reach; eassumption|].
    intros j o H. apply settle_nth in H. destruct H as (o1 & H & ->). destruct (Nat.eq_dec i j) as [<-|Hj].
    + rewrite list_set_eq in H by (apply nth_error_Some; congruence). injection H as <-. exact HO.
    + rewrite list_set_neq in H by exact Hj. apply (nudge_thing _ _ _ _ _ _ HR HN), HT, H.
Qed.
Lemma ws_reach_ok E svs srt s : ws_reachable E svs srt s -> ws_ok E svs srt s.
Proof.
  intros (A & ops & HA & ->). assert (H0 : ws_ok E svs srt {| ws_A := A; ws_things := [] |}) by (split; [exact HA|intros [|i] o H; discriminate H]).
  unfold ws_run. revert H0. generalize {| ws_A := A; ws_things := [] |}. induction ops as [|o ops IH]; intros s H; [exact H|]. cbn. apply IH. now apply ws_step_ok.
Qed.

(** ** C123 *)
Lemma shared_builder E svs srt s i b : ws_reachable E svs srt s -> holds s i (TBuilder b) -> bd_A b = ws_A s /\ builder_reachable E (svs i) b.
Proof. intros H Hi. exact (proj2 (ws_reach_ok _ _ _ _ H) i _ Hi). Qed.
Lemma shared_auditor E svs srt s i b : ws_reachable E svs srt s -> holds s i (TAuditor b) ->
  bd_A b = ws_A s /\ exists k A0 w t, aset_reachable E A0 /\ auditor_reachable E (svs i) k A0 w t b.
Proof. intros H Hi. exact (proj2 (ws_reach_ok _ _ _ _ H) i _ Hi). Qed.
Lemma shared_flipset E svs srt s i f : ws_reachable E svs srt s -> holds s i (TFlipset f) ->
  exists k A0 x w t f0, aset_reachable E A0 /\ flipset_reachable E (svs i) srt k A0 x w t None f0 /\ f = f_shared f0 (ws_A s) /\
    (f_builder f = None -> A0 = ws_A s /\ f = f0).
Proof.
  intros H Hi. destruct (proj2 (ws_reach_ok _ _ _ _ H) i _ Hi) as (k & A0 & x & w & t & f0 & ops & H0 & H1 & H2 & _ & H4).
  exists k, A0, x, w, t, (flipset_run E (svs i) srt f0 ops). split; [exact H0|]. split; [exists f0, ops; auto|]. split; [exact H2|]. intro HB. destruct (H4 HB) as [-> _]. split; [reflexivity|].
  rewrite H2 at 1. apply f_shared_same.
  - destruct (frame_created _ _ _ _ _ _ _ H1) as [F0 _]. apply (frame_run E (svs i) srt _ _ _ _ _ ops) in F0. apply (fm_A _ _ _ _ _ _ F0).
  - rewrite H2 in HB. cbn in HB. destruct (f_builder (flipset_run E (svs i) srt f0 ops)); [discriminate HB|reflexivity].
Qed.
Lemma shared_set E svs srt s : ws_reachable E svs srt s -> aset_reachable E (ws_A s).
Proof. intro H. exact (proj1 (ws_reach_ok _ _ _ _ H)). Qed.
Lemma ws_reach_step E svs srt s o : ws_reachable E svs srt s -> ws_reachable E svs srt (ws_step E svs srt s o).
Proof. intros (A & ops & HA & ->). exists A, (ops ++ [o]). split; [exact HA|]. unfold ws_run. now rewrite fold_left_app. Qed.
Lemma nth_add {X} (f : X -> thing) r l i o : nth_error l i = Some o -> nth_error (add_thing f r l) i = Some o.
Proof. intro H. unfold add_thing. destruct r; [|exact H]. rewrite nth_error_app1; [exact H|]. apply nth_error_Some. congruence. Qed.
Lemma share_now E svs srt s i o : ws_reachable E svs srt s -> holds s i o -> share (ws_A s) o = o.
Proof.
  intros H Hi. destruct o as [b|b|f]; cbn [share].
  - destruct (shared_builder _ _ _ _ _ _ H Hi) as [<- _]. now rewrite with_aset_same.
  - destruct (shared_auditor _ _ _ _ _ _ H Hi) as [<- _]. now rewrite with_aset_same.
  - destruct (shared_flipset _ _ _ _ _ _ H Hi) as (k & A0 & x & w & t & f0 & _ & _ & -> & _). now rewrite f_shared_twice.
Qed.
Lemma settle_holds A l i o : nth_error l i = Some o -> nth_error (ws_things (settle A l)) i = Some (share A o).
Proof. intro H. cbn. rewrite nth_error_map, H. reflexivity. Qed.
Lemma elsewhere_step E svs srt s i o p : ws_reachable E svs srt s -> holds s i o -> elsewhere i p ->
  holds (ws_step E svs srt s p) i (share (ws_A (ws_step E svs srt s p)) o).
Proof.
  intros HR Hi HE. unfold holds in *. destruct p as [op|k a ct x|k a|k x a|j r]; cbn [ws_step elsewhere] in *; try (apply settle_holds; first [exact Hi|now apply nth_add]).
  destruct (nth_error (ws_things s) j) as [o'|] eqn:Hj.
  - destruct (respond E (svs j) srt (ws_A s) o' r) as [A' o2]. apply settle_holds. now rewrite list_set_neq by exact HE.
  - rewrite Hi. f_equal. symmetry. eapply share_now; eassumption.
Qed.
Lemma elsewhere_run E svs srt ops : forall s i o, ws_reachable E svs srt s -> holds s i o -> Forall (elsewhere i) ops ->
  ws_reachable E svs srt (ws_run E svs srt s ops) /\ holds (ws_run E svs srt s ops) i (share (ws_A (ws_run E svs srt s ops)) o).
Proof.
  unfold ws_run. induction ops as [|p ops IH]; intros s i o HR Hi HE; cbn [fold_left].
  - split; [exact HR|]. rewrite (share_now _ _ _ _ _ _ HR Hi). exact Hi.
  - inversion HE; subst. destruct (IH _ i _ (ws_reach_step _ _ _ _ p HR) (elsewhere_step _ _ _ _ _ _ _ HR Hi H1) H2) as [K1 K2]. split; [exact K1|]. now rewrite share_twice in K2.
Qed.
(** Nothing done elsewhere touches what an object has been asked before. *)
Theorem c123_answers E svs srt s i b ops : ws_reachable E svs srt s -> holds s i (TBuilder b) -> Forall (elsewhere i) ops ->
  exists b', holds (ws_run E svs srt s ops) i (TBuilder b') /\
    (forall b1 r, fit (svs i) b = Ok (b1, r) -> exists b1', fit (svs i) b' = Ok (b1', r)) /\
    (forall fuel total et b1 l, populate (svs i) fuel total et b = Some (Ok (b1, l)) -> exists b1', populate (svs i) fuel total et b' = Some (Ok (b1', l))).
Proof.
  intros HR Hi HE. destruct (elsewhere_run _ _ _ ops s i _ HR Hi HE) as [_ K]. cbn [share] in K. eexists. split; [exact K|]. split.
  - intros b1 r H. rewrite query_fit, H. eauto.
  - intros fuel total et b1 l H. rewrite query_populate, H. eauto.
Qed.
Theorem c123_tables E svs srt s i f ops : ws_reachable E svs srt s -> holds s i (TFlipset f) -> Forall (elsewhere i) ops ->
  exists f', holds (ws_run E svs srt s ops) i (TFlipset f') /\ f_items f' = f_items f /\ f_df f' = f_df f /\
    (forall order, snd (to_flat_df srt order f') = snd (to_flat_df srt order f)) /\
    (f_builder f <> None -> forall fuel total et ct f1 r, f_populate E (svs i) srt fuel total et ct f = Some (f1, r) ->
       exists f1', f_populate E (svs i) srt fuel total et ct f' = Some (f1', r) /\ f_items f1' = f_items f1 /\ f_df f1' = f_df f1).
Proof.
  intros HR Hi HE. destruct (elsewhere_run _ _ _ ops s i _ HR Hi HE) as [_ K]. cbn [share] in K. eexists. split; [exact K|]. split; [reflexivity|]. split; [reflexivity|]. split.
  - intro order. now rewrite shared_flat.
  - intros HB fuel total et ct f1 r H. destruct (f_builder f) as [b|] eqn:Hb; [|now elim HB]. rewrite (shared_populate E _ _ _ _ _ _ f _ b Hb), H. eexists. split; [reflexivity|]. split; reflexivity.
Qed.
(** Calls, other than a flipset's first populate, change nothing but the object called. *)
Lemma use_keeps E sv srt A o r A' o' : (forall op, r <> RBuilder (BAset op)) -> (forall f fuel total et ct, o = TFlipset f -> r = RFlipset (FPopulate fuel total et ct) -> f_builder f <> None) ->
  thing_ok E sv srt A o -> respond E sv srt A o r = (A', o') -> A' = A.
Proof.
  intros N1 N2 HT H. destruct o as [b|b|f]; destruct r as [op|X y|op]; cbn [respond] in H; injection H as H _; try congruence.
  - subst A'. destruct HT as [<- _]. destruct op as [x| |fuel n et|lo hi|k|k|o]; cbn [builder_step].
    + apply set_x_aset.
    + destruct (fit sv b) as [[b1 q]|] eqn:HF; [|reflexivity]. eapply fit_aset; eassumption.
    + destruct (populate sv fuel n et b) as [[[b1 l]|]|] eqn:HF; try reflexivity. eapply populate_aset; eassumption.
    + apply (ss_limits b lo hi).
    + destruct (set_min_items b k) eqn:EF; [|reflexivity]. apply (ss_min _ _ _ EF).
    + destruct (set_max_items b k) eqn:EF; [|reflexivity]. apply (ss_max _ _ _ EF).
    + now elim (N1 o).
  - subst A'. destruct (f_builder f) eqn:HB; [reflexivity|]. destruct op; try reflexivity. now elim (N2 f _ _ _ _ eq_refl eq_refl).
Qed.
Theorem c123_use E svs srt s o i t : ws_reachable E svs srt s -> mere_use s o -> elsewhere i o -> holds s i t ->
  ws_A (ws_step E svs srt s o) = ws_A s /\ holds (ws_step E svs srt s o) i t.
Proof.
  intros HR HM HE Hi. assert (HA : ws_A (ws_step E svs srt s o) = ws_A s).
  { destruct o as [op|k a ct x|k a|k x a|j r]; cbn [mere_use] in HM; try contradiction. cbn [ws_step]. destruct (nth_error (ws_things s) j) as [o'|] eqn:Hj; [|reflexivity].
    destruct (respond E (svs j) srt (ws_A s) o' r) as [A' o2] eqn:HC. cbn. destruct HM as [M1 M2]. eapply use_keeps; [exact M1| | |exact HC].
    - intros f fuel total et ct -> Er. now apply (M2 f fuel total et ct).
    - apply (proj2 (ws_reach_ok _ _ _ _ HR) j _ Hj). }
  split; [exact HA|]. pose proof (elsewhere_step E svs srt s i t o HR Hi HE) as K. rewrite HA in K. now rewrite (share_now _ _ _ _ _ _ HR Hi) in K.
Qed.
(** Without an edit by the caller only flip directions can change. *)
Lemma left_builder_dirs E k A a ct : aset_reachable E A -> only_directions_differ A (left_by_builder E k A a ct).
Proof.
  intro HR. pose proof (wf_len _ _ (reachable_wf _ _ HR)) as HL. unfold left_by_builder. pose proof (mk_none E k A a ct) as M. destruct (mk_builder E k A a ct None) as [b|]; [|apply sbf_only, sbf_refl].
  destruct M as (w & t & _ & _ & M). destruct (alignment_known A) eqn:EA; [rewrite M; apply sbf_only, sbf_refl|]. eapply sbf_only, align_sbf; eauto.
Qed.
Lemma left_auditor_dirs E A a : aset_reachable E A -> only_directions_differ A (left_by_auditor A a).
Proof.
  intro HR. pose proof (wf_len _ _ (reachable_wf _ _ HR)) as HL. unfold left_by_auditor. destruct (parse_classifier_args a) as [[w t]|]; [|apply sbf_only, sbf_refl].
  destruct (set_alignment A _) as [A1|] eqn:H; [|apply sbf_only, sbf_refl]. eapply sbf_only, align_sbf; eauto.
Qed.
Lemma dirs_trans A B C : only_directions_differ A B -> only_directions_differ B C -> only_directions_differ A C.
Proof.
  intros (A1 & A2 & A3 & A4 & A5) (B1 & B2 & B3 & B4 & B5). split; [congruence|]. split; [congruence|]. split; [congruence|]. split; [congruence|].
  intros j e e' H H'. destruct (nth_error (as_elems B) j) as [e1|] eqn:H1.
  - destruct (A5 j e e1 H H1) as (f & ->), (B5 j _ e' H1 H') as (g & ->). exists g. reflexivity.
  - exfalso. apply nth_error_None in H1. assert (nth_error (as_elems A) j <> None) as N by congruence. apply nth_error_Some in N. lia.
Qed.
Theorem c123_directions E svs srt ops : forall s, ws_reachable E svs srt s -> Forall no_edit ops -> only_directions_differ (ws_A s) (ws_A (ws_run E svs srt s ops)).
Proof.
  unfold ws_run. induction ops as [|o ops IH]; intros s HR HF; cbn [fold_left]; [apply sbf_only, sbf_refl|]. inversion HF; subst.
  eapply dirs_trans; [|apply IH; [now apply ws_reach_step|assumption]]. pose proof (shared_set _ _ _ _ HR) as HA.
  destruct o as [op|k a ct x|k a|k x a|j r]; cbn [no_edit ws_step] in *; try contradiction; cbn [settle ws_A].
  - now apply left_builder_dirs.
  - apply (left_auditor_dirs E). exact HA.
  - apply sbf_only, sbf_refl.
  - destruct (nth_error (ws_things s) j) as [o'|] eqn:Hj; [|apply sbf_only, sbf_refl]. destruct (respond E (svs j) srt (ws_A s) o' r) as [A' o2] eqn:HC. cbn [settle ws_A].
    pose proof (proj2 (ws_reach_ok _ _ _ _ HR) j _ Hj) as HO.
    destruct o' as [b|b|f].
    + rewrite (use_keeps E (svs j) srt (ws_A s) (TBuilder b) r A' o2 H1 ltac:(intros ? ? ? ? ? QQ; discriminate QQ) HO HC). apply sbf_only, sbf_refl.
    + rewrite (use_keeps E (svs j) srt (ws_A s) (TAuditor b) r A' o2 H1 ltac:(intros ? ? ? ? ? QQ; discriminate QQ) HO HC). apply sbf_only, sbf_refl.
    + destruct r as [op|X y|op]; cbn [respond] in HC; injection HC as <- _; try (apply sbf_only, sbf_refl). destruct (f_builder f); [apply sbf_only, sbf_refl|].
      destruct op as [fuel total et ct|q|l|]; try (apply sbf_only, sbf_refl). apply left_builder_dirs. exact HA.
Qed.
