(** Proofs for C127: flipsets that share a builder. *)
From Verif Require Import Spec_pool Proofs_props_element Proofs_props_actionset Proofs_actionset Proofs_flipset Proofs_flipset3 Proofs_builder Proofs_builder2 Proofs_builder3 Proofs_builder6 Proofs_builder8 Proofs_shared Proofs_list2.
#[local] Open Scope list_scope.
#[local] Open Scope Qc_scope.

Lemma share_app i l l2 : share_of i (l ++ l2) = share_of i l ++ share_of i l2.
Proof. unfold share_of. apply flat_map_app. Qed.
Lemma share_none i l : share_of i (map (pair None) l) = [].
Proof. unfold share_of. induction l as [|d l IH]; [reflexivity|exact IH]. Qed.
Lemma share_own i et (l : list sol) : share_of i (map (fun s => (Some i, (et, s))) l) = l.
Proof. unfold share_of. induction l as [|d l IH]; [reflexivity|]. cbn [map flat_map fst snd]. rewrite Nat.eqb_refl. cbn [app]. now rewrite IH. Qed.
Lemma share_other i j et (l : list sol) : i <> j -> share_of i (map (fun s => (Some j, (et, s))) l) = [].
Proof. intro N. unfold share_of. induction l as [|d l IH]; [reflexivity|]. cbn [map flat_map fst snd]. destruct (Nat.eqb_spec i j) as [Q|_]; [now elim N|]. exact IH. Qed.
Lemma snd_own {X} (j : option nat) (et : enum_type) (l : list X) : map snd (map (fun s => (j, (et, s))) l) = map (pair et) l.
Proof. rewrite map_map. reflexivity. Qed.

Section Pool.
Context (E : env) (sv : solver) (srt : sorter) (b : builder) (x : list Qc) (b0 : builder).
Context (HE : ok_env E) (HS : sound_solver sv) (HA : assigned E sv b x b0) (HD : denied (as_y (bd_A b)) (score (bd_w b) (bd_t b) x)).
#[local] Notation w := (bd_w b).
#[local] Notation t := (bd_t b).

Definition kept (c : builder) (l : list delivery) (i : nat) (f : flipset) : Prop :=
  f_builder f = Some c /\ (exists k A, as_len A = as_len (bd_A b) /\ frame k A x w t f) /\ f_items f = map filed (share_of i l).
Definition together (s : pool) (l : list delivery) : Prop :=
  enumeration sv b0 (map snd l) (po_b s) /\ (forall i f, nth_error (po_f s) i = Some f -> kept (po_b s) l i f) /\
  (forall i, (length (po_f s) <= i)%nat -> share_of i l = []).

Lemma lens : length x = as_len (bd_A b) /\ length w = as_len (bd_A b).
Proof.
  destruct (assigned_ready _ sv _ _ _ HE HA) as (ms & R). split; [exact (rd_x _ _ _ _ _ R)|exact (rd_w _ _ _ _ _ R)].
Qed.
Lemma facts l c fuel total et c' l2 s : enumeration sv b0 l c -> populate sv fuel total et c = Some (Ok (c', l2)) -> In s l2 ->
  permitted_action (bd_A b) x (s_actions s) /\ on_side (as_y (bd_A b)) (score w t (vadd x (s_actions s))) /\ (1 <= n_changed (s_actions s))%nat /\ 0 < s_cost s.
Proof.
  intros HEn Hp Hs. pose proof (enumeration_trans _ _ _ _ HEn _ _ (populate_enum _ _ _ _ _ _ _ Hp)) as HEn'. destruct (enumeration_session _ _ _ _ HEn') as (ls & HSes & HIn).
  assert (Hin : In s ls). { apply (HIn (et, s)). apply in_app_iff. right. now apply in_map. }
  pose proof (c25_thm E sv b x b0 ls c' s HE HS HA HSes Hin) as P1. pose proof (c26_thm E sv b x b0 ls c' s HE HS HA HSes Hin) as P2. destruct (c31_thm E sv b x b0 ls c' s HE HS HA HSes Hin) as (P3 & _ & P4).
  auto.
Qed.
(** What a call of populate on a flipset does. *)
Lemma call_populate l c i f fuel total et ct c' l2 : enumeration sv b0 (map snd l) c -> kept c l i f -> populate sv fuel total et c = Some (Ok (c', l2)) ->
  exists f' r, f_populate E sv srt fuel total et ct f = Some (f', r) /\ f_builder f' = Some c' /\ f_items f' = f_items f ++ map filed l2 /\
    (exists k A, as_len A = as_len (bd_A b) /\ frame k A x w t f').
Proof.
  intros HEn (KB & (k & A & EA & F) & KI) Hp. unfold f_populate. rewrite KB, Hp. set (g := f_with_builder f (Some c')).
  assert (Fg : frame k A x w t g) by now apply frame_builder. destruct lens as [Lx Lw].
  assert (HAcc : Forall2 (filable A x w t) (map sol_item l2) (map filed l2)).
  { assert (Facts : forall s, In s l2 -> length (s_actions s) = as_len A /\ on_side (as_y (bd_A b)) (score w t (vadd x (s_actions s))) /\ (1 <= n_changed (s_actions s))%nat /\ 0 < s_cost s).
    { intros s Hs. destruct (facts _ _ _ _ _ _ _ s HEn Hp Hs) as ((P1 & _) & P2). rewrite EA. auto. }
    clear -Facts HD. induction l2 as [|s l2 IH]; constructor; [|apply IH; intros s' Hs'; apply Facts; now right]. destruct (Facts s (or_introl eq_refl)) as (P1 & P2 & P3 & P4). apply sol_filable; auto. eapply denied_flips; eauto. }
  rewrite <- EA in Lx, Lw. destruct (add_ok k A x w t Lx Lw eq_refl srt g (map sol_item l2) (map filed l2) Fg HAcc) as (rows & _ & Hadd).
  destruct (f_add srt g (map sol_item l2)) as [f' r] eqn:Ef. exists f', r. split; [reflexivity|].
  assert (Ff : frame k A x w t f') by (pose proof (frame_add k A x w t srt g (map sol_item l2) Fg) as K; now rewrite Ef in K).
  assert (HB : f_builder f' = Some c'). { pose proof (builder_add srt g (map sol_item l2)) as K. now rewrite Ef in K. }
  split; [exact HB|]. split; [|exists k, A; auto]. revert Hadd. destruct (map filed l2) as [|v vs].
  - intro Q. injection Q as -> _. cbn. now rewrite app_nil_r.
  - unfold f_resort. destruct (srt _ _) as [d|e]; intro Q; injection Q as -> _; [|reflexivity]. now destruct (f_inplace _).
Qed.
(** Calls that leave items and builder alone. *)
Lemma call_other f o : (forall items, o <> FAdd items) -> (forall fuel total et ct, o <> FPopulate fuel total et ct) ->
  f_items (flipset_step E sv srt f o) = f_items f /\ f_builder (flipset_step E sv srt f o) = f_builder f.
Proof.
  assert (HR : forall g, f_items (fst (f_resort srt g)) = f_items g /\ f_builder (fst (f_resort srt g)) = f_builder g).
  { intro g. unfold f_resort. destruct (srt _ _); [|auto]. cbn. destruct (f_inplace g); auto. }
  intros N1 N2. destruct o as [fuel total et ct|q|items|]; [now elim (N2 fuel total et ct)| |now elim (N1 items)|].
  - cbn [flipset_step]. destruct q as [|names ip ax|names]; cbn -[all_some].
    + apply HR.
    + destruct (all_some names) as [[|c ks]|]; auto. destruct ax; auto. destruct (srt _ _); auto. destruct ip; auto.
    + destruct names as [|n names]; [apply HR|]. cbn -[all_some]. destruct (all_some _) as [[|c ks]|]; auto. destruct (srt _ _); auto.
  - cbn [flipset_step]. unfold to_flat_df. pose proof (HR f) as K. destruct (f_resort srt f) as [f' [u|e]]; exact K.
Qed.
Lemma kept_builder c c' l i f : kept c l i f -> kept c' l i (f_with_builder f (Some c')).
Proof. intros (K1 & (k & A & K2 & K3) & K4). split; [reflexivity|]. split; [exists k, A; split; [exact K2|now apply frame_builder]|exact K4]. Qed.
Lemma kept_more c l l2 i f : share_of i l2 = [] -> kept c l i f -> kept c (l ++ l2) i f.
Proof. intros H (K1 & K2 & K3). split; [exact K1|]. split; [exact K2|]. now rewrite share_app, H, app_nil_r. Qed.
Lemma lend_nth c l i f : nth_error (po_f (lend c l)) i = Some f -> exists g, nth_error l i = Some g /\ f = f_with_builder g (Some c).
Proof. cbn. rewrite nth_error_map. destruct (nth_error l i) as [g|]; [|discriminate]. intro Q. injection Q as <-. eauto. Qed.

Lemma together_step s l o : together s l -> one_person b x o -> exists l2, together (pool_step E sv srt s o) (l ++ l2) /\ (forall et, enumerates et o -> Forall (fun d => fst (snd d) = et) l2) /\ (through_flipsets o -> Forall (fun d => exists i, fst d = Some i) l2).
Proof.
  intros (T1 & T2 & T3) HO. destruct o as [op|k A x' a|i op].
  - (* the user *)
    assert (G : forall c' l2, enumeration sv (po_b s) l2 c' -> together (lend c' (po_f s)) (l ++ map (pair None) l2)).
    { intros c' l2 H. split; [|split].
      - cbn. rewrite map_app, map_map. cbn [snd]. rewrite map_id. exact (enumeration_trans _ _ _ _ T1 _ _ H).
      - intros i f Hi. destruct (lend_nth _ _ _ _ Hi) as (g & Hg & ->). apply kept_more; [apply share_none|]. exact (kept_builder _ _ _ _ _ (T2 i g Hg)).
      - intros i Hi. cbn in Hi. rewrite map_length in Hi. rewrite share_app, share_none, app_nil_r. now apply T3. }
    destruct op as [v| |fuel total et|lo hi|m|m|a]; try (now elim HO).
    + exists []. split; [|split; [intros et' _; constructor|intros _; constructor]]. cbn [pool_step builder_step]. apply (G _ []). destruct (fit sv (po_b s)) as [[c r]|e] eqn:Ef; [eapply en_fit; [exact Ef|constructor]|constructor].
    + cbn [pool_step builder_step]. destruct (populate sv fuel total et (po_b s)) as [[[c l2]|e]|] eqn:Ep.
      * exists (map (pair None) (map (pair et) l2)). split; [apply G; exact (populate_enum _ _ _ _ _ _ _ Ep)|]. split; [|intros []]. intros et' <-. apply Forall_map, Forall_map, Forall_forall. reflexivity.
      * exists []. split; [|split; [intros et' _; constructor|intros _; constructor]]. apply (G _ []). constructor.
      * exists []. split; [|split; [intros et' _; constructor|intros _; constructor]]. apply (G _ []). constructor.
  - (* a new flipset *)
    destruct HO as (-> & Pa & EA). exists []. split; [|split; [intros et _; constructor|intros _; constructor]]. rewrite app_nil_r. cbn [pool_step]. split; [exact T1|]. unfold mk_flipset. rewrite Pa. cbn [bind]. split.
    + intros i f Hi. destruct (lend_nth _ _ _ _ Hi) as (g & Hg & ->). destruct (Nat.lt_ge_cases i (length (po_f s))) as [L|L].
      * rewrite nth_error_app1 in Hg by exact L. exact (kept_builder _ _ _ _ _ (T2 i g Hg)).
      * rewrite nth_error_app2 in Hg by exact L. destruct (i - length (po_f s))%nat as [|m]; [|destruct m; discriminate Hg]. injection Hg as <-.
        split; [reflexivity|]. split; [exists k, A; split; [exact EA|now constructor]|]. rewrite (T3 i L). reflexivity.
    + intros i Hi. cbn [lend po_f] in Hi. rewrite map_length, app_length in Hi. cbn in Hi. apply T3. lia.
  - (* a call on a flipset *)
    cbn [pool_step]. destruct (nth_error (po_f s) i) as [f|] eqn:Hf; [|exists []; rewrite app_nil_r; split; [exact (conj T1 (conj T2 T3))|split; [intros et _; constructor|intros _; constructor]]].
    pose proof (T2 i f Hf) as KF. assert (Li : (i < length (po_f s))%nat) by (apply nth_error_Some; congruence).
    (* what remains to be shown about the called flipset *)
    assert (G : forall c' f' l2, enumeration sv (po_b s) (map snd l2) c' -> kept c' (l ++ l2) i f' -> (forall j, j <> i -> share_of j l2 = []) -> together (lend c' (list_set i f' (po_f s))) (l ++ l2)).
    { intros c' f' l2 H HK HN. split; [|split].
      - cbn. rewrite map_app. exact (enumeration_trans _ _ _ _ T1 _ _ H).
      - intros j g Hj. destruct (lend_nth _ _ _ _ Hj) as (h & Hh & ->). destruct (Nat.eq_dec i j) as [<-|N].
        + rewrite (list_set_eq i f' (po_f s) Li) in Hh. injection Hh as <-. exact (kept_builder _ _ _ _ _ HK).
        + rewrite (list_set_neq i j f' (po_f s) N) in Hh. apply kept_more; [now apply HN, not_eq_sym|]. exact (kept_builder _ _ _ _ _ (T2 j h Hh)).
      - intros j Hj. cbn in Hj. rewrite map_length, list_set_length in Hj. rewrite share_app, (T3 j Hj). apply HN. lia. }
    destruct op as [fuel total et ct|q|items|].
    + destruct (populate sv fuel total et (po_b s)) as [[[c l2]|e]|] eqn:Ep.
      * destruct (call_populate l (po_b s) i f fuel total et ct c l2 T1 KF Ep) as (f' & r & P1 & P2 & P3 & P4). cbn [flipset_step]. rewrite P1. unfold behind. rewrite P2.
        exists (map (fun v => (Some i, (et, v))) l2). split; [|split; [intros et' <-; apply Forall_map, Forall_forall; reflexivity|intros _; apply Forall_map, Forall_forall; cbn; eauto]]. apply G.
        -- rewrite snd_own. exact (populate_enum _ _ _ _ _ _ _ Ep).
        -- split; [exact P2|]. split; [exact P4|]. destruct KF as (_ & _ & KI). now rewrite P3, KI, share_app, share_own, map_app.
        -- intros j N. now apply share_other.
      * exists []. split; [|split; [intros et' _; constructor|intros _; constructor]]. cbn [flipset_step]. unfold f_populate. rewrite (proj1 KF), Ep. cbn [behind f_with_builder f_builder]. apply G; [constructor| |reflexivity].
        rewrite app_nil_r. exact (kept_builder _ _ _ _ _ KF).
      * exists []. split; [|split; [intros et' _; constructor|intros _; constructor]]. cbn [flipset_step]. unfold f_populate. rewrite (proj1 KF), Ep. unfold behind. rewrite (proj1 KF). apply G; [constructor| |reflexivity]. now rewrite app_nil_r.
    + destruct (call_other f (FSort q) ltac:(discriminate) ltac:(discriminate)) as [Q1 Q2]. exists []. split; [|split; [intros et' _; constructor|intros _; constructor]]. unfold behind. rewrite Q2, (proj1 KF). apply G; [constructor| |reflexivity]. rewrite app_nil_r.
      destruct KF as (K1 & (k & A & K2 & K3) & K4). split; [congruence|]. split; [exists k, A; split; [exact K2|now apply frame_step]|congruence].
    + now elim HO.
    + destruct (call_other f FFlat ltac:(discriminate) ltac:(discriminate)) as [Q1 Q2]. exists []. split; [|split; [intros et' _; constructor|intros _; constructor]]. unfold behind. rewrite Q2, (proj1 KF). apply G; [constructor| |reflexivity]. rewrite app_nil_r.
      destruct KF as (K1 & (k & A & K2 & K3) & K4). split; [congruence|]. split; [exists k, A; split; [exact K2|now apply frame_step]|congruence].
Qed.
Lemma together_run ops : forall s l, together s l -> Forall (one_person b x) ops -> exists l2, together (pool_run E sv srt s ops) (l ++ l2) /\
  (forall et, Forall (enumerates et) ops -> Forall (fun d => fst (snd d) = et) l2) /\ (Forall through_flipsets ops -> Forall (fun d => exists i, fst d = Some i) l2).
Proof.
  induction ops as [|o ops IH]; intros s l T H; [exists []; rewrite app_nil_r; split; [exact T|split; constructor]|]. inversion H as [|? ? H1 H2]; subst.
  destruct (together_step s l o T H1) as (l1 & T1 & K1 & J1). destruct (IH _ _ T1 H2) as (l2 & T2 & K2 & J2). exists (l1 ++ l2). rewrite app_assoc. split; [exact T2|].
  split; [intros et He|intros He]; inversion He as [|? ? E1 E2]; subst; apply Forall_app; split; auto.
Qed.
Lemma together_start ops : Forall (one_person b x) ops -> exists l, together (pool_run E sv srt {| po_b := b0; po_f := [] |} ops) l /\
  (forall et, Forall (enumerates et) ops -> Forall (fun d => fst (snd d) = et) l) /\ (Forall through_flipsets ops -> Forall (fun d => exists i, fst d = Some i) l).
Proof.
  intro H. destruct (together_run ops {| po_b := b0; po_f := [] |} [] ) as (l & T & K); [|exact H|exists l; split; assumption].
  split; [constructor|]. split; [intros [|i] f Hf; discriminate Hf|reflexivity].
Qed.
End Pool.
