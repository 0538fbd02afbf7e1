(** Builder histories: what holds after x has been assigned and any calls have been made. *)
From Verif Require Import Proofs_props_element Proofs_props_actionset Spec_recourse Proofs_mip Proofs_info Proofs_vec Proofs_build Proofs_enum.
#[local] Open Scope list_scope.
#[local] Open Scope Qc_scope.

Lemma aset_reachable_step E A o : aset_reachable E A -> aset_reachable E (aset_step E A o).
Proof. intros (A0 & ops & H & ->). exists A0, (ops ++ [o]). split; [exact H|]. unfold aset_run. now rewrite fold_left_app. Qed.
Lemma aset_step_names E A o : aset_reachable E A -> as_names (aset_step E A o) = as_names A.
Proof.
  intro HR. pose proof (reachable_wf E A HR) as HW. destruct o as [n v|i n v|j|j|n vs bs vt ac st sd ss eops|y|a|ns lb ub id|id]; cbn [aset_step].
  - destruct HW as (W1 & W2 & W3 & W4 & W5 & W6). apply (set_setattr_elems E A n v W3).
  - destruct HW as (W1 & W2 & W3 & W4 & W5 & W6). apply (index_setattr_elems E A i n v W3).
  - unfold on_elem. destruct (nth_error (as_elems A) j); reflexivity.
  - unfold on_elem. destruct (nth_error (as_elems A) j); reflexivity.
  - destruct (mk_element n vs bs vt ac st sd ss); [|reflexivity]. unfold setitem. destruct (index_of n (as_names A)); reflexivity.
  - destruct (set_y_desired A y) as [A'|] eqn:H; [|reflexivity]. apply set_y_spec in H. apply H.
  - destruct (set_alignment A a) as [A'|] eqn:Ea; [|reflexivity]. apply set_alignment_spec in Ea. destruct Ea as (w & t & _ & _ & En & _). exact En.
  - destruct (add_constraint A "subset_limit" ns lb ub id) as [[A' id']|] eqn:Ea; [|reflexivity]. unfold add_constraint in Ea.
    destruct (String.eqb _ _); [|discriminate Ea]. bnd Ea as p Hp. destruct p as [r' id2]. injection Ea as <- <-. reflexivity.
  - destruct (remove_constraint A id) as [A'|] eqn:Ea; [|reflexivity]. unfold remove_constraint in Ea. bnd Ea as r Hr. injection Ea as <-. reflexivity.
Qed.

(** Operations never change the classifier, back end or cost type; only BAset changes the action set. *)
Definition same_static (b b' : builder) : Prop :=
  bd_kind b' = bd_kind b /\ bd_w b' = bd_w b /\ bd_t b' = bd_t b /\ bd_A b' = bd_A b /\ bd_cost b' = bd_cost b /\
  bd_actionable b' = bd_actionable b.
Lemma ss_refl b : same_static b b.
Proof. repeat split. Qed.
Lemma ss_trans a b c : same_static a b -> same_static b c -> same_static a c.
Proof. unfold same_static. intuition congruence. Qed.
Lemma ss_fit sv b b' r : fit sv b = Ok (b', r) -> same_static b b'.
Proof.
  unfold fit, solve_mip. destruct (bd_mip b) as [ms|]; [|discriminate]. cbn [bind]. intro H. bnd H as i Hi. injection H as <- <-. repeat split.
Qed.
Lemma ss_remove et b b' : remove_solution et b = Ok b' -> same_static b b'.
Proof.
  destruct et; cbn; unfold remove_all_features, remove_feature_combination, with_solution;
  destruct (bd_mip b) as [ms|]; try discriminate; destruct (bd_sol b) as [[s g|s| |]|]; try discriminate; intro H; injection H as <-; repeat split.
Qed.
Lemma ss_loop sv et : forall fuel total b b' l, populate_loop sv fuel total et b = Some (Ok (b', l)) -> same_static b b'.
Proof.
  induction fuel as [|fuel IH]; intros total b b' l; cbn [populate_loop]; destruct (match total with Some 0%nat => true | _ => false end);
    intro H; try discriminate H; try (injection H as <- <-; apply ss_refl).
  destruct (fit sv b) as [[b1 [s|]]|] eqn:EF; try discriminate H.
  - destruct (remove_solution et b1) as [b2|] eqn:ER; [|discriminate H].
    destruct (populate_loop sv fuel (option_map Init.Nat.pred total) et b2) as [[[b3 l3]|]|] eqn:EL; try discriminate H. injection H as <- <-.
    eapply ss_trans; [eapply ss_fit, EF|]. eapply ss_trans; [eapply ss_remove, ER|]. eapply IH, EL.
  - injection H as <- <-. eapply ss_fit, EF.
Qed.
Lemma ss_populate sv fuel total et b b' l : populate sv fuel total et b = Some (Ok (b', l)) -> same_static b b'.
Proof. unfold populate. destruct (bd_mip b); [|discriminate]. destruct total as [[|n]|]; try discriminate; apply ss_loop. Qed.
Lemma ss_min b k b' : set_min_items b k = Ok b' -> same_static b b'.
Proof. unfold set_min_items. destruct k as [k|]; [destruct (0 <=? k)%Z; [|discriminate]|]; intro H; injection H as <-; repeat split. Qed.
Lemma ss_max b k b' : set_max_items b k = Ok b' -> same_static b b'.
Proof. unfold set_max_items. destruct k as [k|]; [destruct (0 <=? k)%Z; [|discriminate]|]; intro H; injection H as <-; repeat split. Qed.
Lemma ss_rhs p v b b' : set_mip_rhs p v b = Ok b' -> same_static b b'.
Proof. unfold set_mip_rhs. destruct (bd_mip b); [|discriminate]. intro H. injection H as <-. repeat split. Qed.
Lemma ss_limits b lo hi : same_static b (fst (set_mip_item_limits b lo hi)).
Proof.
  unfold set_mip_item_limits. destruct lo as [lo|]; [|apply ss_refl]. destruct hi as [hi|]; [|apply ss_refl].
  destruct (lo <=? hi)%Z; [|apply ss_refl]. cbv zeta.
  assert (T : forall b2 (v : res (option Z)), same_static b b2 -> same_static b (fst (match (b2, v) with
        | (b2, Err e) => (b2, Err e)
        | (b2, Ok min_nnz) =>
            if (hi =? bd_max b2)%Z then (b2, Ok tt)
            else match min_nnz with
                 | None => (b2, Err UnboundLocalError)
                 | Some v => match set_mip_rhs is_max_row v b2 with
                             | Err e => (b2, Err e)
                             | Ok b3 => match set_max_items b3 (Some hi) with
                                        | Err e => (b3, Err e)
                                        | Ok b4 => (b4, Ok tt)
                                        end
                             end
                 end
        end))).
  { intros b2 [[v|]|e] HS; cbv beta iota; try exact HS; destruct (hi =? bd_max b2)%Z; try exact HS.
    destruct (set_mip_rhs is_max_row v b2) as [b3|] eqn:E3; [|exact HS]. pose proof (ss_trans _ _ _ HS (ss_rhs _ _ _ _ E3)) as HS3.
    destruct (set_max_items b3 (Some hi)) as [b4|] eqn:E4; [|exact HS3]. exact (ss_trans _ _ _ HS3 (ss_max _ _ _ E4)). }
  destruct (lo =? bd_min b)%Z; [apply (T b (Ok None)), ss_refl|].
  destruct (set_mip_rhs is_min_row (n_actionable b - lo) b) as [b1|e] eqn:E1; [|apply ss_refl].
  destruct (set_min_items b1 (Some lo)) as [b2|e] eqn:E2; [|exact (ss_rhs _ _ _ _ E1)].
  apply (T b2 (Ok (Some (n_actionable b - lo)%Z))). exact (ss_trans _ _ _ (ss_rhs _ _ _ _ E1) (ss_min _ _ _ E2)).
Qed.
Lemma ss_set_x E b x : same_static b (fst (set_x E b x)).
Proof. unfold set_x. destruct (Nat.eqb _ _); [|apply ss_refl]. destruct (build _ _ _ _ _ _ _ _ _); repeat split. Qed.

Definition sane (E : env) (b : builder) : Prop := aset_reachable E (bd_A b) /\ length (bd_w b) = as_len (bd_A b).
Lemma sane_static E b b' : same_static b b' -> sane E b -> sane E b'.
Proof. intros (_ & H2 & _ & H4 & _) [S1 S2]. split; rewrite H4; [exact S1|]. now rewrite H2. Qed.
Lemma sane_step E sv b o : sane E b -> sane E (builder_step E sv b o).
Proof.
  intro HS. destruct o as [x| |f n et|lo hi|k|k|o]; cbn [builder_step].
  - eapply sane_static; [apply ss_set_x|exact HS].
  - destruct (fit sv b) as [[b' r]|] eqn:EF; [|exact HS]. eapply sane_static; [eapply ss_fit, EF|exact HS].
  - destruct (populate sv f n et b) as [[[b' l]|]|] eqn:EF; try exact HS. eapply sane_static; [eapply ss_populate, EF|exact HS].
  - eapply sane_static; [apply ss_limits|exact HS].
  - destruct (set_min_items b k) eqn:EF; [|exact HS]. eapply sane_static; [eapply ss_min, EF|exact HS].
  - destruct (set_max_items b k) eqn:EF; [|exact HS]. eapply sane_static; [eapply ss_max, EF|exact HS].
  - destruct HS as [S1 S2]. split; cbn; [now apply aset_reachable_step|]. unfold as_len in *. rewrite aset_step_names; assumption.
Qed.
Lemma sane_created E b : builder_created E b -> sane E b.
Proof.
  intros (k & A & a & ct & x & HR & H). unfold mk_builder in H. bnd H as wt Hp. destruct wt as [w t]. bnd H as u Hu. apply passert_ok in Hu. apply Nat.eqb_eq in Hu.
  bnd H as A' HA. cbv zeta in H.
  assert (S0 : aset_reachable E A' /\ length w = as_len A').
  { destruct (alignment_known A); [injection HA as <-; auto|].
    set (aa := {| k_clf := None; k_classifier := None; k_coefs := None; k_intercept := None; a_pos := [AVec (map Fin w)] |}) in *.
    assert (Q : A' = aset_step E A (OAlign aa)) by (cbn [aset_step]; now rewrite HA). rewrite Q.
    split; [now apply aset_reachable_step|]. unfold as_len. rewrite aset_step_names by exact HR. now symmetry. }
  destruct x as [x|].
  - match type of H with (let '(_, _) := set_x E ?b0 x in _) = _ => pose proof (ss_set_x E b0 x) as SS; destruct (set_x E b0 x) as [b' r]; cbn in SS; bnd H as v Hv; injection H as <-; eapply sane_static; [exact SS|exact S0] end.
  - injection H as <-. exact S0.
Qed.
Lemma reachable_sane E sv b : builder_reachable E sv b -> sane E b.
Proof.
  intros (b0 & ops & H & ->). apply sane_created in H. unfold builder_run. revert b0 H.
  induction ops as [|o ops IH]; intros b0 H; [exact H|]. cbn. apply IH. now apply sane_step.
Qed.

(** ** After a successful assignment of x *)
Lemma assigned_good E sv b x b0 : ok_env E -> assigned E sv b x b0 ->
  exists ms, good b0 ms (accept (bd_A b) (bd_w b) (bd_t b) (bd_min b) (bd_max b) x (ms_infos ms)) /\
    get_build_info E (bd_A b) (bd_cost b) (bd_w b) x = Ok (ms_infos ms) /\ same_static b b0 /\ bd_min b0 = bd_min b /\ bd_max b0 = bd_max b /\
    wf_aset E (bd_A b) /\ length (bd_w b) = as_len (bd_A b) /\ length x = as_len (bd_A b) /\
    Forall (info_ok E (bd_A b) (bd_cost b) (bd_w b) x) (ms_infos ms).
Proof.
  intros HOE [HR HX]. destruct (reachable_sane _ _ _ HR) as [S1 S2]. pose proof (reachable_wf _ _ S1) as HW.
  unfold set_x in HX. destruct (Nat.eqb (length x) (length (bd_w b))); [|apply pair_equal_spec in HX; destruct HX as [_ HX]; discriminate HX].
  destruct (build E (bd_kind b) (bd_A b) (bd_cost b) (bd_w b) (bd_t b) (bd_min b) (bd_max b) x) as [ms|e] eqn:EB; [|apply pair_equal_spec in HX; destruct HX as [_ HX]; discriminate HX].
  apply pair_equal_spec in HX. destruct HX as [<- _]. exists ms.
  destruct (build_inv _ _ _ _ _ _ _ _ _ _ EB) as (subs & HI & _).
  destruct (build_info_spec _ _ _ _ _ _ HOE HW HI) as (HL & HWi & HF & _).
  destruct (build_shape _ _ _ _ _ _ _ _ _ _ HWi EB) as (SH & SB & SP).
  split; [split; auto|].
  - intros i Hi. rewrite Forall_forall in HF. destruct (HF i Hi) as (e & xj & HE). change (i_idx i < length (bd_w b))%nat. apply nth_error_Some. rewrite (en_w _ _ _ _ _ _ _ _ HE). congruence.
  - split; [exact HI|]. split; [repeat split|]. split; [reflexivity|]. split; [reflexivity|]. split; [exact HW|]. auto.
Qed.

(** Every item returned in a session stands for an accepted choice. *)
Lemma populate_good' sv et fuel total b ms P b' l : sound_solver sv -> good b ms P -> populate sv fuel total et b = Some (Ok (b', l)) ->
  exists chs ms', Forall2 (fun ch s => item_of (bd_cost b) (length (bd_w b)) (ms_infos ms) ch (finishing_solver sv) s) chs l /\
      enum (finishing_solver sv) (bd_kind b) (bd_cost b) (ms_infos ms) P (map (pair et) chs) /\
      ms_infos ms' = ms_infos ms /\ same_settings b b' /\
      good b' ms' (after (bd_kind b) (ms_infos ms) P (map (pair et) chs)) /\
      (forall n, total = Some n -> (length l <= n)%nat) /\
      (finishing_solver sv -> total <> Some (length l) -> forall ch, ~ after (bd_kind b) (ms_infos ms) P (map (pair et) chs) ch).
Proof.
  intros HS G H. unfold populate in H. rewrite (gd_mip _ _ _ G) in H. pose proof (populate_good sv et HS fuel total b ms P G) as K.
  destruct total as [[|n]|]; [discriminate H| |]; rewrite H in K; exact K.
Qed.
Lemma enum_all fin k ct infos P l : enum fin k ct infos P l -> forall ec, In ec l -> P (snd ec).
Proof.
  revert P. induction l as [|e l IH]; intros P H ec; [intros []|]. destruct H as (H1 & _ & H3). intros [<-|Hin]; [exact H1|].
  specialize (IH _ H3 ec Hin). apply IH.
Qed.
Lemma session_good sv b l b' : session sv b l b' -> forall ms P, sound_solver sv -> good b ms P ->
  forall s, In s l -> exists ch, P ch /\ item_of (bd_cost b) (length (bd_w b)) (ms_infos ms) ch (finishing_solver sv) s.
Proof.
  induction 1 as [b|b b1 r l b2 HF HSes IH|b fuel total et b1 l1 l b2 HP HSes IH]; intros ms P HS G s Hin; [destruct Hin|..].
  - destruct (fit_good sv b ms P HS G) as (b1' & r' & o & EF & Ho & G1 & SS1 & _ & _ & _ & HR). rewrite HF in EF. injection EF as <- <-.
    apply in_app_or in Hin. destruct Hin as [Hin|Hin].
    + destruct r as [s'|]; [destruct Hin as [<-|[]]|destruct Hin]. destruct HR as (ch & a & g & HPc & _ & _ & (I1 & I2 & I3 & I4 & I5) & _).
      exists ch. split; [exact HPc|]. repeat split; auto. intro HFin. apply I5. rewrite Ho. eapply finishing_good; eauto.
    + destruct SS1 as (K1 & K2 & _ & _ & K5 & _). destruct (IH ms P HS G1 s Hin) as (ch & H1 & H2). rewrite K2, K5 in H2. eauto.
  - destruct (populate_good' _ _ _ _ _ _ _ _ _ HS G HP) as (chs & ms' & F2 & EN & EI & SS & G1 & _). apply in_app_or in Hin. destruct Hin as [Hin|Hin].
    + destruct (In_nth_error _ _ Hin) as (k & Hk). apply Forall2_nth in F2. destruct F2 as [FL FN].
      destruct (nth_error chs k) as [ch|] eqn:Ek.
      2:{ apply nth_error_None in Ek. assert (k < length l1)%nat by (apply nth_error_Some; congruence). lia. }
      exists ch. split; [|exact (FN _ _ _ Ek Hk)]. apply (enum_all _ _ _ _ _ _ EN (et, ch)). apply in_map. eapply nth_error_In, Ek.
    + destruct SS as (K1 & K2 & _ & _ & K5 & _). destruct (IH ms' _ HS G1 s Hin) as (ch & H1 & H2). rewrite K2, K5, EI in H2.
      apply after_iff in H1. exists ch. split; [apply H1|exact H2].
Qed.
