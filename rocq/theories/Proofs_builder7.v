(** Newly created builders: everything the theorems ask of a builder holds after creation. *)
From Verif Require Import Proofs_props_element Proofs_props_actionset Spec_recourse Proofs_mip Proofs_info Proofs_vec Proofs_build Proofs_enum Proofs_session Proofs_recourse Proofs_exchange Proofs_far Proofs_concrete Proofs_builder Proofs_builder2 Proofs_builder3 Proofs_builder4 Proofs_builder5 Proofs_scen Proofs_scen2 Proofs_builder6.
#[local] Open Scope list_scope.
#[local] Open Scope Qc_scope.

(** Action sets that agree on everything but the flip directions. *)
Definition same_but_flips (A A' : action_set) : Prop :=
  as_names A' = as_names A /\ as_cons A' = as_cons A /\ as_y A' = as_y A /\
  Forall2 (fun e e' => exists f, e' = with_flip e f) (as_elems A) (as_elems A').
Lemma sbf_refl A : same_but_flips A A.
Proof.
  repeat split. induction (as_elems A) as [|e l IH]; constructor; [|exact IH]. exists (e_flip e). destruct e; reflexivity.
Qed.
Lemma sbf_len A A' : same_but_flips A A' -> as_len A' = as_len A.
Proof. intros (H & _). unfold as_len. now rewrite H. Qed.
Lemma sbf_elem A A' j e' : same_but_flips A A' -> nth_error (as_elems A') j = Some e' -> exists e f, nth_error (as_elems A) j = Some e /\ e' = with_flip e f.
Proof.
  intros (_ & _ & _ & H) He. apply Forall2_nth in H. destruct H as [HL H].
  destruct (nth_error (as_elems A) j) as [e|] eqn:E; [|exfalso; apply nth_error_None in E; assert (nth_error (as_elems A') j = None) by (apply nth_error_None; lia); congruence].
  destruct (H j e e' E He) as (f & ->). eauto.
Qed.
Lemma sbf_elem' A A' j e : same_but_flips A A' -> nth_error (as_elems A) j = Some e -> exists f, nth_error (as_elems A') j = Some (with_flip e f).
Proof.
  intros (_ & _ & _ & H) He. apply Forall2_nth in H. destruct H as [HL H].
  destruct (nth_error (as_elems A') j) as [e'|] eqn:E; [|exfalso; apply nth_error_None in E; assert (nth_error (as_elems A) j = None) by (apply nth_error_None; lia); congruence].
  destruct (H j e e' He E) as (f & ->). eauto.
Qed.
Lemma sbf_permitted A A' x a : same_but_flips A A' -> (permitted_action A' x a <-> permitted_action A x a).
Proof.
  intro S. unfold permitted_action. rewrite (sbf_len _ _ S). split; intros [H1 H2]; (split; [exact H1|]); intros j e xj aj He Hx Ha.
  - destruct (sbf_elem' _ _ _ _ S He) as (f & He'). exact (H2 j _ xj aj He' Hx Ha).
  - destruct (sbf_elem _ _ _ _ S He) as (e0 & f & He0 & ->). exact (H2 j _ xj aj He0 Hx Ha).
Qed.
Lemma sbf_fits A A' x : same_but_flips A A' -> fits_grids A x -> fits_grids A' x.
Proof. intros S H j e xj He Hx. destruct (sbf_elem _ _ _ _ S He) as (e0 & f & He0 & ->). exact (H j e0 xj He0 Hx). Qed.
Lemma sbf_movable A A' x a : same_but_flips A A' -> (movable_only A' x a <-> movable_only A x a).
Proof.
  intro S. split; intros H j e xj aj He Hx Ha Hz.
  - destruct (sbf_elem' _ _ _ _ S He) as (f & He'). exact (H j _ xj aj He' Hx Ha Hz).
  - destruct (sbf_elem _ _ _ _ S He) as (e0 & f & He0 & ->). exact (H j e0 xj aj He0 Hx Ha Hz).
Qed.
Lemma sbf_current A A' : same_but_flips A A' -> current_percentiles A -> current_percentiles A'.
Proof. intros S H j e He. destruct (sbf_elem _ _ _ _ S He) as (e0 & f & He0 & ->). exact (H j e0 He0). Qed.
Lemma sbf_pct E e f v : percentile E (with_flip e f) v = percentile E e v.
Proof. reflexivity. Qed.
Lemma sbf_regular E A A' x : same_but_flips A A' -> regular E A x -> regular E A' x.
Proof.
  intros S [H1 H2]. split.
  - intros j e xj He Hx. destruct (sbf_elem _ _ _ _ S He) as (e0 & f & He0 & ->). exact (H1 j e0 xj He0 Hx).
  - intros j e xj He Hx. destruct (sbf_elem _ _ _ _ S He) as (e0 & f & He0 & ->). exact (H2 j e0 xj He0 Hx).
Qed.
Lemma sbf_constrained A A' j : same_but_flips A A' -> (constrained_at A' j <-> constrained_at A j).
Proof. intros (_ & H & _). unfold constrained_at. now rewrite H. Qed.
Lemma sbf_compliant A A' x a : same_but_flips A A' -> (compliant A' x a <-> compliant A x a).
Proof. intros (_ & H & _). unfold compliant. now rewrite H. Qed.
Lemma sbf_one_way A A' x : same_but_flips A A' -> one_way A x -> one_way A' x.
Proof.
  intros S H j e xj HC He Hx. destruct (sbf_elem _ _ _ _ S He) as (e0 & f & He0 & ->). apply (sbf_constrained _ _ _ S) in HC. exact (H j e0 xj HC He0 Hx).
Qed.
Lemma sbf_in_line A A' w x : same_but_flips A A' -> in_line A w x -> in_line A' w x.
Proof.
  intros S H1. pose proof S as (_ & _ & SY & _). intros j i e wi xi HC Hi He Hw Hx. destruct (sbf_elem _ _ _ _ S He) as (e0 & f & He0 & ->). apply (sbf_constrained _ _ _ S) in HC.
  destruct (H1 j i e0 wi xi HC Hi He0 Hw Hx) as (K1 & K2 & K3 & v & V1 & V2 & V3). rewrite SY. split; [exact K1|]. split; [exact K2|]. split; [exact K3|].
  exists v. split; [exact V1|]. split; [exact V2|]. destruct V3 as [V3|V3]; [left; now apply (sbf_constrained _ _ _ S)|now right].
Qed.
Lemma sbf_orderly E A A' w x : same_but_flips A A' -> orderly E A w x -> orderly E A' w x.
Proof.
  intros S [H1 H2]. split; [eapply sbf_in_line; eauto|].
  intros j e xj HC He Hx. destruct (sbf_elem _ _ _ _ S He) as (e0 & f & He0 & ->). apply (sbf_constrained _ _ _ S) in HC. exact (H2 j e0 xj HC He0 Hx).
Qed.
Lemma sbf_costs E ct A A' x a cs : same_but_flips A A' -> action_costs E ct A x a cs -> action_costs E ct A' x a cs.
Proof.
  intros S [H1 H2]. split; [exact H1|]. intros j e xj aj c He Hx Ha Hc. destruct (sbf_elem _ _ _ _ S He) as (e0 & f & He0 & ->). exact (H2 j e0 xj aj c He0 Hx Ha Hc).
Qed.
Lemma sbf_costs' E ct A A' x a cs : same_but_flips A A' -> action_costs E ct A' x a cs -> action_costs E ct A x a cs.
Proof.
  intros S [H1 H2]. split; [exact H1|]. intros j e xj aj c He Hx Ha Hc. destruct (sbf_elem' _ _ _ _ S He) as (f & He0). exact (H2 j _ xj aj c He0 Hx Ha Hc).
Qed.
Lemma align_sbf A a A' : length (as_elems A) = as_len A -> set_alignment A a = Ok A' -> same_but_flips A A'.
Proof.
  intros HL H. apply set_alignment_spec in H. destruct H as (w & t & _ & HW & E1 & E2 & E3 & E4). split; [exact E1|]. split; [exact E2|]. split; [exact E3|]. rewrite E4.
  set (fl := map _ w). assert (HLf : length fl = length (as_elems A)) by (unfold fl; rewrite map_length; lia). clearbody fl. clear -HLf. revert fl HLf.
  induction (as_elems A) as [|e l IH]; intros [|f fl] H; try discriminate H; constructor; [eauto|apply IH; cbn in H; lia].
Qed.

(** A permitted action changes at most the actionable features. *)
Lemma filter_combine_le {B} (p : B -> bool) (q : Qc -> bool) : forall (l : list B) (a : list Qc), length l = length a ->
  (forall j e aj, nth_error l j = Some e -> nth_error a j = Some aj -> q aj = true -> p e = true) -> (length (filter q a) <= length (filter p l))%nat.
Proof.
  induction l as [|e l IH]; intros [|aj a] HL H; try discriminate HL; [cbn; lia|]. cbn [filter]. assert (K : (length (filter q a) <= length (filter p l))%nat) by (apply IH; [cbn in HL; lia|]; intros j; exact (H (S j))).
  destruct (q aj) eqn:Q; [rewrite (H 0%nat e aj eq_refl eq_refl Q); cbn; lia|]. destruct (p e); cbn; lia.
Qed.
Lemma actionable_length A : length (actionable_positions A) = length (filter e_actionable (as_elems A)).
Proof.
  unfold actionable_positions. rewrite map_length. generalize 0%nat. induction (as_elems A) as [|e l IH]; intro s; [reflexivity|]. cbn [length seq combine filter snd]. destruct (e_actionable e); cbn; now rewrite IH.
Qed.
Lemma changed_actionable A x a : length (as_elems A) = as_len A -> length x = as_len A -> permitted_action A x a -> (n_changed a <= length (actionable_positions A))%nat.
Proof.
  intros HL Hx [H1 H2]. rewrite actionable_length. unfold n_changed. apply filter_combine_le; [lia|]. intros j e aj He Ha Hq.
  destruct (nth_all (as_len A) x j Hx) as (xj & Hxj). { rewrite <- HL. apply nth_error_Some. congruence. }
  destruct (H2 j e xj aj He Hxj Ha) as [K|(K & _)]; [|exact K]. apply negb_true_iff in Hq. exfalso. qbool. apply Hq. qlra.
Qed.
Lemma with_flip_actionable A A' : same_but_flips A A' -> length (actionable_positions A') = length (actionable_positions A).
Proof.
  intros (_ & _ & _ & H). rewrite !actionable_length. induction H as [|e e' l l' (f & ->) H IH]; [reflexivity|]. cbn [filter]. change (e_actionable (with_flip e f)) with (e_actionable e). destruct (e_actionable e); cbn; now rewrite IH.
Qed.

(** A builder created on an action set that was not aligned before. *)
Record fresh (E : env) (k : backend) (A : action_set) (w : list Qc) (t : Qc) (ct : cost_type) (b : builder) : Prop := {
  fr_kind : bd_kind b = k; fr_w : bd_w b = w; fr_t : bd_t b = t; fr_cost : bd_cost b = ct; fr_min : bd_min b = 0%Z;
  fr_sbf : same_but_flips A (bd_A b); fr_len : length w = as_len A; fr_elems : length (as_elems A) = as_len A;
  fr_max : bd_max b = Z.of_nat (length (actionable_positions A));
  fr_flips : alignment_known A = false \/ flips_match A w -> flips_match (bd_A b) w }.
Lemma parse_vec w : parse_classifier_args {| k_clf := None; k_classifier := None; k_coefs := None; k_intercept := None; a_pos := [AVec (map Fin w)] |} = Ok (w, 0).
Proof.
  unfold parse_classifier_args. cbn. assert (K : finite_all (map Fin w) = Ok w) by (induction w as [|q w IH]; [reflexivity|cbn; now rewrite IH]). now rewrite K.
Qed.
Lemma created_fresh E k A a ct w t b : aset_reachable E A -> parse_classifier_args a = Ok (w, t) -> mk_builder E k A a ct None = Ok b -> fresh E k A w t ct b.
Proof.
  intros HA Hp H. unfold mk_builder in H. rewrite Hp in H. cbn [bind] in H. bnd H as u Hu. apply passert_ok in Hu. apply Nat.eqb_eq in Hu. bnd H as A' HA'. cbv zeta in H. injection H as <-.
  pose proof (wf_len _ _ (reachable_wf _ _ HA)) as HLe.
  assert (SB : same_but_flips A A'). { destruct (alignment_known A) eqn:EA; [injection HA' as <-; apply sbf_refl|]. eapply align_sbf; [exact HLe|exact HA']. }
  constructor; cbn; try reflexivity; auto.
  - f_equal. now apply with_flip_actionable.
  - intro Q. destruct (alignment_known A) eqn:EA; [destruct Q as [Q|Q]; [discriminate Q|injection HA' as <-; exact Q]|].
    eapply (align_flips A _ A' w 0); [apply parse_vec|exact HA'|exact HLe|]. destruct (reachable_wf _ _ HA) as (_ & _ & _ & _ & _ & Y). exact Y.
Qed.
(** Every change of a fresh builder's individual respects its default limits. *)
Lemma fresh_max E k A w t ct b x a : fresh E k A w t ct b -> length x = as_len A -> permitted_action A x a -> (Z.of_nat (n_changed a) <= bd_max b)%Z.
Proof. intros F Hx HP. rewrite (fr_max _ _ _ _ _ _ _ F). pose proof (changed_actionable A x a (fr_elems _ _ _ _ _ _ _ F) Hx HP). lia. Qed.

(** C27 for a newly created builder: a complete verdict. *)
Lemma fresh_verdict E sv k A args ct w t x b0 : ok_env E -> sound_solver sv -> finishing_solver sv -> density E -> log_ok E ct ->
  aset_reachable E A -> parse_classifier_args args = Ok (w, t) -> mk_builder E k A args ct (Some x) = Ok b0 ->
  orderly E A w x -> (alignment_known A = false \/ flips_match A w) -> current_percentiles A -> denied (as_y A) (score w t x) ->
  exists b1 r, fit sv b0 = Ok (b1, r) /\
    match r with
    | Some s => permitted_action A x (s_actions s) /\ movable_only A x (s_actions s) /\ on_side (as_y A) (score w t (vadd x (s_actions s))) /\ compliant A x (s_actions s)
    | None => forall a, permitted_action A x a -> movable_only A x a -> compliant A x a -> ~ on_side (as_y A) (score w t (vadd x a))
    end.
Proof.
  intros HE HS HF HD HL HR Hp Hmk HU HA Hcur Hden. destruct (created_assigned _ _ _ _ _ _ _ HR Hmk) as (b & Hb & _ & Hx & Has).
  pose proof (created_fresh _ _ _ _ _ _ _ _ HR Hp Hb) as F. pose proof (fr_sbf _ _ _ _ _ _ _ F) as SB. pose proof SB as (S1 & S2 & S3 & S4).
  destruct (set_x_ok _ _ _ _ Hx) as (ms & EL & _ & _). rewrite (fr_w _ _ _ _ _ _ _ F), (fr_len _ _ _ _ _ _ _ F) in EL.
  destruct (verdict_every E sv b x b0 HE HS (Has sv) HF HD) as (b1 & r & Hf & Hv).
  - rewrite (fr_cost _ _ _ _ _ _ _ F). exact HL.
  - rewrite (fr_w _ _ _ _ _ _ _ F). now apply (sbf_orderly E A).
  - rewrite (fr_w _ _ _ _ _ _ _ F). now apply (fr_flips _ _ _ _ _ _ _ F).
  - eapply sbf_current; eauto.
  - rewrite (fr_min _ _ _ _ _ _ _ F). lia.
  - rewrite S3, (fr_w _ _ _ _ _ _ _ F), (fr_t _ _ _ _ _ _ _ F). exact Hden.
  - exists b1, r. split; [exact Hf|]. destruct r as [s|].
    + destruct (fit_some E sv b x b0 HE HS (Has sv) b1 s Hf) as (K1 & _ & K3). rewrite S3, (fr_w _ _ _ _ _ _ _ F), (fr_t _ _ _ _ _ _ _ F) in K3. split; [now apply (sbf_permitted _ _ _ _ SB)|]. split; [apply (sbf_movable _ _ _ _ SB); exact (fit_movable E sv b x b0 HE HS (Has sv) b1 s Hf)|]. split; [exact K3|]. apply (sbf_compliant _ _ _ _ SB). apply (fit_compliant E sv b x b0 HE HS (Has sv) b1 s Hf); rewrite (fr_w _ _ _ _ _ _ _ F); [now apply (sbf_orderly E A)|now apply (fr_flips _ _ _ _ _ _ _ F)].
    + intros a Ha HMv HCp. pose proof (proj1 Hv eq_refl a) as K. rewrite S3, (fr_w _ _ _ _ _ _ _ F), (fr_t _ _ _ _ _ _ _ F) in K. apply K; [now apply (sbf_permitted _ _ _ _ SB)|now apply (sbf_movable _ _ _ _ SB)| |now apply (sbf_compliant _ _ _ _ SB)]. eapply fresh_max; eauto.
Qed.
