(** Enumeration with a solver whose tolerance is at most that of the code's own comparisons. *)
From Verif Require Import Proofs_num Proofs_props_element Proofs_props_actionset Spec_tolerance Proofs_mip Proofs_info Proofs_vec Proofs_build Proofs_enum Proofs_tol Proofs_registry
  Proofs_actionset Proofs_recourse Proofs_subset Proofs_session Proofs_builder Proofs_builder2 Proofs_builder3 Proofs_exchange Proofs_concrete Proofs_tol2 Proofs_tol3.
#[local] Open Scope list_scope.
#[local] Open Scope Qc_scope.

Definition near_item (d : Qc) (y : Z) (sc : Qc) (infos : list info) (n : nat) (ch : choice) (s : sol) : Prop :=
  exists a, near_agree d infos a ch /\ titem infos n a s /\ on_side_within d y (sc + sgain infos a).

Lemma tpopulate d sv et y sc N : solver_within d sv -> d <= atol -> d * qz (1 + Z.of_nat N) < 1 -> forall fuel total b ms P, tgood b ms y sc N P -> fine_infos d (ms_infos ms) ->
  match populate_loop sv fuel total et b with
  | None => exists chs, length chs = fuel /\ enum False (bd_kind b) (bd_cost b) (ms_infos ms) P (map (pair et) chs)
  | Some (Err _) => False
  | Some (Ok (b', l)) => exists chs, Forall2 (near_item d y sc (ms_infos ms) (length (bd_w b))) chs l /\
      enum False (bd_kind b) (bd_cost b) (ms_infos ms) P (map (pair et) chs) /\ (forall n, total = Some n -> (length l <= n)%nat) /\
      (finishing_solver sv -> total <> Some (length l) -> forall ch, after (bd_kind b) (ms_infos ms) P (map (pair et) chs) ch -> ~ on_side y (sc + gain (ms_infos ms) ch))
  end.
Proof.
  intros HS Ha HN. induction fuel as [|fuel IH]; intros total b ms P T HD.
  - cbn [populate_loop]. assert (D : total = Some 0%nat \/ total <> Some 0%nat) by (destruct total as [[|n]|]; auto; right; congruence). destruct D as [->|D].
    + exists []. split; [constructor|]. split; [exact I|]. split; [intros n E0; injection E0 as <-; cbn; lia|]. intros _ H. cbn in H. congruence.
    + destruct total as [[|n]|]; [congruence|..]; exists []; split; try reflexivity; exact I.
  - cbn [populate_loop]. assert (D : total = Some 0%nat \/ total <> Some 0%nat) by (destruct total as [[|n]|]; auto; right; congruence). destruct D as [->|D].
    { exists []. split; [constructor|]. split; [exact I|]. split; [intros n E0; injection E0 as <-; cbn; lia|]. intros _ H. cbn in H. congruence. }
    replace (match total with Some 0%nat => true | _ => false end) with false by (destruct total as [[|n]|]; congruence).
    destruct (tfit d sv b ms y sc N P T HD HN HS) as (b1 & r & o & EF & Ho & T1 & SS1 & Hsol & Hcalls & HR). rewrite EF. destruct r as [s|].
    + destruct HR as (a & g & HO & HT & NA & HP & HSd & _). set (ch := ch_near (ms_infos ms) a) in *.
      destruct (tremove d et b1 ms y sc N P a g T1 HD Ha ltac:(rewrite Hsol; destruct HO as [-> | ->]; auto) ch NA) as (b2 & ms2 & ER & EI & SS2 & _ & T2).
      rewrite ER. specialize (IH (option_map pred total) b2 ms2 _ T2 ltac:(rewrite EI; exact HD)).
      pose proof (same_settings_trans _ _ _ SS1 SS2) as SS. assert (K : bd_kind b1 = bd_kind b) by apply SS1. rewrite K in IH.
      destruct SS as (K2 & W2 & _ & _ & C2 & _).
      destruct (populate_loop sv fuel (option_map pred total) et b2) as [[[b3 l]|e]|] eqn:EL.
      * destruct IH as (chs & F2 & EN & HT2 & HDn). rewrite EI, ?K2, ?C2, ?W2 in *. exists (ch :: chs). split.
        { constructor; [|exact F2]. exists a. auto. }
        split; [cbn [map enum]; split; [exact HP|split; [intros []|exact EN]]|]. split.
        { intros n ->. destruct n as [|n]; [congruence|]. specialize (HT2 n eq_refl). cbn [length]. lia. }
        intros HF HNe. cbn [map after fold_left]. apply HDn; [exact HF|]. intro E0. apply HNe. destruct total as [[|n]|]; [congruence| |discriminate E0].
        cbn in E0. injection E0 as ->. reflexivity.
      * exact IH.
      * destruct IH as (chs & HL & EN). rewrite EI, ?K2, ?C2 in EN. exists (ch :: chs). split; [cbn; now rewrite HL|].
        cbn [map enum]. split; [exact HP|]. split; [intros []|exact EN].
    + exists []. split; [constructor|]. split; [exact I|]. split; [intros n ->; cbn; lia|].
      intros HF _ ch HP. cbn in HP. apply HR; [|exact HP]. rewrite Ho. apply HF. eapply has_answer; [|exact (tg_shape _ _ _ _ _ _ T)].
      pose proof (gd_wf _ _ _ (tg_drop _ _ _ _ _ _ T)) as HW. exact HW.
Qed.

Theorem tol_populate E sv b x b0 d M fuel total et : ok_env E -> solver_within d sv -> d <= atol -> assigned E sv b x b0 -> fine_for d (bd_A b) -> changes_up_to M (bd_A b) x ->
  total <> Some 0%nat -> (2 ^ as_len (bd_A b) < fuel)%nat ->
  exists b2 l gs, populate sv fuel total et b0 = Some (Ok (b2, l)) /\ (length l <= 2 ^ as_len (bd_A b))%nat /\ Forall2 (stands_for d M b x) l gs /\
    (forall n, total = Some n -> (length l <= n)%nat) /\
    ((bd_kind b = CPX -> et = DistinctSubsets -> switches_off E (bd_A b) x) ->
       forall i j g g', (i < j)%nat -> nth_error gs i = Some g -> nth_error gs j = Some g' -> ~ rules_out et g g') /\
    (finishing_solver sv -> density E -> log_ok E (bd_cost b) -> orderly E (bd_A b) (bd_w b) x -> flips_match (bd_A b) (bd_w b) -> regular E (bd_A b) x ->
       (bd_kind b = CPX -> switches_off E (bd_A b) x) -> total <> Some (length l) -> forall a, acceptable b x a -> exists g, In g gs /\ rules_out et g a).
Proof.
  intros HE HS Ha HA HD HM Ht Hf. destruct (assigned_tgood E sv b x b0 HE HA) as (ms & R & T). destruct (rd_n _ _ _ _ _ R) as (N1 & N2 & N3).
  pose proof (fine_ready E b x b0 ms R d HD) as HI.
  pose proof (tpopulate d sv et _ _ _ HS Ha (proj1 (proj2 HD)) fuel total b0 ms _ T HI) as K. unfold populate. rewrite (tg_mip _ _ _ _ _ _ T).
  assert (Q : match total with Some 0%nat => Some (Err AssertionError) | _ => populate_loop sv fuel total et b0 end = populate_loop sv fuel total et b0) by (destruct total as [[|n]|]; congruence).
  rewrite Q. clear Q.
  assert (B : forall chs, enum False (bd_kind b0) (bd_cost b0) (ms_infos ms) (accept0 (bd_A b) (bd_min b) (bd_max b) (ms_infos ms)) (map (pair et) chs) -> (length chs <= 2 ^ as_len (bd_A b))%nat).
  { intros chs HN2. etransitivity; [eapply enum_bound; [|exact HN2]|].
    - intros ch (_ & Hz & _). lia.
    - apply Nat.pow_le_mono_r; [lia|]. now apply (infos_le E b x b0). }
  destruct (populate_loop sv fuel total et b0) as [[[b2 l]|e]|]; [|destruct K|].
  2:{ exfalso. destruct K as (chs & HL & EN). specialize (B chs EN). lia. }
  destruct K as (chs & F2 & EN & HT & HX). rewrite N1, N2, N3 in *.
  exists b2, l, (map (avec (as_len (bd_A b)) (ms_infos ms)) chs). split; [reflexivity|].
  assert (HP : forall i ch, nth_error chs i = Some ch -> accept0 (bd_A b) (bd_min b) (bd_max b) (ms_infos ms) ch /\
     forall i' ch', (i' < i)%nat -> nth_error chs i' = Some ch' -> excl et (bd_kind b) (ms_infos ms) ch' ch).
  { intros i ch Hi. assert (Hi' : nth_error (map (pair et) chs) i = Some (et, ch)) by (rewrite nth_error_map, Hi; reflexivity).
    destruct (enum_nth _ _ _ _ _ _ _ _ EN Hi') as [H1 _]. cbn in H1. apply after_iff in H1. destruct H1 as [H1 H2]. split; [exact H1|].
    intros i' ch' L Hi2. assert (Hi3 : nth_error (map (pair et) chs) i' = Some (et, ch')) by (rewrite nth_error_map, Hi2; reflexivity).
    rewrite Forall_forall in H2. exact (H2 _ (firstn_In _ _ _ _ L Hi3)). }
  split; [rewrite <- (Forall2_length _ _ _ F2); apply B; exact EN|]. split; [|split; [exact HT|split]].
  - assert (G : forall l0 chs0, Forall2 (near_item d (as_y (bd_A b)) (dot (bd_w b) x + bd_t b) (ms_infos ms) (as_len (bd_A b))) chs0 l0 -> (forall ch, In ch chs0 -> In ch chs) ->
      Forall2 (stands_for d M b x) l0 (map (avec (as_len (bd_A b)) (ms_infos ms)) chs0)).
    { intros l0 chs0 H. induction H as [|ch s chs0 l0 (a & A1 & A2 & A3) H2 IH2]; intro Hin; [constructor|]. cbn [map]. constructor; [|apply IH2; intros; apply Hin; now right].
      destruct (In_nth_error _ _ (Hin ch (or_introl eq_refl))) as (i & Hi). exact (item_stands E b x b0 ms R d M HD s a ch HM A1 (proj1 (HP i ch Hi)) A2 A3). }
    apply G; auto.
  - intros HSw i j g g' L Hg Hg'. rewrite nth_error_map in Hg, Hg'. destruct (nth_error chs i) as [ch|] eqn:Hi; [|discriminate Hg]. destruct (nth_error chs j) as [ch'|] eqn:Hj; [|discriminate Hg'].
    cbn in Hg, Hg'. injection Hg as <-. injection Hg' as <-. destruct (HP i ch Hi) as [[Hc _] _]. destruct (HP j ch' Hj) as [[Hc' _] X].
    apply (excl_iff E b x b0 ms et (bd_kind b) ch ch' HSw R Hc Hc'). eauto.
  - intros HF HDe HL HOr HFl HR HSw Hne a Hac. destruct (helpful_choice E b x b0 HE ms a HDe HL HOr HFl HR R Hac) as (ch & Hch & EQ). apply accept_split in Hch. destruct Hch as [Hch HOn].
    destruct (existsb (fun ch' => negb (exclb et (bd_kind b) (ms_infos ms) ch' ch)) chs) eqn:Ex.
    + apply existsb_exists in Ex. destruct Ex as (ch' & Hin & Hx). apply negb_true_iff in Hx. exists (avec (as_len (bd_A b)) (ms_infos ms) ch'). split; [now apply in_map|].
      destruct (In_nth_error _ _ Hin) as (k & Hk). destruct (HP k ch' Hk) as [[Hc' _] _].
      pose proof (excl_iff E b x b0 ms et (bd_kind b) ch' ch (fun K _ => HSw K) R Hc' (proj1 Hch)) as XI. rewrite EQ in XI.
      assert (NX : ~ excl et (bd_kind b) (ms_infos ms) ch' ch) by (intro Z0; apply exclb_iff in Z0; congruence).
      apply rules_out_nn. intro Z0. apply NX. apply XI. exact Z0.
    + exfalso. apply (HX HF Hne ch); [|exact HOn]. apply after_iff. split; [exact Hch|]. apply Forall_forall. intros ec Hin. apply in_map_iff in Hin. destruct Hin as (ch' & <- & Hin). cbn [fst snd].
      apply exclb_iff. destruct (exclb et (bd_kind b) (ms_infos ms) ch' ch) eqn:Q; [reflexivity|]. exfalso.
      assert (existsb (fun ch' => negb (exclb et (bd_kind b) (ms_infos ms) ch' ch)) chs = true); [|congruence]. apply existsb_exists. exists ch'. split; [exact Hin|now rewrite Q].
Qed.
