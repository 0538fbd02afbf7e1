(** Concrete flipsets: counterexamples and non-vacuity. *)
From Verif Require Import Proofs_props_element Proofs_props_actionset Spec_flipset Proofs_vec Proofs_flipset Proofs_flipset2 Proofs_flipset3.
From Verif Require Import Proofs_mip Proofs_info Proofs_build Proofs_enum Proofs_session Proofs_recourse Proofs_exchange Proofs_far Proofs_concrete Proofs_builder Proofs_builder2 Proofs_builder3 Proofs_builder4 Proofs_builder5 Proofs_scen Proofs_scen2 Proofs_builder6 Proofs_builder7 Proofs_builder8.
#[local] Open Scope list_scope.
#[local] Open Scope Qc_scope.

Transparent sc_run sc_builder.
(** The scenario's builder, created in one go. *)
Lemma sc_mk c b b0 : sc_run c = Ok (b, b0) -> exists A, sc_aset c = Ok A /\ aset_reachable (sc_env c) A /\
  mk_builder (sc_env c) (sc_kind c) A (coef_args (sc_w c) (sc_t c)) (sc_cost c) (Some (sc_x c)) = Ok b0 /\ fresh (sc_env c) (sc_kind c) A (sc_w c) (sc_t c) (sc_cost c) b.
Proof.
  unfold sc_run, sc_builder. intro H. bnd H as b' Hb. bnd Hb as A HA. destruct (set_x (sc_env c) b' (sc_x c)) as [b0' r] eqn:Hx. bnd H as u Hu. injection H as <- <-. exists A. split; [exact HA|].
  pose proof (sc_aset_reach c A HA) as HR. split; [exact HR|]. split; [|eapply created_fresh; eauto; exact (coef_parse (sc_w c) (sc_t c))].
  unfold mk_builder in *. change (sc_args (sc_w c) (sc_t c)) with (coef_args (sc_w c) (sc_t c)) in Hb. rewrite coef_parse in *. cbn [bind] in *. bnd Hb as u2 Hu2. rewrite Hu2. cbn [bind]. bnd Hb as A' HA'. rewrite HA'. cbn [bind]. cbv zeta in *. injection Hb as <-. rewrite Hx, Hu. reflexivity.
Qed.
Opaque sc_run sc_builder.
Definition new_flipset (k : backend) (A : action_set) (x w : list Qc) (t : Qc) (ob : option builder) : flipset :=
  {| f_A := A; f_n := as_len A; f_names := as_names A; f_kind := k; f_x := x; f_w := w; f_t := t; f_builder := ob; f_items := []; f_df := []; f_by := [KSize; KCost; KScore]; f_inplace := true |}.
Lemma new_created k A x w t ob : flipset_created k A x w t ob (new_flipset k A x w t ob).
Proof. exists (coef_args w t). split; [apply coef_parse|]. unfold mk_flipset. rewrite coef_parse. reflexivity. Qed.
Lemma created_reachable E sv srt k A x w t ob f : flipset_created k A x w t ob f -> flipset_reachable E sv srt k A x w t ob f.
Proof. intro H. exists f, []. split; [exact H|reflexivity]. Qed.
Lemma step_reachable E sv srt k A x w t ob f o : flipset_reachable E sv srt k A x w t ob f -> flipset_reachable E sv srt k A x w t ob (flipset_step E sv srt f o).
Proof. intros (f0 & ops & H & ->). exists f0, (ops ++ [o]). split; [exact H|]. unfold flipset_run. now rewrite fold_left_app. Qed.
Definition an_item (a : list Qc) (c : Qc) : item := {| it_feasible := Some true; it_actions := Some (map Fin a); it_cost := Some (Fin c) |}.

(** The two-feature action set of the builder scenarios. *)
Lemma case_aset : exists A, aset_reachable env0 A /\ as_len A = 2%nat /\ as_names A = ["a"; "b"] /\ as_y A = 1%Z /\ alignment_known A = false /\ sc_aset (sc2 PyMIP CTotal 0) = Ok A.
Proof.
  assert (H : ok_and (sc_aset (sc2 PyMIP CTotal 0)) (fun A => Nat.eqb (as_len A) 2 && (if list_eq_dec string_dec (as_names A) ["a"; "b"] then true else false) && (as_y A =? 1)%Z && negb (alignment_known A)) = true) by (vm_compute; reflexivity).
  apply ok_and_true in H. destruct H as (A & HA & H). do 3 (apply andb_true_iff in H; destruct H as [H ?]). exists A. split; [exact (sc_aset_reach _ _ HA)|]. split; [now apply Nat.eqb_eq|].
  split; [destruct (list_eq_dec string_dec (as_names A) ["a"; "b"]); [assumption|congruence]|]. split; [now apply Z.eqb_eq|]. split; [now apply negb_true_iff|exact HA].
Qed.
Lemma two_item a c : length a = 2%nat -> existsb (fun v => negb (v =? 0)) a = true -> 0 < c -> wf_item 2 (an_item a c) a (Fin c).
Proof.
  intros HL HX HC. repeat split; [exact HL| |right; exists c; auto]. apply existsb_exists in HX. destruct HX as (v & Hv & HN). apply In_nth_error in Hv. destruct Hv as (j & Hj). exists j, v. split; [exact Hj|]. apply negb_true_iff in HN. now apply qeq_false.
Qed.

(** C44: an action that keeps the prediction is filed. *)
Lemma c44_refuted : exists A x w t a c i f, aset_reachable env0 A /\ length x = as_len A /\ length w = as_len A /\ flipset_created PyMIP A x w t None f /\
  wf_item (as_len A) i a c /\ ~ flips w t x a /\
  forall srt, ok_sorter srt -> exists f', f_add srt f [i] = (f', Ok tt) /\ f_items f' = [{| fi_actions := a; fi_cost := c |}].
Proof.
  destruct case_aset as (A & HR & HL & _). set (x := [z 3; z 3]). set (w := [z 1; z 1]). set (a := [- z 1; z 0]). set (t := - z 3).
  exists A, x, w, t, a, (Fin 1), (an_item a 1), (new_flipset PyMIP A x w t None). split; [exact HR|]. rewrite HL. split; [reflexivity|]. split; [reflexivity|]. split; [apply new_created|].
  split; [apply two_item; [reflexivity|vm_compute; reflexivity|reflexivity]|]. split; [intro K; apply K; vm_compute; reflexivity|].
  intros srt HS. pose proof (fun sv => created_reachable env0 sv srt _ _ _ _ _ _ _ (new_created PyMIP A x w t None)) as HF. specialize (HF (fun _ _ => SUnknown)).
  assert (W : wf_item (as_len A) (an_item a 1) a (Fin 1)). { rewrite HL. apply two_item; [reflexivity|vm_compute; reflexivity|reflexivity]. }
  assert (HI := c48_all env0 _ srt PyMIP A x w t None _ HS (eq_sym HL) (eq_sym HL) HF [an_item a 1] [{| fi_actions := a; fi_cost := Fin 1 |}]).
  destruct HI as [H1 H2]. { constructor; [|constructor]. split; [exact W|]. cbn [fi_actions]. intro Q. assert (Q' : (score w t x =? qz (prediction w t (vadd x a))) = true) by now apply qeq_iff. vm_compute in Q'. discriminate Q'. }
  specialize (H2 eq_refl). destruct (f_add srt _ [an_item a 1]) as [f' r]. cbn [fst snd] in H1, H2. exists f'. split; [now rewrite H2|exact H1].
Qed.

Lemma mk_check E X names y ops k w t ct x test : sc_check (mk E X names y ops k w t ct x) test = true ->
  exists A b b0, aset_reachable E A /\ sc_aset (mk E X names y ops k w t ct x) = Ok A /\ mk_builder E k A (coef_args w t) ct (Some x) = Ok b0 /\ fresh E k A w t ct b /\ (forall sv, assigned E sv b x b0) /\ test b b0 = true.
Proof.
  intro H. destruct (sc_check_ok _ _ H) as (b & b0 & HR & HT). destruct (sc_mk _ _ _ HR) as (A & HA & H1 & H2 & H3). exists A, b, b0. split; [exact H1|]. split; [exact HA|]. split; [exact H2|]. split; [exact H3|]. split; [exact (sc_assigned _ _ _ HR)|exact HT].
Qed.
(** Populate, when the builder can be created. *)
Lemma pop_forced E b x b0 (P : list (list Qc) -> bool) n et : ok_env E -> (forall sv, assigned E sv b x b0) -> pop_test b0 n et P = true -> n <> 0%nat ->
  forall sv fuel, sound_solver sv -> finishing_solver sv -> (2 ^ as_len (bd_A b) < fuel)%nat ->
  exists b1 l, populate sv fuel (Some n) et b0 = Some (Ok (b1, l)) /\ length l = n /\ P (map s_actions l) = true /\ enumeration sv b0 (map (pair et) l ++ []) b1.
Proof.
  intros HE HR HT Hn sv fuel HS HF Hfu. pose proof (HR sv) as HA.
  destruct (c39_term_thm _ sv b _ b0 [] b0 fuel (Some n) et HE HS HA (en_done _ _)) as (b1 & l & Hp & _); [congruence|exact Hfu|]. exists b1, l. split; [exact Hp|].
  destruct (assigned_ready _ sv _ _ _ HE HA) as (ms & R). destruct (pop_test_ok sv b0 ms _ n et P fuel b1 l HS HF (rd_good _ _ _ _ _ R) HT Hp) as [L1 L2]. split; [exact L1|]. split; [exact L2|]. eapply en_populate; [exact Hp|constructor].
Qed.
(** Filing accepted items with scalar sort keys. *)
Lemma add_filed srt k A x w t f items vs : ok_sorter srt -> frame k A x w t f -> length x = as_len A -> length w = as_len A -> scalar_keys (f_by f) -> Forall2 (filable A x w t) items vs ->
  exists f', f_add srt f items = (f', Ok tt) /\ f_items f' = f_items f ++ vs.
Proof.
  intros HS F HLx HLw HK HA. destruct (add_ok k A x w t HLx HLw eq_refl srt f items vs F HA) as (rows & _ & Hadd). rewrite Hadd. destruct vs as [|v vs]; [eexists; split; [reflexivity|]; reflexivity|].
  unfold f_resort. destruct HS as (S1 & _). match goal with |- context [srt ?a ?b] => destruct (S1 a b HK) as (d & Hd & _) end. rewrite Hd. eexists. split; [reflexivity|]. cbn. now destruct (f_inplace f).
Qed.

(** An approved individual (score 2): populate files actions that do not change the prediction. *)
Lemma c44_populate : exists A x w t f, aset_reachable env0 A /\ length x = as_len A /\ length w = as_len A /\ as_y A = 1%Z /\ flipset_created PyMIP A x w t None f /\
  forall sv srt fuel, sound_solver sv -> finishing_solver sv -> ok_sorter srt -> (4 < fuel)%nat ->
  exists f' v, f_populate env0 sv srt fuel (Some 1%nat) DistinctSubsets CTotal f = Some (f', Ok tt) /\ f_items f' = [v] /\ ~ flips w t x (fi_actions v).
Proof.
  set (x := x01). set (w := [z 1; z 1]). set (t := z 1).
  destruct (mk_check env0 tab2 ["a"; "b"] 1 [] PyMIP w t CTotal x (fun b b0 => pop_test b0 1 DistinctSubsets (fun l => match l with [a] => Nat.eqb (length a) 2 && (0 <? score w t (vadd x a)) | _ => false end) && Nat.eqb (as_len (bd_A b)) 2 && (as_y (bd_A b) =? 1)%Z)) as (A & b & b0 & HRe & _ & Hmk & FR & HAs & H); [vm_compute; reflexivity|].
  do 2 (apply andb_true_iff in H; destruct H as [H ?]). apply Nat.eqb_eq in H1. apply Z.eqb_eq in H0.
  pose proof (fr_sbf _ _ _ _ _ _ _ FR) as SB. pose proof (sbf_len _ _ SB) as SL. pose proof SB as (_ & _ & Sy & _). rewrite SL in H1. rewrite Sy in H0.
  exists A, x, w, t, (new_flipset PyMIP A x w t None). split; [exact HRe|]. rewrite H1. split; [reflexivity|]. split; [reflexivity|]. split; [exact H0|]. split; [apply new_created|].
  intros sv srt fuel HS HF HSo Hfu. destruct (pop_forced env0 b x b0 _ _ _ env0_ok HAs H ltac:(discriminate) sv fuel HS HF ltac:(rewrite SL, H1; cbn; lia)) as (b1 & l & Hp & HL & HT & HEn).
  destruct l as [|s [|? ?]]; try discriminate HL. cbn [map] in HT. apply andb_true_iff in HT. destruct HT as [HT HT2]. apply Nat.eqb_eq in HT.
  unfold f_populate. cbn [new_flipset f_builder f_kind f_A f_w f_t f_x]. rewrite Hmk, Hp. destruct (enumeration_session _ _ _ _ HEn) as (ls & HSes & HIn).
  destruct (c31_thm env0 sv b x b0 ls b1 s env0_ok HS (HAs sv) HSes ltac:(apply (HIn (DistinctSubsets, s)); now left)) as (P3 & _ & P4).
  set (f1 := f_with_builder _ _). assert (HF1 : frame PyMIP A x w t f1) by (now constructor). assert (Sx : score w t x = z 2) by (apply Qc_is_canon; reflexivity).
  destruct (add_filed srt PyMIP A x w t f1 (map sol_item [s]) (map filed [s]) HSo HF1 (eq_sym H1) (eq_sym H1) eq_refl) as (f' & Hadd & HI).
  { constructor; [|constructor]. split; [|cbn [fi_actions filed]; intro Q; unfold prediction in Q].
    - repeat split; [cbn; lia|now apply n_changed_pos|]. right. exists (s_cost s). auto.
    - rewrite Sx in Q. destruct (qsign_range (score w t (vadd x (s_actions s)))) as [K|[K|K]]; rewrite K in Q; vm_compute in Q; discriminate Q. }
  exists f', (filed s). split; [now rewrite Hadd|]. split; [exact HI|].
  intro K. apply K. unfold prediction. cbn [filed fi_actions]. rewrite Sx. unfold qsign at 2. rewrite HT2. reflexivity.
Qed.

(** Two items in the wrong order: the larger and dearer one first. *)
Definition i_big : item := an_item [z 1; z 1] (z 2).
Definition i_small : item := an_item [z 2; z 0] (z 1).
Definition v_big : fitem := {| fi_actions := [z 1; z 1]; fi_cost := Fin (z 2) |}.
Definition v_small : fitem := {| fi_actions := [z 2; z 0]; fi_cost := Fin (z 1) |}.
Definition w11 : list Qc := [z 1; z 1].
Lemma two_filable A : as_len A = 2%nat -> Forall2 (filable A x01 w11 (- z 3)) [i_big; i_small] [v_big; v_small].
Proof.
  intro HL. constructor; [|constructor; [|constructor]]; unfold filable; rewrite HL; cbn [fi_actions fi_cost v_big v_small]; split.
  - apply two_item; [reflexivity|vm_compute; reflexivity|reflexivity].
  - intro Q. assert (K : (score w11 (- z 3) x01 =? qz (prediction w11 (- z 3) (vadd x01 [z 1; z 1]))) = true) by now apply qeq_iff. vm_compute in K. discriminate K.
  - apply two_item; [reflexivity|vm_compute; reflexivity|reflexivity].
  - intro Q. assert (K : (score w11 (- z 3) x01 =? qz (prediction w11 (- z 3) (vadd x01 [z 2; z 0]))) = true) by now apply qeq_iff. vm_compute in K. discriminate K.
Qed.
Definition case_flip A := new_flipset PyMIP A x01 w11 (- z 3) None.
(** Adding them to a flipset of that individual without items. *)
Lemma add_two srt f A : frame PyMIP A x01 w11 (- z 3) f -> as_len A = 2%nat -> f_items f = [] -> f_df f = [] ->
  exists r1 r2, describes w11 (- z 3) x01 (as_names A) v_big r1 /\ describes w11 (- z 3) x01 (as_names A) v_small r2 /\
    f_add srt f [i_big; i_small] = f_resort srt (f_with_items f [v_big; v_small] [(0%nat, r1); (1%nat, r2)]).
Proof.
  intros F HL E1 E2. destruct (add_ok PyMIP A x01 w11 (- z 3) (eq_sym HL) (eq_sym HL) eq_refl srt f _ _ F (two_filable A HL)) as (rows & HR & Hadd). inversion HR as [|? r1 ? ? D1 HR1]; subst. inversion HR1 as [|? r2 ? ? D2 HR2]; subst. inversion HR2; subst.
  exists r1, r2. split; [exact D1|]. split; [exact D2|]. rewrite Hadd, E1, E2. reflexivity.
Qed.
Lemma not_asc ks p q d : ascending ks (p :: q :: d) -> table_le ks (snd p) (snd q) = true.
Proof. intro H. inversion H as [|? ? _ Hf]; subst. inversion Hf; assumption. Qed.
Lemma big_small_cost A r1 r2 : describes w11 (- z 3) x01 (as_names A) v_big r1 -> describes w11 (- z 3) x01 (as_names A) v_small r2 ->
  table_le [KCost] r1 r2 = false /\ forall ks, table_le (KSize :: ks) r1 r2 = false.
Proof.
  intros (C1 & S1 & _) (C2 & S2 & _). split; [|intro ks]; cbn; rewrite ?C1, ?C2, ?S1, ?S2; vm_compute; reflexivity.
Qed.
Lemma c47_refuted : exists A f, aset_reachable env0 A /\ flipset_created PyMIP A x01 w11 (- z 3) None f /\
  forall sv srt, ok_sorter srt ->
    let ops := [FSort (SortBy [Some KCost] false true); FAdd [i_big; i_small]] in
    chosen_keys ops = [KCost] /\ length (f_df (flipset_run env0 sv srt f ops)) = 2%nat /\ ~ ascending [KCost] (f_df (flipset_run env0 sv srt f ops)).
Proof.
  destruct case_aset as (A & HR & HL & _). exists A, (case_flip A). split; [exact HR|]. split; [apply new_created|]. intros sv srt HS ops. split; [reflexivity|].
  pose proof HS as (S1 & _ & _ & S4). unfold ops, flipset_run. cbn [fold_left flipset_step f_sort all_some option_map]. change (f_df (case_flip A)) with (@nil (nat * frow)). rewrite (S4 [KCost]). cbn [fst].
  set (f1 := f_with_sort _ _ _). assert (F1 : frame PyMIP A x01 w11 (- z 3) f1) by (now constructor).
  destruct (add_two srt f1 A F1 HL eq_refl eq_refl) as (r1 & r2 & D1 & D2 & ->). unfold f_resort. cbn [f_by f_df f_with_items f_with_sort f1 f_inplace].
  destruct (S1 [KCost] [(0%nat, r1); (1%nat, r2)] eq_refl) as (d & Hd & _). rewrite Hd. cbn. split; [reflexivity|]. intro K. apply not_asc in K. cbn [snd] in K. destruct (big_small_cost A r1 r2 D1 D2) as [Q _]. congruence.
Qed.
(** Sort keys with list-valued columns are accepted while the flipset is empty, and then break additions. *)
Lemma c47_list_keys : exists A f, aset_reachable env0 A /\ flipset_created PyMIP A x01 w11 (- z 3) None f /\
  forall srt, ok_sorter srt -> exists f1 f2, f_sort srt f (SortBy [Some KSize; Some KFeatures] true true) = (f1, Ok tt) /\
    f_add srt f1 [i_big; i_small] = (f2, Err TypeError) /\ f_items f2 = [v_big; v_small] /\ length (f_df f2) = 2%nat /\ ~ ascending [KSize; KFeatures] (f_df f2).
Proof.
  destruct case_aset as (A & HR & HL & _). exists A, (case_flip A). split; [exact HR|]. split; [apply new_created|]. intros srt HS. pose proof HS as (S1 & _ & S3 & S4).
  unfold f_sort. cbn [all_some option_map case_flip new_flipset f_df]. rewrite (S4 [KSize; KFeatures]). set (f1 := f_with_sort _ _ _). exists f1. assert (F1 : frame PyMIP A x01 w11 (- z 3) f1) by (now constructor).
  destruct (add_two srt f1 A F1 HL eq_refl eq_refl) as (r1 & r2 & D1 & D2 & ->). unfold f_resort. cbn [f_by f_df f_with_items f_with_sort f1 f_inplace].
  rewrite S3; [|discriminate|cbn; lia|discriminate]. eexists. split; [reflexivity|]. split; [reflexivity|]. split; [reflexivity|]. split; [reflexivity|]. intro K. apply not_asc in K. cbn [snd] in K. destruct (big_small_cost A r1 r2 D1 D2) as [_ Q]. rewrite Q in K. discriminate K.
Qed.
(** A case for C46-C48 and C57: both items are filed, the table is in the order small, big. *)
Lemma two_sorted srt A : ok_sorter srt -> as_len A = 2%nat -> exists f' r1 r2,
  f_add srt (case_flip A) [i_big; i_small] = (f', Ok tt) /\ f_items f' = [v_big; v_small] /\ f_df f' = [(1%nat, r2); (0%nat, r1)] /\ f_by f' = [KSize; KCost; KScore] /\ f_inplace f' = true /\
  describes w11 (- z 3) x01 (as_names A) v_big r1 /\ describes w11 (- z 3) x01 (as_names A) v_small r2 /\ frame PyMIP A x01 w11 (- z 3) f'.
Proof.
  intros HS HL. pose proof HS as (S1 & S2 & _). assert (F1 : frame PyMIP A x01 w11 (- z 3) (case_flip A)) by (now constructor).
  destruct (add_two srt _ A F1 HL eq_refl eq_refl) as (r1 & r2 & D1 & D2 & Hadd). destruct (big_small_cost A r1 r2 D1 D2) as [_ Q].
  assert (Hd : srt [KSize; KCost; KScore] [(0%nat, r1); (1%nat, r2)] = Ok [(1%nat, r2); (0%nat, r1)]).
  { destruct (S1 [KSize; KCost; KScore] [(0%nat, r1); (1%nat, r2)] eq_refl) as (d & Hd & HA). rewrite Hd. f_equal. pose proof (S2 _ _ _ Hd) as P. apply Permutation_sym in P. apply Permutation_length_2_inv in P. destruct P as [-> | ->]; [|reflexivity].
    apply not_asc in HA. cbn [snd] in HA. rewrite Q in HA. discriminate HA. }
  eexists. exists r1, r2. rewrite Hadd. unfold f_resort. cbn [f_by f_df f_with_items case_flip new_flipset f_inplace]. rewrite Hd. split; [reflexivity|]. repeat (split; [reflexivity|]). split; [exact D1|]. split; [exact D2|]. now constructor.
Qed.
(** C61: the flat table shows the items in the order of their labels, not in the order of the table. *)
Lemma c61_refuted : exists A f, aset_reachable env0 A /\ flipset_created PyMIP A x01 w11 (- z 3) None f /\
  forall srt order, ok_sorter srt -> ok_order order -> exists f1 f2 lines, f_add srt f [i_big; i_small] = (f1, Ok tt) /\
    to_flat_df srt order f1 = (f2, Ok (Some lines)) /\
    map (fun p => r_size (snd p)) (f_df f2) = [1; 2]%nat /\ map fl_item lines = [0; 0; 1]%nat /\
    Permutation lines (change_lines ["a"; "b"] x01 0 [z 1; z 1] ++ change_lines ["a"; "b"] x01 1 [z 2; z 0]).
Proof.
  destruct case_aset as (A & HR & HL & HN & _). exists A, (case_flip A). split; [exact HR|]. split; [apply new_created|]. intros srt order HS HO.
  destruct (two_sorted srt A HS HL) as (f1 & r1 & r2 & Hadd & E1 & E2 & E3 & E4 & D1 & D2 & F). pose proof HS as (S1 & S2 & _). destruct (big_small_cost A r1 r2 D1 D2) as [_ Q].
  assert (Hd : srt [KSize; KCost; KScore] [(1%nat, r2); (0%nat, r1)] = Ok [(1%nat, r2); (0%nat, r1)]).
  { destruct (S1 [KSize; KCost; KScore] [(1%nat, r2); (0%nat, r1)] eq_refl) as (d & Hd & HA). rewrite Hd. f_equal. pose proof (S2 _ _ _ Hd) as P. apply Permutation_sym in P. apply Permutation_length_2_inv in P. destruct P as [-> | ->]; [reflexivity|].
    apply not_asc in HA. cbn [snd] in HA. rewrite Q in HA. discriminate HA. }
  exists f1. unfold to_flat_df, f_resort. rewrite E3, E2, Hd, E4. cbn [f_df f_with_items]. eexists. exists (order (flat_lines [(1%nat, r2); (0%nat, r1)])). split; [exact Hadd|]. split; [reflexivity|].
  cbn [map snd f_df f_with_items]. assert (Z1 : r_size r1 = 2%nat) by (destruct D1 as (_ & S & _); rewrite S; vm_compute; reflexivity). assert (Z2 : r_size r2 = 1%nat) by (destruct D2 as (_ & S & _); rewrite S; vm_compute; reflexivity).
  rewrite Z1, Z2. split; [reflexivity|].
  assert (P : Permutation (order (flat_lines [(1%nat, r2); (0%nat, r1)])) (change_lines ["a"; "b"] x01 0 [z 1; z 1] ++ change_lines ["a"; "b"] x01 1 [z 2; z 0])).
  { destruct (HO (flat_lines [(1%nat, r2); (0%nat, r1)])) as [O1 _]. rewrite O1. rewrite (flat_lines_change w11 (- z 3) x01 (as_names A) [v_big; v_small] [r1; r2] _ (Forall2_cons _ _ D1 (Forall2_cons _ _ D2 (Forall2_nil _))) (perm_swap _ _ [])). rewrite HN. cbn [combine seq length flat_map fst snd fi_actions v_big v_small]. now rewrite app_nil_r. }
  split; [|exact P]. destruct (HO (flat_lines [(1%nat, r2); (0%nat, r1)])) as [_ O2]. set (lines := order _) in *.
  assert (PM : Permutation (map fl_item lines) [0; 0; 1]%nat). { rewrite P. vm_compute. reflexivity. }
  assert (SM : StronglySorted le (map fl_item lines)). { clear -O2. induction O2 as [|a l Hs IH Hf]; cbn; constructor; [exact IH|]. rewrite Forall_map. exact Hf. }
  destruct (map fl_item lines) as [|a [|b [|c [|d l]]]] eqn:EM; try (apply Permutation_length in PM; discriminate PM).
  inversion SM as [|? ? SM1 Ha]; subst. inversion SM1 as [|? ? SM2 Hb]; subst. inversion Ha as [|? ? Hab Ha1]; subst. inversion Ha1 as [|? ? Hac _]; subst. inversion Hb as [|? ? Hbc _]; subst.
  assert (In 0%nat [a; b; c]) as I0 by (rewrite PM; now left). assert (In 1%nat [a; b; c]) as I1 by (rewrite PM; cbn; auto).
  assert (Ba : In a [0; 0; 1]%nat) by (rewrite <- PM; now left). assert (Bb : In b [0; 0; 1]%nat) by (rewrite <- PM; cbn; auto). assert (Bc : In c [0; 0; 1]%nat) by (rewrite <- PM; cbn; auto).
  assert (C1 : count_occ Nat.eq_dec [a; b; c] 0%nat = 2%nat). { rewrite (proj1 (Permutation_count_occ Nat.eq_dec _ _) PM 0%nat). reflexivity. }
  cbn in Ba, Bb, Bc. assert (a = 0%nat /\ c = 1%nat) as [-> ->]. { cbn in I0, I1. lia. } destruct Bb as [<-|[<-|[<-|[]]]]; try reflexivity. vm_compute in C1. discriminate C1.
Qed.
