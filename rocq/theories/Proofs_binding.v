(** C120: actionability and direction settings bind every later answer. *)
From Verif Require Import Spec_recourse Spec_flipset Proofs_props_actionset Proofs_actionset Proofs_builder8 Proofs_session Proofs_flipset3.
#[local] Open Scope string_scope.
#[local] Open Scope list_scope.
#[local] Open Scope Qc_scope.

Definition scalar_value (v : pyval) : Prop := match v with PBool _ | PInt _ => True | _ => False end.
Lemma set_at E A i ps name v A' p : aset_reachable E A -> select A i = Ok ps -> NoDup ps -> scalar_value v ->
  index_setattr A i name v = (A', Ok tt) -> In p ps ->
  exists e e', nth_error (as_elems A) p = Some e /\ elem_setattr name v e = Ok e' /\ nth_error (as_elems A') p = Some e'.
Proof.
  intros HR Hs HN Hv H Hp. destruct (c17_index _ _ _ _ _ _ _ _ HR Hs HN H) as (_ & _ & _ & _ & _ & K).
  apply In_nth_error in Hp. destruct Hp as [k Hk]. destruct (K eq_refl k p Hk) as (e & w & e' & H1 & H2 & H3 & H4).
  assert (w = v). { destruct i, v; cbn in H2; try contradiction; exact H2. }
  subst w. eauto.
Qed.
Lemma permitted_fixed A x a p e : permitted_action A x a -> length x = as_len A -> nth_error (as_elems A) p = Some e -> e_actionable e = false -> ~ changes a p.
Proof.
  intros [HL H] HX He Hf (aj & Ha & Hn).
  assert (Hb : (p < as_len A)%nat) by (rewrite <- HL; apply nth_error_Some; congruence).
  destruct (nth_error x p) as [xj|] eqn:Hx; [|apply nth_error_None in Hx; lia].
  destruct (H p e xj aj He Hx Ha) as [Hp|(Hp & _)]; [|congruence].
  apply Hn. assert (aj = xj + aj - xj) as -> by ring. rewrite Hp. ring.
Qed.
Lemma permitted_direction A x a p e d aj : permitted_action A x a -> length x = as_len A -> nth_error (as_elems A) p = Some e -> e_step_dir e = Z.sgn d ->
  nth_error a p = Some aj -> ((0 < d)%Z -> 0 <= aj) /\ ((d < 0)%Z -> aj <= 0).
Proof.
  intros [HL H] HX He Hd Ha.
  assert (Hb : (p < as_len A)%nat) by (rewrite <- HL; apply nth_error_Some; congruence).
  destruct (nth_error x p) as [xj|] eqn:Hx; [|apply nth_error_None in Hx; lia].
  destruct (H p e xj aj He Hx Ha) as [Hp|(_ & _ & Hu & Hl)].
  - assert (aj = 0) as -> by (assert (aj = xj + aj - xj) as -> by ring; rewrite Hp; ring). split; intros; apply Qcle_refl.
  - rewrite Hd in *. split; intro Hs.
    + assert (xj <= xj + aj) by (apply Hu; lia). qlra.
    + assert (xj + aj <= xj) by (apply Hl; lia). qlra.
Qed.
Lemma assigned_length E sv b x b0 : assigned E sv b x b0 -> length x = as_len (bd_A b).
Proof.
  intros [HR H]. destruct (reachable_sane _ _ _ HR) as [_ HL]. unfold set_x in H.
  destruct (Nat.eqb (length x) (length (bd_w b))) eqn:He; [|discriminate H]. apply Nat.eqb_eq in He. congruence.
Qed.
Section Bound.
  Context (E : env) (sv : solver) (b : builder) (i : index) (ps : list nat) (A' : action_set) (x : list Qc) (b0 b1 : builder) (l : list sol) (s : sol) (p : nat).
  Context (HE : ok_env E) (HS : sound_solver sv) (HR : builder_reachable E sv b) (Hs : select (bd_A b) i = Ok ps) (HN : NoDup ps).
  Context (HA : assigned E sv (with_aset b A') x b0) (HL : session sv b0 l b1) (Hin : In s l) (Hp : In p ps).
  Lemma c120_fixed : index_setattr (bd_A b) i "actionable" (PBool false) = (A', Ok tt) -> ~ changes (s_actions s) p.
  Proof.
    intro H. destruct (reachable_sane _ _ _ HR) as [HAR _].
    destruct (set_at E (bd_A b) i ps "actionable" (PBool false) A' p HAR Hs HN I H Hp) as (e & e' & _ & H1 & H2).
    pose proof (proj1 (c17_readback e) false e' H1) as Hf.
    apply (permitted_fixed A' x _ p e'); auto.
    - apply (c25_thm E sv (with_aset b A') x b0 l b1 s HE HS HA HL Hin).
    - apply (assigned_length _ _ _ _ _ HA).
  Qed.
  Lemma c120_direction d aj : index_setattr (bd_A b) i "step_direction" (PInt d) = (A', Ok tt) -> nth_error (s_actions s) p = Some aj ->
    ((0 < d)%Z -> 0 <= aj) /\ ((d < 0)%Z -> aj <= 0).
  Proof.
    intros H Ha. destruct (reachable_sane _ _ _ HR) as [HAR _].
    destruct (set_at E (bd_A b) i ps "step_direction" (PInt d) A' p HAR Hs HN I H Hp) as (e & e' & _ & H1 & H2).
    destruct (c17_readback e) as (_ & _ & Hf & _). pose proof (Hf d e' H1) as Hd.
    apply (permitted_direction A' x (s_actions s) p e'); auto.
    - apply (c25_thm E sv (with_aset b A') x b0 l b1 s HE HS HA HL Hin).
    - apply (assigned_length _ _ _ _ _ HA).
  Qed.
End Bound.

(** Such assignments are always accepted. *)
Lemma accepted_loop name v : (forall e, exists e', elem_setattr name v e = Ok e') ->
  forall n work es, (forall p j, In (p, j) work -> (p < length es)%nat /\ (j < n)%nat) ->
  exists es', assign_loop name (repeat v n) work es = (es', Ok tt).
Proof.
  intros Hv n work. induction work as [|[p j] work IH]; intros es Hw; [eexists; reflexivity|].
  cbn [assign_loop]. destruct (Hw p j (or_introl eq_refl)) as [Hp Hj].
  destruct (nth_error es p) as [e|] eqn:He; [|apply nth_error_None in He; lia].
  assert (nth_error (repeat v n) j = Some v) as ->.
  { clear -Hj. revert j Hj. induction n as [|n IHn]; intros [|j] Hj; try lia; [reflexivity|]. cbn. apply IHn. lia. }
  destruct (Hv e) as [e' ->]. apply IH. intros p' j' Hi. rewrite list_set_length. apply Hw. now right.
Qed.
Lemma c120_accepted E A i ps : aset_reachable E A -> select A i = Ok ps -> NoDup ps ->
  (forall f, exists A', index_setattr A i "actionable" (PBool f) = (A', Ok tt)) /\
  (forall d, exists A', index_setattr A i "step_direction" (PInt d) = (A', Ok tt)).
Proof.
  intros HR Hs HN. apply reachable_wf in HR. pose proof (wf_len _ _ HR) as HL.
  assert (Hlt : forall p, In p ps -> (p < length (as_elems A))%nat) by (intros p Hp; rewrite HL; eapply select_lt; eauto).
  assert (HG : forall name v, elem_hasattr name = true -> scalar_value v -> (forall e, exists e', elem_setattr name v e = Ok e') ->
    exists A', index_setattr A i name v = (A', Ok tt)).
  { intros name v Hh Hsc Hv. unfold index_setattr. rewrite Hs.
    assert (HX : match i with IStr _ | IInt _ => exists p, ps = [p] | _ => True end).
    { destruct i; auto; cbn in Hs; [destruct (key_pos A s)|destruct (name_pos A z)]; try discriminate Hs; injection Hs as <-; eauto. }
    assert (HS1 : (exists p, ps = [p]) -> exists A', match ps with
          | [p] => match nth_error (as_elems A) p with
                   | Some e => match elem_setattr name v e with
                               | Ok e' => (with_elems A (list_set p e' (as_elems A)), Ok tt)
                               | Err x => (A, Err x)
                               end
                   | None => (A, Err KeyError)
                   end
          | _ => (A, Err KeyError)
          end = (A', Ok tt)).
    { intros [p ->]. destruct (nth_error (as_elems A) p) as [e|] eqn:He.
      - destruct (Hv e) as [e' ->]. eauto.
      - apply nth_error_None in He. specialize (Hlt p (or_introl eq_refl)). lia. }
    rewrite Hh. cbv zeta. rewrite slice_dict_eq; [|exact HN|exact Hlt|destruct HR as (W1 & W2 & _); rewrite W2; apply W1].
    assert (HX2 : expand_values v (length (combine ps (seq 0 (length ps)))) = Ok (repeat v (length ps))).
    { assert (El : length (combine ps (seq 0 (length ps))) = length ps) by (rewrite combine_length, seq_length; lia). rewrite El.
      destruct v; cbn in Hsc; try contradiction; reflexivity. }
    rewrite HX2.
    destruct (accepted_loop name v Hv (length ps) (combine ps (seq 0 (length ps))) (as_elems A)) as [es' Hl].
    { intros p j Hi. split; [apply Hlt; eapply in_combine_l; exact Hi|]. apply in_combine_r, in_seq in Hi. lia. }
    destruct i; try (apply HS1; exact HX); rewrite Hl; eauto. }
  split.
  - intro f. apply HG; [reflexivity|exact I|]. intro e. destruct f; cbn; eauto.
  - intro d. apply HG; [reflexivity|exact I|]. intro e. cbn. eauto.
Qed.

(** Flipsets *)
Lemma c120_flipset E sv srt k A i ps A' x w t f fuel total et ct f' : ok_env E -> sound_solver sv -> ok_sorter srt ->
  aset_reachable E A -> select A i = Ok ps -> NoDup ps -> index_setattr A i "actionable" (PBool false) = (A', Ok tt) ->
  flipset_reachable E sv srt k A' x w t None f -> length x = as_len A' -> denied (as_y A') (score w t x) -> scalar_keys (f_by f) -> total <> Some 0%nat -> (2 ^ as_len A' < fuel)%nat ->
  f_populate E sv srt fuel total et ct f = Some (f', Ok tt) ->
  exists l, f_items f' = f_items f ++ map filed l /\ forall s p, In s l -> In p ps -> ~ changes (s_actions s) p.
Proof.
  intros HE HSv HSr HR Hs HN H HF HX HD HK HT Hfu HP.
  assert (HR' : aset_reachable E A').
  { destruct HR as (A0 & ops & HC & ->). exists A0, (ops ++ [OIndexSet i "actionable" (PBool false)]). split; [exact HC|].
    unfold aset_run. rewrite fold_left_app. cbn [fold_left aset_step]. unfold aset_run in H. now rewrite H. }
  destruct (c45 E sv srt k A' x w t f fuel total et ct HE HSv HSr HR' HF HD HK HT Hfu) as [(er & _ & _ & HB)|(b & b' & l & f2 & _ & _ & HB & Hi & Hall)]; rewrite HP in HB.
  - discriminate HB.
  - injection HB as <-. exists l. split; [exact Hi|]. intros s p Hsl Hp. destruct (Hall s Hsl) as [Hperm _].
    destruct (set_at E A i ps "actionable" (PBool false) A' p HR Hs HN I H Hp) as (e & e' & _ & H1 & H2).
    apply (permitted_fixed A' x _ p e'); auto. apply (proj1 (c17_readback e) false e' H1).
Qed.
From Verif Require Import Proofs_concrete Proofs_solver Proofs_scen Proofs_builder.
Lemma general_fit E sv b x b0 t : ok_env E -> sound_solver sv -> finishing_solver sv -> assigned E sv b x b0 -> fit_test b0 t = true ->
  exists b1 r, fit sv b0 = Ok (b1, r) /\ t (view r) = true.
Proof. intros HE HS HF HA HT. destruct (assigned_ready _ sv _ _ _ HE HA) as (ms & R). eapply fit_test_ok; eauto using rd_good. Qed.
Definition edit_test (i : index) (name : string) (v : pyval) (x : list Qc) (t : option (list Qc * list Qc * Qc) -> bool) (b b0 : builder) : bool :=
  match select (bd_A b) i with Ok [_] => true | _ => false end &&
  match index_setattr (bd_A b) i name v with
  | (A', Ok _) => match set_x env0 (with_aset b A') x with (c0, Ok _) => fit_test c0 t | _ => false end
  | _ => false
  end.
Lemma edit_case c i name v t : sc_env c = env0 -> sc_check c (edit_test i name v (sc_x c) t) = true ->
  exists b ps A', builder_created env0 b /\ select (bd_A b) i = Ok ps /\ NoDup ps /\ index_setattr (bd_A b) i name v = (A', Ok tt) /\
    forall sv, sound_solver sv -> finishing_solver sv -> exists b0 b1 r, assigned env0 sv (with_aset b A') (sc_x c) b0 /\ fit sv b0 = Ok (b1, r) /\ t (view r) = true.
Proof.
  intros HE H. apply sc_check_ok in H. destruct H as (b & b0 & HR & HT). unfold edit_test in HT.
  apply andb_true_iff in HT. destruct HT as [HT1 HT].
  destruct (select (bd_A b) i) as [[|p [|? ?]]|] eqn:HS; try discriminate HT1.
  destruct (index_setattr (bd_A b) i name v) as [A' [[]|]] eqn:HI; [|discriminate HT].
  destruct (set_x env0 (with_aset b A') (sc_x c)) as [c0 [[]|]] eqn:HX; [|discriminate HT].
  pose proof (sc_run_builder c b b0 HR) as HB. pose proof (sc_created c b HB) as HC. rewrite HE in HC.
  exists b, [p], A'. split; [exact HC|]. split; [exact HS|]. split; [constructor; [intros []|constructor]|]. split; [exact HI|].
  intros sv Hs Hf. assert (HA : assigned env0 sv (with_aset b A') (sc_x c) c0).
  { split; [|exact HX]. exists b, [BAset (OIndexSet i name v)]. split; [exact HC|]. cbn [builder_run fold_left builder_step aset_step]. unfold builder_run. cbn [fold_left builder_step aset_step]. now rewrite HI. }
  destruct (general_fit env0 sv (with_aset b A') (sc_x c) c0 t env0_ok Hs Hf HA HT) as (b1 & r & H1 & H2). eauto 8.
Qed.
Definition changes_second (v : option (list Qc * list Qc * Qc)) : bool :=
  match v with Some ([a0; a1], _, _) => (a0 =? 0) && (0 <? a1) | _ => false end.
Definition changes_first (v : option (list Qc * list Qc * Qc)) : bool :=
  match v with Some ([a0; a1], _, _) => (0 <? a0) && (a1 =? 0) | _ => false end.
Lemma c120_case : exists b ps A' x, builder_created env0 b /\ select (bd_A b) (IStr "a") = Ok ps /\ NoDup ps /\
  index_setattr (bd_A b) (IStr "a") "actionable" (PBool false) = (A', Ok tt) /\
  forall sv, sound_solver sv -> finishing_solver sv -> exists b0 b1 s, assigned env0 sv (with_aset b A') x b0 /\ fit sv b0 = Ok (b1, Some s) /\ changes (s_actions s) 1.
Proof.
  destruct (edit_case (sc2 PyMIP CTotal (z (-3))) (IStr "a") "actionable" (PBool false) changes_second eq_refl) as (b & ps & A' & H1 & H2 & H3 & H4 & H5); [vm_compute; reflexivity|].
  exists b, ps, A', (sc_x (sc2 PyMIP CTotal (z (-3)))). do 4 (split; [assumption|]). intros sv Hs Hf. destruct (H5 sv Hs Hf) as (b0 & b1 & r & K1 & K2 & K3).
  destruct r as [s|]; [|discriminate K3]. exists b0, b1, s. split; [exact K1|]. split; [exact K2|].
  unfold view, changes_second in K3. destruct (s_actions s) as [|a0 [|a1 [|]]] eqn:Ha; try discriminate K3. apply andb_true_iff in K3. destruct K3 as [_ K3]. qbool.
  exists a1. split; [reflexivity|]. intros ->. apply (Qclt_not_eq _ _ K3). reflexivity.
Qed.
Lemma c120_direction_case : exists b ps A' x, builder_created env0 b /\ select (bd_A b) (IStr "b") = Ok ps /\ NoDup ps /\
  index_setattr (bd_A b) (IStr "b") "step_direction" (PInt (-1)) = (A', Ok tt) /\
  forall sv, sound_solver sv -> finishing_solver sv -> exists b0 b1 s, assigned env0 sv (with_aset b A') x b0 /\ fit sv b0 = Ok (b1, Some s) /\ changes (s_actions s) 0.
Proof.
  destruct (edit_case (sc2 PyMIP CTotal (z (-3))) (IStr "b") "step_direction" (PInt (-1)) changes_first eq_refl) as (b & ps & A' & H1 & H2 & H3 & H4 & H5); [vm_compute; reflexivity|].
  exists b, ps, A', (sc_x (sc2 PyMIP CTotal (z (-3)))). do 4 (split; [assumption|]). intros sv Hs Hf. destruct (H5 sv Hs Hf) as (b0 & b1 & r & K1 & K2 & K3).
  destruct r as [s|]; [|discriminate K3]. exists b0, b1, s. split; [exact K1|]. split; [exact K2|].
  unfold view, changes_first in K3. destruct (s_actions s) as [|a0 [|a1 [|]]] eqn:Ha; try discriminate K3. apply andb_true_iff in K3. destruct K3 as [K3 _]. qbool.
  exists a0. split; [reflexivity|]. intros ->. apply (Qclt_not_eq _ _ K3). reflexivity.
Qed.
(** Percentile queries that do fill a cache, on a builder with an individual. *)
Lemma queries_case : exists b b0 x, (forall sv, assigned env0 sv b x b0) /\ aset_run env0 (bd_A b) (map OQuery [0; 1]%nat) <> bd_A b.
Proof.
  assert (H : sc_check (sc2 PyMIP CTotal (z (-3))) (fun b b0 => existsb (fun e => match e_interp e with None => false | _ => true end) (as_elems (aset_run env0 (bd_A b) (map OQuery [0; 1]%nat))) &&
     negb (existsb (fun e => match e_interp e with None => false | _ => true end) (as_elems (bd_A b)))) = true) by (vm_compute; reflexivity).
  apply sc_check_ok in H. destruct H as (b & b0 & HR & HT). exists b, b0, (sc_x (sc2 PyMIP CTotal (z (-3)))).
  split; [exact (sc_assigned _ _ _ HR)|]. intro HQ. rewrite HQ in HT. apply andb_true_iff in HT. destruct HT as [T1 T2]. rewrite T1 in T2. discriminate T2.
Qed.
(** The README's way of making a feature immutable. *)
Definition changes_both (v : option (list Qc * list Qc * Qc)) : bool :=
  match v with Some ([a0; a1], _, _) => (0 <? a0) && (0 <? a1) | _ => false end.
Lemma c20_vain k ct : exists b A' x, builder_created env0 b /\ bd_kind b = k /\ bd_cost b = ct /\ index_setattr (bd_A b) (IStr "a") "mutable" (PBool false) = (A', Ok tt) /\ nth_error (as_names A') 0 = Some "a" /\
  forall sv, sound_solver sv -> finishing_solver sv -> exists b0 b1 s, assigned env0 sv (with_aset b A') x b0 /\ fit sv b0 = Ok (b1, Some s) /\ changes (s_actions s) 0.
Proof.
  assert (HT : sc_check (sc2 k ct (z (-6))) (fun b b0 => edit_test (IStr "a") "mutable" (PBool false) (sc_x (sc2 k ct (z (-6)))) changes_both b b0 && match bd_kind b, k with PyMIP, PyMIP | CPX, CPX => true | _, _ => false end &&
    match bd_cost b, ct with CTotal, CTotal | CLocal, CLocal | CMax, CMax => true | _, _ => false end && match nth_error (as_names (fst (index_setattr (bd_A b) (IStr "a") "mutable" (PBool false)))) 0 with Some n => (n =? "a")%string | None => false end) = true) by (destruct k, ct; vm_compute; reflexivity).
  apply sc_check_ok in HT. destruct HT as (b & b0 & HR & HT). do 3 (apply andb_true_iff in HT; destruct HT as [HT ?]). unfold edit_test in HT. apply andb_true_iff in HT. destruct HT as [_ HT].
  destruct (index_setattr (bd_A b) (IStr "a") "mutable" (PBool false)) as [A' [[]|]] eqn:HI; [|discriminate HT]. destruct (set_x env0 (with_aset b A') (sc_x (sc2 k ct (z (-6))))) as [c0 [[]|]] eqn:HX; [|discriminate HT].
  pose proof (sc_run_builder _ b b0 HR) as HB. pose proof (sc_created _ b HB) as HC. change (sc_env (sc2 k ct (z (-6)))) with env0 in HC.
  exists b, A', (sc_x (sc2 k ct (z (-6)))). split; [exact HC|]. split; [destruct (bd_kind b), k; first [reflexivity|discriminate H1]|]. split; [destruct (bd_cost b), ct; first [reflexivity|discriminate H0]|]. split; [exact HI|].
  split. { cbn [fst] in H. destruct (nth_error (as_names A') 0) as [n|]; [|discriminate H]. apply String.eqb_eq in H. now subst. }
  intros sv Hs Hf. assert (HA : assigned env0 sv (with_aset b A') (sc_x (sc2 k ct (z (-6)))) c0).
  { split; [|exact HX]. exists b, [BAset (OIndexSet (IStr "a") "mutable" (PBool false))]. split; [exact HC|]. unfold builder_run. cbn [fold_left builder_step aset_step]. now rewrite HI. }
  destruct (general_fit env0 sv (with_aset b A') _ c0 changes_both env0_ok Hs Hf HA HT) as (b1 & r & K2 & K3). destruct r as [s|]; [|discriminate K3]. exists c0, b1, s. split; [exact HA|]. split; [exact K2|].
  unfold view, changes_both in K3. destruct (s_actions s) as [|a0 [|a1 [|]]] eqn:Ha; try discriminate K3. apply andb_true_iff in K3. destruct K3 as [K3 _]. qbool.
  exists a0. split; [reflexivity|]. intros ->. apply (Qclt_not_eq _ _ K3). reflexivity.
Qed.
