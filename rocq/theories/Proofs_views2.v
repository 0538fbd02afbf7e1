(** Proofs about rendered tables. *)
From Verif Require Export Proofs_views.
From Verif Require Import Proofs_concrete Proofs_solver Proofs_scen Proofs_builder8 Proofs_flipset Proofs_flipset3 Proofs_flipset4.
#[local] Open Scope string_scope.
#[local] Open Scope list_scope.
#[local] Open Scope Qc_scope.

(** ** Summary *)
Lemma mapM_columns E A cols : aset_reachable E A -> (forall n, In n cols -> In n readable) ->
  exists d, mapM (fun n => let! l := set_getattr A n in Ok (n, l)) cols = Ok d /\
    Forall2 (fun n c => fst c = n /\ Forall2 (shows n) (as_elems A) (snd c)) cols d.
Proof.
  intros HR. induction cols as [|n cols IH]; intro H; [exists []; split; [reflexivity|constructor]|].
  destruct IH as (d & Hd & HF); [intros m Hm; apply H; now right|].
  destruct (whole_read E A n HR) as (l & Hl & Hs); [apply H; now left|].
  exists ((n, l) :: d). split; [cbn; rewrite Hl; cbn; now rewrite Hd|]. constructor; [split; [reflexivity|exact Hs]|exact HF].
Qed.
Lemma summary_readable n : In n summary_columns -> In n readable.
Proof. unfold summary_columns. intro H. repeat (destruct H as [<-|H]; [cbn; tauto|]). destruct H. Qed.
Lemma tabulate_readable n : In n tabulate_columns -> In n readable.
Proof. unfold tabulate_columns. intro H. repeat (destruct H as [<-|H]; [cbn; tauto|]). destruct H. Qed.
Lemma c70_summary E A : aset_reachable E A -> exists d, summary A = Ok d /\
  Forall2 (fun n c => fst c = n /\ Forall2 (shows n) (as_elems A) (snd c))
    ["name"; "variable_type"; "lb"; "ub"; "size"; "step_size"; "actionable"; "compatible"; "step_direction"; "flip_direction"] d.
Proof. intro HR. apply (mapM_columns E); [exact HR|apply summary_readable]. Qed.
Lemma c70_printed E A : aset_reachable E A -> exists d, tabulate (inl A) = Ok d /\
  Forall2 (fun n c => fst c = n /\ Forall2 (shows n) (as_elems A) (snd c))
    ["name"; "variable_type"; "actionable"; "compatible"; "step_direction"; "flip_direction"; "size"; "step_type"; "step_size"; "lb"; "ub"] d.
Proof. intro HR. apply (mapM_columns E); [exact HR|apply tabulate_readable]. Qed.

(** ** to_latex of an action set *)
Lemma tex_mut_spec E e : elem_reachable E e ->
  (truthful_mutability e (tex_mutability (e_actionable e) (e_step_dir e)) <-> ~ (e_actionable e = true /\ (e_step_dir e < 0)%Z)) /\
  (e_actionable e = true -> (e_step_dir e < 0)%Z -> tex_mutability (e_actionable e) (e_step_dir e) = MutUp).
Proof.
  intro HR. pose proof (inv_dir _ _ (reachable_inv _ _ HR)) as H. unfold truthful_mutability, tex_mutability.
  destruct (e_actionable e); destruct H as [->|[->| ->]]; cbn; (split; [split|]); intros; try reflexivity; try discriminate; try lia; intros [? ?]; try discriminate; try lia.
Qed.
Lemma c71 E A : aset_reachable E A ->
  Forall2 (fun e r => tr_name r = e_name e /\ tr_lb r = e_lb e /\ tr_ub r = e_ub e /\ tr_size r = length (e_grid e) /\ tr_step r = e_step_size e /\
      tr_type r = TexReal /\
      (truthful_mutability e (tr_mut r) <-> ~ (e_actionable e = true /\ (e_step_dir e < 0)%Z)) /\
      (e_actionable e = true -> (e_step_dir e < 0)%Z -> tr_mut r = MutUp)) (as_elems A) (tex_table A).
Proof.
  intro HR. pose proof (reachable_wf _ _ HR) as (_ & _ & HF & _). unfold tex_table. clear HR. induction HF as [|e es He HF IH]; constructor; [|exact IH].
  cbn. pose proof (tex_mut_spec E e He) as [M1 M2]. auto 10.
Qed.

(** ** Dictionaries of a flipset *)
Lemma dict_fold (ks : list string) (vs : list Qc) d : NoDup (map fst d ++ ks) -> length ks = length vs ->
  fold_left (fun d p => dset (fst p) (snd p) d) (combine ks vs) d = d ++ combine ks vs.
Proof.
  revert vs d. induction ks as [|k ks IH]; intros vs d HN HL; [cbn; now rewrite app_nil_r|].
  destruct vs as [|v vs]; [discriminate HL|]. cbn. rewrite dset_new.
  - rewrite IH; [|rewrite map_app; cbn; now rewrite <- app_assoc|now injection HL]. now rewrite <- app_assoc.
  - intro H. apply NoDup_remove_2 in HN. apply HN. apply in_or_app. now left.
Qed.
Lemma combine_fst {X Y} (l : list X) (m : list Y) : length l = length m -> map fst (combine l m) = l.
Proof. revert m. induction l as [|a l IH]; intros [|b m] H; try discriminate H; [reflexivity|]. cbn. f_equal. apply IH. now injection H. Qed.
Lemma combine_snd {X Y} (l : list X) (m : list Y) : length l = length m -> map snd (combine l m) = m.
Proof. revert m. induction l as [|a l IH]; intros [|b m] H; try discriminate H; [reflexivity|]. cbn. f_equal. apply IH. now injection H. Qed.
Lemma c72 E sv srt k A x w t ob f : ok_sorter srt -> length x = as_len A -> length w = as_len A -> aset_reachable E A ->
  flipset_reachable E sv srt k A x w t ob f ->
  f_actions f = map fi_actions (f_items f) /\
  Forall2 (fun i d => map fst d = as_names A /\ map snd d = fi_actions i) (f_items f) (f_item_dicts f).
Proof.
  intros HS HLx HLw HR HF. split; [reflexivity|].
  pose proof (fl_frame E sv srt k A x w t ob f HS HLx HLw HF) as FR. pose proof (fl_inv E sv srt k A x w t ob f HS HLx HLw HF) as [HI _].
  assert (EA : f_A f = A) by (destruct FR; congruence). unfold f_item_dicts. rewrite EA.
  pose proof (reachable_wf _ _ HR) as (W1 & _). assert (HN : NoDup (as_names A)) by apply W1.
  induction (f_items f) as [|i l IH]; cbn; [constructor|]. inversion HI as [|? ? H1 H2]; subst. constructor; [|auto].
  assert (L : length (as_names (f_A f)) = length (fi_actions i)) by (rewrite H1; reflexivity).
  rewrite dict_fold; [cbn|exact HN|exact L]. split; [now apply combine_fst|now apply combine_snd].
Qed.

(** ** Wrapping names *)
Lemma app_assoc_s (a b c : string) : ((a ++ b) ++ c)%string = (a ++ b ++ c)%string.
Proof. induction a as [|h a IH]; cbn; [reflexivity|now rewrite IH]. Qed.
Lemma app_empty_s (a : string) : (a ++ "")%string = a.
Proof. induction a as [|h a IH]; cbn; [reflexivity|now rewrite IH]. Qed.
Lemma prefix_occurs v s : String.prefix v s = true -> occurs v s.
Proof.
  intro H. exists "". revert s H. induction v as [|c v IH]; intros s H; [exists s; reflexivity|].
  destruct s as [|d s]; cbn in H; [discriminate H|]. destruct (Ascii.ascii_dec c d) as [->|]; [|discriminate H].
  destruct (IH s H) as (b & Hb). exists b. cbn in *. now rewrite Hb at 1.
Qed.
Lemma occurs_tail v c s : occurs v s -> occurs v (String c s).
Proof. intros (a & b & ->). exists (String c a), b. reflexivity. Qed.
Lemma replace_none v w s fuel : ~ occurs v s -> replace_fuel fuel v w s = s.
Proof.
  revert s. induction fuel as [|n IH]; intros s H; [reflexivity|]. destruct s as [|c s]; [reflexivity|].
  cbn [replace_fuel]. destruct (String.prefix v (String c s)) eqn:P; [destruct (H (prefix_occurs _ _ P))|].
  f_equal. apply IH. intro K. apply H. now apply occurs_tail.
Qed.
Lemma prefix_refl s : String.prefix s s = true.
Proof. induction s as [|c s IH]; cbn; [reflexivity|]. destruct (Ascii.ascii_dec c c); [exact IH|congruence]. Qed.
Lemma substring_end s : String.substring (String.length s) 0 s = "".
Proof. induction s as [|c s IH]; cbn; [reflexivity|exact IH]. Qed.
Lemma replace_self v w : v <> "" -> str_replace v w v = w.
Proof.
  unfold str_replace. intro H. destruct v as [|c v]; [congruence|]. cbn [replace_fuel]. rewrite prefix_refl, Nat.sub_diag, substring_end.
  cbn. apply app_empty_s.
Qed.
Lemma wrap_other fmt names s : (forall v, In v names -> ~ occurs v s) -> wrap_names fmt names s = s.
Proof.
  unfold wrap_names. induction names as [|v names IH]; intro H; [reflexivity|]. cbn [fold_left]. assert (str_replace v (wrapped fmt v) s = s) as -> by (apply replace_none, H; now left).
  apply IH. intros u Hu. apply H. now right.
Qed.
Lemma occurs_wrapped v fmt n : occurs v n -> occurs v (wrapped fmt n).
Proof. intros (a & b & ->). exists (fmt ++ "{" ++ a)%string, (b ++ "}")%string. unfold wrapped. rewrite !app_assoc_s. reflexivity. Qed.
Lemma wrap_one fmt names n : NoDup names -> In n names -> n <> "" -> (forall v, In v names -> v <> n -> ~ occurs v (wrapped fmt n)) ->
  wrap_names fmt names n = wrapped fmt n.
Proof.
  intros HN Hin Hne H. apply in_split in Hin. destruct Hin as (l1 & l2 & ->). assert (wrap_names fmt (l1 ++ n :: l2) n = wrap_names fmt l2 (str_replace n (wrapped fmt n) (wrap_names fmt l1 n))) as ->
    by (unfold wrap_names; now rewrite fold_left_app).
  rewrite (wrap_other fmt l1 n).
  - rewrite replace_self by exact Hne. apply wrap_other. intros v Hv. apply H; [apply in_or_app; right; now right|].
    intros ->. apply NoDup_remove_2 in HN. apply HN, in_or_app. now right.
  - intros v Hv K. apply (H v); [apply in_or_app; now left| |now apply occurs_wrapped].
    intros ->. apply NoDup_remove_2 in HN. apply HN, in_or_app. now left.
Qed.
Lemma change_line_names names x lbl a l : length a = length names -> In l (change_lines names x lbl a) -> In (fl_feature l) names.
Proof.
  intros HL H. unfold change_lines in H. apply in_flat_map in H. destruct H as (j & Hj & H). apply in_seq in Hj.
  destruct (nth j a 0 =? 0); [destruct H|]. destruct H as [<-|[]]. cbn. apply nth_In. lia.
Qed.
Lemma c73 E sv srt k A x w t ob f order fmt : ok_sorter srt -> ok_order order -> length x = as_len A -> length w = as_len A -> aset_reachable E A ->
  flipset_reachable E sv srt k A x w t ob f ->
  (forall v n, In v (as_names A) -> In n (as_names A) -> v <> n -> ~ occurs v (wrapped fmt n)) ->
  forall lines, snd (to_flat_df srt order f) = Ok (Some lines) ->
  f_latex_names srt order fmt f = Ok (map (fun l => wrapped fmt (fl_feature l)) lines).
Proof.
  intros HS HO HLx HLw HR HF HW lines Hl. unfold f_latex_names. rewrite Hl. f_equal.
  pose proof (fl_frame E sv srt k A x w t ob f HS HLx HLw HF) as FR. pose proof (fl_inv E sv srt k A x w t ob f HS HLx HLw HF) as [HI _].
  assert (EA : f_names f = as_names A) by (destruct FR; congruence). rewrite EA.
  destruct (to_flat_df srt order f) as [f' r] eqn:TD. cbn [snd] in Hl. subst r.
  destruct (c57 E sv srt k A x w t ob f HS HLx HLw HF order HO f' _ TD) as [[_ X]|(lines' & its & X & HP & _ & HL)]; [intros e X; discriminate X|discriminate X|].
  injection X as <-. pose proof (reachable_wf _ _ HR) as (W1 & _).
  apply map_ext_in. intros l Hin. apply (Permutation_in _ HL) in Hin. apply in_flat_map in Hin. destruct Hin as ([lb i] & Hi & Hin). cbn [fst snd] in Hin.
  apply in_combine_r in Hi. apply (Permutation_in _ HP) in Hi. rewrite Forall_forall in HI. specialize (HI _ Hi).
  assert (In (fl_feature l) (as_names A)) as Hn by (eapply change_line_names; [|exact Hin]; rewrite HI; reflexivity).
  apply wrap_one; [apply W1|exact Hn| |intros v Hv; now apply HW].
  intro X. destruct W1 as (_ & W & _). apply W. rewrite <- X. exact Hn.
Qed.

(** ** Concrete cases *)
(** Bounds given as percentiles: the bounds read are values, but are taken for percentiles when assigned. *)
Lemma c69_refuted : exists A l A', aset_reachable env0 A /\ set_getattr A "lb" = Ok l /\ set_setattr A "lb" (PList l) = (A', Ok tt) /\
  map e_lb (as_elems A) <> map e_lb (as_elems A').
Proof.
  assert (H : ok_and (ex_set 1) (fun A => ok_and (set_getattr A "lb") (fun l => let '(A', r) := set_setattr A "lb" (PList l) in
     match r with Ok _ => negb (hd 0 (map e_lb (as_elems A)) =? hd 0 (map e_lb (as_elems A'))) | _ => false end)) = true) by (vm_compute; reflexivity).
  apply ok_and_true in H. destruct H as (A & HA & H). apply ok_and_true in H. destruct H as (l & Hl & H).
  destruct (set_setattr A "lb" (PList l)) as [A' r] eqn:S. destruct r as [[]|]; [|discriminate H]. exists A, l, A'.
  split; [eapply ex_set_reach, HA|]. split; [exact Hl|]. split; [exact S|]. intro K. rewrite K in H. apply negb_true_iff in H. apply qeq_false in H. now apply H.
Qed.
(** The flip direction of an unaligned action set reads as nan, which cannot be assigned. *)
Lemma c69_unaligned : exists A l, aset_reachable env0 A /\ set_getattr A "flip_direction" = Ok l /\ set_setattr A "flip_direction" (PList l) = (A, Err AssertionError).
Proof.
  assert (H : ok_and (ex_set 1) (fun A => ok_and (set_getattr A "flip_direction") (fun l => match l with [PFloat NaN; PFloat NaN; PFloat NaN] => Nat.eqb (as_len A) 3 | _ => false end)) = true) by (vm_compute; reflexivity).
  apply ok_and_true in H. destruct H as (A & HA & H). apply ok_and_true in H. destruct H as (l & Hl & H). exists A, l.
  pose proof (ex_set_reach env0 _ _ HA) as HR. split; [exact HR|]. split; [exact Hl|].
  destruct l as [|[] [|[] [|[] []]]]; try discriminate H; repeat match goal with f : fl |- _ => destruct f; try discriminate H end.
  apply Nat.eqb_eq in H. pose proof (wf_len _ _ (reachable_wf _ _ HR)) as HL. unfold set_setattr. cbn [elem_hasattr smem elem_settable]. rewrite H. cbn.
  destruct (as_elems A) as [|e l] eqn:EA; [rewrite H in HL; discriminate HL|]. cbn. rewrite <- EA. destruct A; reflexivity.
Qed.
Lemma c69_case : exists A, aset_reachable env0 A /\ Forall (plain_attribute "step_size") (as_elems A) /\ Forall (plain_attribute "actionable") (as_elems A) /\
  exists e, nth_error (as_elems A) 1 = Some e /\ plain_attribute "lb" e.
Proof.
  assert (H : ok_and (ex_set 1) (fun A => forallb (fun e => e_step_size e <=? 1) (as_elems A) &&
     match nth_error (as_elems A) 1 with Some e => match b_type (e_bounds e) with Absolute => true | _ => false end | None => false end) = true) by (vm_compute; reflexivity).
  apply ok_and_true in H. destruct H as (A & HA & H). apply andb_true_iff in H. destruct H as [H1 H2]. exists A. split; [eapply ex_set_reach, HA|].
  split; [|split; [apply Forall_forall; intros e _; now left|]].
  - apply Forall_forall. intros e He. rewrite forallb_forall in H1. specialize (H1 e He). unfold plain_attribute. do 4 right. left. split; [reflexivity|]. intros _. now apply qle_iff.
  - destruct (nth_error (as_elems A) 1) as [e|]; [|discriminate H2]. exists e. split; [reflexivity|]. unfold plain_attribute. do 6 right. split; [now left|]. destruct (b_type (e_bounds e)); [reflexivity|discriminate H2].
Qed.

Lemma c71_refuted : exists A e r, aset_reachable env0 A /\ nth_error (as_elems A) 0 = Some e /\ nth_error (tex_table A) 0 = Some r /\
  e_actionable e = true /\ e_step_dir e = (-1)%Z /\ tr_mut r = MutUp /\ e_vtype e = TInt /\ tr_type r = TexReal.
Proof.
  assert (H : ok_and (ex_set 1) (fun A => let A' := fst (index_setattr A (IInt 0) "step_direction" (PInt (-1))) in
     match nth_error (as_elems A') 0, nth_error (tex_table A') 0 with
     | Some e, Some r => e_actionable e && (e_step_dir e =? -1)%Z && match tr_mut r with MutUp => true | _ => false end && vtype_eqb (e_vtype e) TInt && match tr_type r with TexReal => true | _ => false end
     | _, _ => false end) = true) by (vm_compute; reflexivity).
  apply ok_and_true in H. destruct H as (A & HA & H). set (A' := fst (index_setattr A (IInt 0) "step_direction" (PInt (-1)))) in *. cbv zeta in H.
  destruct (nth_error (as_elems A') 0) as [e|] eqn:N1; [|discriminate H]. destruct (nth_error (tex_table A') 0) as [r|] eqn:N2; [|discriminate H].
  do 4 (apply andb_true_iff in H; destruct H as [H ?]). exists A', e, r.
  split. { exists A, [OIndexSet (IInt 0) "step_direction" (PInt (-1))]. split; [eapply ex_set_created, HA|reflexivity]. }
  split; [exact N1|]. split; [exact N2|]. split; [exact H|]. split; [now apply Z.eqb_eq|]. split; [destruct (tr_mut r); congruence|].
  split; [destruct (e_vtype e); [discriminate|reflexivity|discriminate]|destruct (tr_type r); congruence].
Qed.

Definition i_second : item := an_item [z 0; z 2] (z 1).
Definition v_second : fitem := {| fi_actions := [z 0; z 2]; fi_cost := Fin (z 1) |}.
Lemma second_filable A : as_len A = 2%nat -> Forall2 (filable A x01 w11 (- z 3)) [i_second] [v_second].
Proof.
  intro HL. constructor; [|constructor]; unfold filable; rewrite HL; cbn [fi_actions fi_cost v_second]; split.
  - apply two_item; [reflexivity|vm_compute; reflexivity|reflexivity].
  - intro Q. assert (K : (score w11 (- z 3) x01 =? qz (prediction w11 (- z 3) (vadd x01 [z 0; z 2]))) = true) by now apply qeq_iff. vm_compute in K. discriminate K.
Qed.
Lemma second_flat srt order A n1 n2 : ok_sorter srt -> ok_order order -> as_names A = [n1; n2] ->
  exists f1 l, f_add srt (case_flip A) [i_second] = (f1, Ok tt) /\ snd (to_flat_df srt order f1) = Ok (Some [l]) /\ fl_feature l = n2 /\ f_names f1 = [n1; n2].
Proof.
  intros HS HO HN. assert (HL : as_len A = 2%nat) by (unfold as_len; now rewrite HN).
  pose proof (created_reachable env0 (fun _ _ => SUnknown) srt _ _ _ _ _ _ _ (new_created PyMIP A x01 w11 (- z 3) None)) as HF0.
  assert (HF : flipset_reachable env0 (fun _ _ => SUnknown) srt PyMIP A x01 w11 (- z 3) None (fst (f_add srt (case_flip A) [i_second]))).
  { exists (case_flip A), [FAdd [i_second]]. split; [apply new_created|reflexivity]. }
  destruct (c48_all env0 (fun _ _ => SUnknown) srt PyMIP A x01 w11 (- z 3) None (case_flip A) HS (eq_sym HL) (eq_sym HL) HF0 _ _ (second_filable A HL)) as [HI HOk].
  specialize (HOk eq_refl). destruct (f_add srt (case_flip A) [i_second]) as [f1 r1] eqn:HA. cbn [fst snd] in *. subst r1.
  assert (HB : f_by f1 = [KSize; KCost; KScore]).
  { destruct (add_ok PyMIP A x01 w11 (- z 3) (eq_sym HL) (eq_sym HL) eq_refl srt (case_flip A) _ _ (fl_frame env0 (fun _ _ => SUnknown) srt PyMIP A x01 w11 (- z 3) None (case_flip A) HS (eq_sym HL) (eq_sym HL) HF0) (second_filable A HL)) as (rows & _ & K).
    rewrite HA in K. unfold f_resort in K. destruct (srt _ _); [|apply pair_equal_spec in K; destruct K as [_ K]; discriminate K]. injection K as ->. reflexivity. }
  destruct (to_flat_df srt order f1) as [f2 r] eqn:TD.
  assert (HE : forall e, r <> Err e).
  { intros e ->. unfold to_flat_df, f_resort in TD. destruct HS as (S1 & _). destruct (S1 (f_by f1) (f_df f1)) as (d & Hd & _); [rewrite HB; reflexivity|]. rewrite Hd in TD. apply pair_equal_spec in TD. destruct TD as [_ TD]. discriminate TD. }
  destruct (c57 env0 _ srt PyMIP A x01 w11 (- z 3) None f1 HS (eq_sym HL) (eq_sym HL) HF order HO f2 r TD HE) as [[X _]|(lines & its & -> & P1 & _ & P2)]; [rewrite HI in X; discriminate X|].
  rewrite HI in P1. cbn in P1. apply Permutation_sym, Permutation_length_1_inv in P1. subst its. cbn [combine seq length flat_map fst snd fi_actions v_second] in P2. rewrite HN, app_nil_r in P2.
  assert (C : change_lines [n1; n2] x01 0 [z 0; z 2] = [{| fl_item := 0; fl_feature := n2; fl_from := z 1; fl_to := z 1 + z 2 |}]) by reflexivity.
  rewrite C in P2. apply Permutation_sym, Permutation_length_1_inv in P2. subst lines. exists f1. eexists. split; [reflexivity|]. split; [rewrite TD; reflexivity|]. split; [reflexivity|].
  pose proof (fl_frame env0 _ srt PyMIP A x01 w11 (- z 3) None f1 HS (eq_sym HL) (eq_sym HL) HF) as FR. destruct FR; congruence.
Qed.
Definition sc_names2 (n1 n2 : string) := mk env0 tab2 [n1; n2] 1 [] PyMIP [z 1; z 1] 0 CTotal [z 0; z 1].
Lemma aset_names2 n1 n2 : ok_and (sc_aset (sc_names2 n1 n2)) (fun A => if list_eq_dec string_dec (as_names A) [n1; n2] then true else false) = true ->
  exists A, aset_reachable env0 A /\ as_names A = [n1; n2].
Proof.
  intro H. apply ok_and_true in H. destruct H as (A & HA & H). exists A. split; [exact (sc_aset_reach _ _ HA)|]. destruct (list_eq_dec string_dec (as_names A) [n1; n2]); [assumption|discriminate H].
Qed.
Lemma c73_refuted : exists A f, aset_reachable env0 A /\ flipset_created PyMIP A x01 w11 (- z 3) None f /\
  forall srt order, ok_sorter srt -> ok_order order -> exists f1 l, f_add srt f [i_second] = (f1, Ok tt) /\ snd (to_flat_df srt order f1) = Ok (Some [l]) /\
    fl_feature l = "income_now" /\ f_latex_names srt order "\textit" f1 = Ok ["\textit{income}_now"].
Proof.
  destruct (aset_names2 "income" "income_now") as (A & HR & HN); [vm_compute; reflexivity|]. exists A, (case_flip A). split; [exact HR|]. split; [apply new_created|].
  intros srt order HS HO. destruct (second_flat srt order A _ _ HS HO HN) as (f1 & l & H1 & H2 & H3 & H4). exists f1, l. do 3 (split; [assumption|]).
  unfold f_latex_names. rewrite H2, H4. cbn [map]. rewrite H3. vm_compute. reflexivity.
Qed.
Lemma c73_empty : exists A f, aset_reachable env0 A /\ flipset_created PyMIP A x01 w11 (- z 3) None f /\
  forall srt order fmt, ok_sorter srt -> f_latex_names srt order fmt f = Err AttributeError.
Proof.
  destruct case_aset as (A & HR & _). exists A, (case_flip A). split; [exact HR|]. split; [apply new_created|]. intros srt order fmt (_ & _ & _ & S).
  unfold f_latex_names, to_flat_df, f_resort. cbn [case_flip new_flipset f_by f_df]. rewrite S. reflexivity.
Qed.
Lemma c73_case : exists A f, aset_reachable env0 A /\ flipset_created PyMIP A x01 w11 (- z 3) None f /\
  (forall v n, In v (as_names A) -> In n (as_names A) -> v <> n -> ~ occurs v (wrapped "\textit" n)) /\
  forall srt order, ok_sorter srt -> ok_order order -> exists f1, f_add srt f [i_second] = (f1, Ok tt) /\ f_latex_names srt order "\textit" f1 = Ok ["\textit{debts}"].
Proof.
  destruct (aset_names2 "income" "debts") as (A & HR & HN); [vm_compute; reflexivity|]. exists A, (case_flip A). split; [exact HR|]. split; [apply new_created|]. split.
  - assert (K : forall v s, String.index 0 v s = None -> ~ occurs v s).
    { intros v s H (a & b & ->). apply (index_correct3 0 (String.length a) v _ H).
      - intros ->. destruct a; [destruct b|]; cbn in H; discriminate H.
      - lia.
      - clear H. revert v. induction a as [|c a IH]; intro v; cbn; [|apply IH]. induction v as [|d v IHv]; cbn; [destruct b; reflexivity|now rewrite IHv]. }
    intros v n Hv Hn D. rewrite HN in Hv, Hn. apply K. destruct Hv as [<-|[<-|[]]], Hn as [<-|[<-|[]]]; try congruence; vm_compute; reflexivity.
  - intros srt order HS HO. destruct (second_flat srt order A _ _ HS HO HN) as (f1 & l & H1 & H2 & H3 & H4). exists f1. split; [assumption|].
    unfold f_latex_names. rewrite H2, H4. cbn [map]. rewrite H3. vm_compute. reflexivity.
Qed.

(** ** Replacing an element *)
Lemma c74 E A n e A' : aset_reachable E A -> elem_reachable E e -> setitem A n e = Ok A' ->
  (exists p, nth_error (as_names A) p = Some n /\ nth_error (as_elems A') p = Some e /\
     forall q, q <> p -> nth_error (as_elems A') q = nth_error (as_elems A) q) /\
  as_names A' = as_names A /\ as_cons A' = as_cons A /\ as_y A' = as_y A /\ (e_name e = n -> aset_reachable E A').
Proof.
  intros HR HE H. unfold setitem in H. destruct (index_of n (as_names A)) as [p|] eqn:Hp; [|discriminate H]. injection H as <-.
  pose proof (wf_len _ _ (reachable_wf _ _ HR)) as HL. pose proof (index_of_ok _ _ _ Hp) as Hn.
  assert (p < length (as_elems A))%nat as Hlt by (rewrite HL; apply nth_error_Some; congruence).
  split; [|split; [reflexivity|split; [reflexivity|split; [reflexivity|]]]].
  - exists p. split; [exact Hn|]. cbn. split; [now apply list_set_eq|]. intros q Hq. apply list_set_neq. congruence.
  - intro EN. destruct HE as (e0 & eops & (nm & vs & bs & vt & ac & st & sd & ss & He0) & ->). pose proof (mk_element_name _ _ _ _ _ _ _ _ _ He0) as (EN' & _).
    rewrite run_name, EN' in EN. subst nm. destruct HR as (A0 & ops & H0 & ->). exists A0, (ops ++ [OReplace n vs bs vt ac st sd ss eops]). split; [exact H0|].
    unfold aset_run. rewrite fold_left_app. cbn [fold_left aset_step]. rewrite He0. unfold setitem. fold (aset_run E A0 ops). rewrite Hp. reflexivity.
Qed.
Lemma c74_known A n e : (In n (as_names A) -> exists A', setitem A n e = Ok A') /\ (~ In n (as_names A) -> setitem A n e = Err AssertionError).
Proof.
  unfold setitem. destruct (index_of n (as_names A)) as [p|] eqn:Hp; split; intro H.
  - eexists; reflexivity.
  - destruct H. apply index_of_ok in Hp. eapply nth_error_In, Hp.
  - apply index_of_none in Hp. contradiction.
  - reflexivity.
Qed.
Lemma c74_refuted : exists A e A' l, aset_reachable env0 A /\ In e (as_elems A) /\ setitem A "age" e = Ok A' /\
  set_getattr A' "name" = Ok l /\ l <> map PStr (as_names A').
Proof.
  assert (H : ok_and (ex_set 1) (fun A => match nth_error (as_elems A) 1 with None => false | Some e => ok_and (setitem A "age" e) (fun A' => ok_and (set_getattr A' "name")
     (fun l => match l, as_names A' with PStr a :: _, b :: _ => negb (String.eqb a b) | _, _ => false end)) end) = true) by (vm_compute; reflexivity).
  apply ok_and_true in H. destruct H as (A & HA & H). destruct (nth_error (as_elems A) 1) as [e|] eqn:N; [|discriminate H].
  apply ok_and_true in H. destruct H as (A' & HA' & H). apply ok_and_true in H. destruct H as (l & Hl & H). exists A, e, A', l.
  split; [eapply ex_set_reach, HA|]. split; [eapply nth_error_In, N|]. split; [exact HA'|]. split; [exact Hl|]. intros ->.
  destruct (as_names A') as [|b ns]; [discriminate H|]. cbn in H. rewrite String.eqb_refl in H. discriminate H.
Qed.
