(** A concrete pair of look-alikes (C125). *)
From Verif Require Import Proofs_props_element Proofs_props_actionset Spec_idle Spec_settable Proofs_mip Proofs_info Proofs_session Proofs_recourse Proofs_concrete Proofs_builder3 Proofs_builder6 Proofs_builder7 Proofs_scen Proofs_scen2 Proofs_assign3 Proofs_audit Proofs_audit2 Proofs_audit3 Proofs_audit4 Proofs_idle2.
#[local] Open Scope string_scope.
#[local] Open Scope list_scope.
#[local] Open Scope Qc_scope.
Definition tab_i : list (list Qc) := [[z 0; z 0; z 0; z 0]; [z 1; z 2; z 3; z 1]; [z 2; z 1; z 2; z 2]; [z 3; z 3; z 1; z 5]].
Definition ops_i : list aset_op := [OIndexSet (IStr "b") "actionable" (PBool false); OIndexSet (IStr "c") "actionable" (PBool false)].
Definition x_i : list Qc := [z 0; z 1; z 2; z 0].
Definition x_i' : list Qc := [z 0; z 2; z 1; z 5].
Definition sci k ct := mk env0 tab_i ["a"; "b"; "c"; "d"] 1 ops_i k [z 1; z 1; z 1; z 0] (- z 5) ct x_i.
Definition fixedb (A : action_set) (j : nat) : bool := match nth_error (as_elems A) j with Some e => negb (e_actionable e) | None => true end.
Lemma fixedb_ok A j : fixedb A j = true -> fixed_at A j.
Proof. unfold fixedb. intros H e He. rewrite He in H. now apply negb_true_iff. Qed.
Lemma uncons_at A j : unconstrained A -> ~ constrained_at A j.
Proof. intros H (n & c & H1 & _). unfold unconstrained in H. unfold stored in H1. rewrite H in H1. discriminate H1. Qed.
Definition kindb (k k0 : backend) : bool := match k, k0 with PyMIP, PyMIP | CPX, CPX => true | _, _ => false end.
Definition test_i k ct b b0 : bool := kindb (bd_kind b) k && regularb env0 (bd_A b) (bd_w b) x_i && regularb env0 (bd_A b) (bd_w b) x_i' && answers0b (bd_A b) && fixedb (bd_A b) 1 && fixedb (bd_A b) 2 &&
  match nth_error (bd_w b) 3 with Some c => c =? 0 | None => false end && (score (bd_w b) (bd_t b) x_i' =? score (bd_w b) (bd_t b) x_i) && 
  (match bd_cost b, ct with CTotal, CTotal | CLocal, CLocal | CMax, CMax => true | _, _ => false end) &&
  match snd (set_x env0 b x_i') with Ok _ => true | Err _ => false end && fit_test b0 (fun r => match r with None => false | Some _ => true end).
Lemma idle_case k ct : exists b b0 b0', (forall sv, assigned env0 sv b x_i b0) /\ (forall sv, assigned env0 sv b x_i' b0') /\ bd_cost b = ct /\ bd_kind b = k /\
  flips_match (bd_A b) (bd_w b) /\ answers env0 (bd_A b) /\ regular env0 (bd_A b) x_i /\ regular env0 (bd_A b) x_i' /\
  fixed_at (bd_A b) 1 /\ fixed_at (bd_A b) 2 /\ ignored_at (bd_A b) (bd_w b) 3 /\ alike (bd_A b) (bd_w b) x_i (bd_A b) (bd_w b) x_i' /\ x_i' <> x_i /\
  score (bd_w b) (bd_t b) x_i' = score (bd_w b) (bd_t b) x_i /\
  (forall sv, sound_solver sv -> finishing_solver sv -> exists b1 s, fit sv b0 = Ok (b1, Some s)).
Proof.
  destruct (sc_check_ok (sci k ct) (test_i k ct)) as (b & b0 & HR & HT); [destruct k, ct; vm_compute; reflexivity|].
  unfold test_i in HT. do 10 (apply andb_true_iff in HT; destruct HT as [HT ?]).
  apply regularb_ok in H8. destruct H8 as (U & FM & RG & _). apply regularb_ok in H7. destruct H7 as (_ & _ & RG' & _).
  pose proof (fixedb_ok _ _ H5) as F1. pose proof (fixedb_ok _ _ H4) as F2.
  assert (IG : ignored_at (bd_A b) (bd_w b) 3). { split; [|now apply uncons_at]. destruct (nth_error (bd_w b) 3) as [c|]; [|discriminate H3]. apply qeq_iff in H3. now rewrite H3. }
  exists b, b0, (fst (set_x env0 b x_i')). pose proof (sc_assigned _ _ _ HR) as HA. split; [exact HA|].
  split. { intro sv. destruct (HA sv) as [Rb _]. split; [exact Rb|]. destruct (set_x env0 b x_i') as [c [[]|e]]; [reflexivity|discriminate H0]. }
  split; [destruct (bd_cost b), ct; try discriminate H1; reflexivity|]. split; [destruct (bd_kind b), k; try discriminate HT; reflexivity|]. split; [exact FM|]. split; [now apply answers0b_ok|]. split; [exact RG|]. split; [exact RG'|].
  split; [exact F1|]. split; [exact F2|]. split; [exact IG|]. split.
  { apply people_alike. intros [|[|[|[|j]]]]; auto. }
  split. { intro HH. apply (f_equal (fun l => match nth_error l 1 with Some q => (q =? z 1) | None => false end)) in HH. vm_compute in HH. discriminate HH. }
  split; [now apply qeq_iff|].
  intros sv HS HF. destruct (sc_fit _ _ _ _ HR env0_ok H sv HS HF) as (b1 & [s|] & Hf & Ht); [eauto|discriminate Ht].
Qed.
(** ... and a pair of rows, in two audits. *)
Definition someb (r : option (list Qc * list Qc * Qc)) : bool := match r with None => false | Some _ => true end.
Lemma idle_audits : exists A b, aset_reachable env0 A /\ auditor_created env0 PyMIP A [z 1; z 1; z 1; z 0] (- z 5) b /\
  alike A [z 1; z 1; z 1; z 0] x_i A [z 1; z 1; z 1; z 0] x_i' /\ score [z 1; z 1; z 1; z 0] (- z 5) x_i' = score [z 1; z 1; z 1; z 0] (- z 5) x_i /\
  forall sv, sound_solver sv -> finishing_solver sv ->
    (exists b' v, audit env0 sv b (table_of [(1%nat, x_i)]) 1 = (b', Ok [(1%nat, Some (true, v))])) /\
    (exists b' v, audit env0 sv b (table_of [(2%nat, x_i')]) 1 = (b', Ok [(2%nat, Some (true, v))])).
Proof.
  destruct (aud_case_ok (sci PyMIP CMax) (fun A b => unconstrainedb A && fixedb A 1 && fixedb A 2 && x_test env0 b x_i someb && x_test env0 b x_i' someb)) as (A & b & HA & HC & HT); [vm_compute; reflexivity|].
  change (sc_env (sci PyMIP CMax)) with env0 in *. change (sc_kind (sci PyMIP CMax)) with PyMIP in *. change (sc_w (sci PyMIP CMax)) with [z 1; z 1; z 1; z 0] in *. change (sc_t (sci PyMIP CMax)) with (- z 5) in *.
  do 4 (apply andb_true_iff in HT; destruct HT as [HT ?]). apply unconstrainedb_ok in HT. exists A, b. split; [exact HA|]. split; [exact HC|]. split.
  { apply people_alike. intros [|[|[|[|j]]]]; auto using fixedb_ok. right. right. split; [reflexivity|now apply uncons_at]. }
  split; [apply Qc_is_canon; vm_compute; reflexivity|]. intros sv HS HF.
  destruct (auditor_fresh _ _ _ _ _ _ HA HC) as (F & _). pose proof (fr_w _ _ _ _ _ _ _ F) as Ew. pose proof (fr_t _ _ _ _ _ _ _ F) as Et.
  assert (One : forall (i : nat) u, (u = x_i \/ u = x_i') -> x_test env0 b u someb = true -> exists b' v, audit env0 sv b (table_of [(i, u)]) 1 = (b', Ok [(i, Some (true, v))])).
  { intros i u Hu Hx. destruct (audit_one env0 sv b [(i, u)] 1 u someb env0_ok HS HF (created_reach _ _ _ _ _ _ _ HA HC)) as (b' & r & g & Hr & Ha & Hg).
    - discriminate.
    - intros p [<-|[]]. rewrite Ew. destruct Hu as [->| ->]; reflexivity.
    - left; reflexivity.
    - exists 0%nat. unfold todo_of. rewrite Ew, Et. destruct Hu as [->| ->]; vm_compute; reflexivity.
    - exact Hx.
    - exists b'. cbn [map fst snd] in *. rewrite Hg in Ha by now left. destruct r as [s|]; [|discriminate Hr]. cbn [verdict_of] in Ha. eauto. }
  split; apply One; auto.
Qed.
