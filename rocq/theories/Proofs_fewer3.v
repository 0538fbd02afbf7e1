(** C137: cases. *)
From Verif Require Import Proofs_props_element Proofs_props_actionset Spec_fewer Spec_setup Proofs_num Proofs_registry Proofs_actionset Proofs_session Proofs_builder Proofs_builder2 Proofs_builder3 Proofs_builder7 Proofs_builder8 Proofs_columns Proofs_columns2 Proofs_columns3 Proofs_columns4 Proofs_vec Proofs_concrete Proofs_scen Proofs_scen2 Proofs_compare4 Proofs_constrained Proofs_far Proofs_subset Proofs_fewer Proofs_fewer2.
#[local] Open Scope string_scope.
#[local] Open Scope list_scope.
#[local] Open Scope Qc_scope.

Definition fixedb (p : list nat) (A : action_set) : bool := forallb (fun q => inb p (fst q) || negb (e_actionable (snd q))) (combine (seq 0 (length (as_elems A))) (as_elems A)).
Lemma fixedb_ok p A : fixedb p A = true -> forall j, ~ In j p -> fixed_at A j.
Proof.
  unfold fixedb. intros H j Hj e He. rewrite forallb_forall in H. assert (L : (j < length (as_elems A))%nat) by (apply nth_error_Some; congruence).
  assert (Hs : nth_error (seq 0 (length (as_elems A))) j = Some j) by (now rewrite nth_error_nth' with (d := 0%nat), seq_nth by (rewrite ?seq_length; exact L)).
  specialize (H _ (nth_error_In _ _ (combine_at _ _ _ _ _ Hs He))). cbn [fst snd] in H. apply orb_true_iff in H. destruct H as [H|H]; [apply inb_iff in H; contradiction|]. destruct (e_actionable e); [discriminate H|reflexivity].
Qed.
Definition outb (p : list nat) (A : action_set) (w : list Qc) : bool :=
  forallb (fun q => let '(j, (e, wj)) := q in inb p j || negb (e_actionable e) || (wj =? 0)) (combine (seq 0 (length (as_elems A))) (combine (as_elems A) w)) && Nat.eqb (length w) (length (as_elems A)).
Lemma outb_ok p A w : outb p A w = true -> forall j, ~ In j p -> left_out A w j.
Proof.
  unfold outb. intros H j Hj. apply andb_true_iff in H. destruct H as [H L]. apply Nat.eqb_eq in L. rewrite forallb_forall in H.
  destruct (nth_error (as_elems A) j) as [e|] eqn:He; [|left; intros e He'; congruence]. destruct (nth_error w j) as [wj|] eqn:Hw.
  2:{ exfalso. apply nth_error_None in Hw. assert (nth_error (as_elems A) j <> None) as K by congruence. apply nth_error_Some in K. lia. }
  assert (Lj : (j < length (as_elems A))%nat) by (apply nth_error_Some; congruence).
  assert (Hs : nth_error (seq 0 (length (as_elems A))) j = Some j) by (now rewrite nth_error_nth' with (d := 0%nat), seq_nth by (rewrite ?seq_length; exact Lj)).
  specialize (H _ (nth_error_In _ _ (combine_at _ _ _ _ _ Hs (combine_at _ _ _ _ _ He Hw)))). cbn beta iota in H.
  apply orb_true_iff in H. destruct H as [H|H]; [apply orb_true_iff in H; destruct H as [H|H]; [apply inb_iff in H; contradiction|]|].
  - left. intros e' He'. assert (e' = e) by congruence. subst. now apply negb_true_iff.
  - right. rewrite Hw. f_equal. now apply qeqb_ok.
Qed.
Definition onlyb (p : list nat) (A : action_set) : bool := forallb (fun q => forallb (inb p) (c_indices (snd q))) (r_cons (as_cons A)).
Lemma onlyb_ok p A : onlyb p A = true -> forall j, constrained_at A j -> In j p.
Proof.
  unfold onlyb. intros H j (id & c & Hc & Hj). rewrite forallb_forall in H. specialize (H _ (dget_In _ _ _ Hc)). cbn [snd] in H. rewrite forallb_forall in H. now apply inb_iff, H.
Qed.
Definition narrowedb (p : list nat) (b : builder) (x : list Qc) (b' : builder) (x' : list Qc) : bool :=
  rearrangedb String.eqb p (as_names (bd_A b)) (as_names (bd_A b')) && rearrangedb elemb p (as_elems (bd_A b)) (as_elems (bd_A b')) &&
  rearrangedb (fun u v : Qc => u =? v) p (bd_w b) (bd_w b') && rearrangedb (fun u v : Qc => u =? v) p x x' && outb p (bd_A b) (bd_w b) && (score (bd_w b') (bd_t b') x' =? score (bd_w b) (bd_t b) x) && (as_y (bd_A b') =? as_y (bd_A b))%Z &&
  match bd_cost b', bd_cost b with CTotal, CTotal | CLocal, CLocal | CMax, CMax => true | _, _ => false end && (bd_min b' =? bd_min b)%Z && ((bd_max b' =? bd_max b)%Z || (Z.of_nat (n_actionable_features (bd_A b)) <=? bd_max b)%Z && (Z.of_nat (n_actionable_features (bd_A b')) <=? bd_max b')%Z) &&
  (one_limitb p (bd_A b) (bd_A b') || unconstrainedb (bd_A b) && unconstrainedb (bd_A b')) && onlyb p (bd_A b).
Lemma narrowedb_ok p b x b' x' : NoDup p -> narrowedb p b x b' x' = true -> narrowed p b x b' x'.
Proof.
  intros HP H. unfold narrowedb in H. do 11 (apply andb_true_iff in H; destruct H as [H ?]). split; [exact HP|].
  split; [exact (rearrangedb_ok _ str_ok _ _ _ H)|]. split; [exact (rearrangedb_ok _ elemb_ok _ _ _ H10)|]. split; [exact (rearrangedb_ok _ qeqb_ok _ _ _ H9)|]. split; [exact (rearrangedb_ok _ qeqb_ok _ _ _ H8)|].
  split; [now apply outb_ok|]. split; [now apply qeqb_ok|]. split; [now apply Z.eqb_eq|]. split; [destruct (bd_cost b'), (bd_cost b); try discriminate H4; reflexivity|]. split; [now apply Z.eqb_eq|].
  split; [apply orb_true_iff in H2; destruct H2 as [H2|H2]; [left; now apply Z.eqb_eq|]; apply andb_true_iff in H2; destruct H2 as [H2 H2']; right; split; now apply Z.leb_le|]. split; [|now apply onlyb_ok].
  apply orb_true_iff in H1. destruct H1 as [H1|H1]; [now apply one_limitb_ok|]. apply andb_true_iff in H1. destruct H1 as [U U']. apply unconstrainedb_ok in U, U'. unfold same_limits, stored, unconstrained in *. rewrite U, U'. split; intros ? ? Q; discriminate Q.
Qed.

(** ** False with constraints: a feature that cannot change, in front of constrained ones, displaces the constraint. *)
Definition tabbcd : list (list Qc) := [[z 0; z 0; z 0]; [z 1; z 0; z 1]; [z 0; z 1; z 0]; [z 0; z 0; z 0]].
Definition sc34n k := mk env0 tabbcd ["b"; "c"; "d"] 1 [OAdd ["b"; "c"] (z 0) (z 1) (Some "one")] k [z 2; z 2; z 1] (- z 4) CTotal [z 0; z 0; z 0].
Lemma nodup_nat l : (if list_eq_dec Nat.eq_dec (nodup Nat.eq_dec l) l then true else false) = true -> NoDup l.
Proof. destruct (list_eq_dec Nat.eq_dec (nodup Nat.eq_dec l) l) as [E|]; [intros _; rewrite <- E; apply NoDup_nodup|discriminate]. Qed.
Lemma fewer_refuted : exists p b x b' x' b0 b0', (forall sv, assigned env0 sv b x b0) /\ (forall sv, assigned env0 sv b' x' b0') /\ narrowed p b x b' x' /\
  forall sv, sound_solver sv -> finishing_solver sv -> (exists b1 s, fit sv b0 = Ok (b1, Some s)) /\ exists b1, fit sv b0' = Ok (b1, None).
Proof.
  destruct (pairb_ok (sc34 PyMIP) (sc34n PyMIP) (fun b b0 b' b0' => narrowedb [1; 2; 3]%nat b (sc_x (sc34 PyMIP)) b' (sc_x (sc34n PyMIP)) && fit_test b0 some_b && fit_test b0' none_b)) as (b & b0 & b' & b0' & H & H' & HT); [vm_compute; reflexivity|].
  do 2 (apply andb_true_iff in HT; destruct HT as [HT ?]).
  exists [1; 2; 3]%nat, b, (sc_x (sc34 PyMIP)), b', (sc_x (sc34n PyMIP)), b0, b0'. split; [exact (sc_assigned _ _ _ H)|]. split; [exact (sc_assigned _ _ _ H')|]. split; [apply narrowedb_ok; [now apply nodup_nat|exact HT]|].
  intros sv S F. split.
  - destruct (sc_fit _ _ _ some_b H env0_ok H1 sv S F) as (b1 & [s|] & Hf & Ht); [eauto|discriminate Ht].
  - destruct (sc_fit _ _ _ none_b H' env0_ok H0 sv S F) as (b1 & [s|] & Hf & Ht); [discriminate Ht|eauto].
Qed.

(** ** True if the constraints are in line: the constraint on a and b, with d (which cannot change) left out. *)
Definition in_lineb_upto (n : nat) (A : action_set) (w x : list Qc) : bool :=
  forallb (fun q => let '(i, (e, (wi, xi))) := q in negb (Nat.ltb i n) || (e_actionable e && can_helpb (as_y A) wi (e_step_dir e) && (negb (e_gint e) || is_intb xi) &&
    existsb (fun v => negb (v =? xi) && (constrainedb A i || attainsb (as_y A) (wi * (v - xi)))) (targets e xi)))
    (combine (seq 0 (length (as_elems A))) (combine (as_elems A) (combine w x))) && onlyb (seq 0 n) A.
Lemma in_lineb_upto_ok n A w x : in_lineb_upto n A w x = true -> in_line A w x.
Proof.
  unfold in_lineb_upto. intros H j i e wi xi HC Hle He Hw Hx. apply andb_true_iff in H. destruct H as [H HO]. pose proof (onlyb_ok _ _ HO j HC) as Hj. apply in_seq in Hj. rewrite forallb_forall in H.
  assert (L : (i < length (as_elems A))%nat) by (apply nth_error_Some; congruence).
  assert (Hs : nth_error (seq 0 (length (as_elems A))) i = Some i) by (now rewrite nth_error_nth' with (d := 0%nat), seq_nth by (rewrite ?seq_length; exact L)).
  specialize (H _ (nth_error_In _ _ (combine_at _ _ _ _ _ Hs (combine_at _ _ _ _ _ He (combine_at _ _ _ _ _ Hw Hx))))). cbn beta iota in H.
  apply orb_true_iff in H. destruct H as [H|H]; [apply negb_true_iff, Nat.ltb_ge in H; lia|].
  do 3 (apply andb_true_iff in H; destruct H as [H ?]). split; [exact H|]. split; [now apply can_helpb_ok|]. split.
  - intro Hg. rewrite Hg in H1. cbn in H1. unfold is_intb in H1. qbool. exists (qfloor xi). exact H1.
  - apply existsb_exists in H0. destruct H0 as (v & Hv & H0). apply andb_true_iff in H0. destruct H0 as [N C]. exists v. split; [now apply targets_permitted|]. split; [now apply negb_true_iff, qeq_false in N|].
    apply orb_true_iff in C. destruct C as [C|C]; [left; now apply constrainedb_ok|right; now apply attainsb_ok].
Qed.
Lemma orderly_upto E n A w x : in_lineb_upto n A w x = true -> nonnegb A x = true -> regular E A x -> orderly E A w x.
Proof.
  intros H1 H2 [R1 R2]. split; [now apply (in_lineb_upto_ok n)|]. intros j e xj _ He Hx. pose proof (forall_at_ok _ _ _ _ _ _ H2 He Hx) as G. cbn beta in G. split; [now qbool|]. split; [exact (R1 j e xj He Hx)|exact (R2 j e xj He Hx)].
Qed.
Definition tab3d : list (list Qc) := [[z 0; z 0; z 0; z 1]; [z 1; z 1; z 0; z 2]; [z 0; z 0; z 1; z 3]; [z 1; z 0; z 0; z 0]].
Definition x1002 : list Qc := [z 1; z 0; z 0; z 2].
Definition sc_cond k ct := mk env0 tab3d ["a"; "b"; "c"; "d"] 1 [OIndexSet (IStr "d") "actionable" (PBool false); OAdd ["a"; "b"] (z 0) (z 1) (Some "one")] k [z 1; z 2; z 1; z 5] (- z 13) ct x1002.
Definition fewer_pre (k k' : backend) (ct : cost_type) (b b0 b' b0' : builder) : bool :=
  narrowedb [0; 1; 2]%nat b x1002 b' x100 && in_lineb_upto 2 (bd_A b) (bd_w b) x1002 && nonnegb (bd_A b) x1002 && strictb env0 (bd_A b) x1002 && resolvableb (bd_A b) x1002 && flipsb (bd_A b) (bd_w b) && currentb (bd_A b) && (bd_min b <=? 1)%Z && deniedb' b x1002 &&
  conb (bd_A b) "one" [0; 1]%nat 0 1 && match bd_kind b, k with PyMIP, PyMIP | CPX, CPX => true | _, _ => false end && match bd_kind b', k' with PyMIP, PyMIP | CPX, CPX => true | _, _ => false end &&
  match bd_cost b, ct with CTotal, CTotal | CLocal, CLocal | CMax, CMax => true | _, _ => false end && in_lineb (bd_A b') (bd_w b') x100 && nonnegb (bd_A b') x100 && strictb env0 (bd_A b') x100 && resolvableb (bd_A b') x100 && fit_test b0 some_b.
Lemma fewer_constrained k k' ct : exists p b b' b0 b0', (forall sv, assigned env0 sv b x1002 b0) /\ (forall sv, assigned env0 sv b' x100 b0') /\ narrowed p b x1002 b' x100 /\ p = [0; 1; 2]%nat /\
  (exists c, stored (as_cons (bd_A b)) "one" c /\ c_indices c = [0; 1]%nat /\ c_lb c = 0%Z /\ c_ub c = 1%Z) /\
  good_setup env0 b x1002 /\ orderly env0 (bd_A b') (bd_w b') x100 /\ regular env0 (bd_A b) x1002 /\ bd_kind b = k /\ bd_kind b' = k' /\ bd_cost b = ct /\
  forall sv, sound_solver sv -> finishing_solver sv -> exists b1 s, fit sv b0 = Ok (b1, Some s).
Proof.
  destruct (pairb_ok (sc_cond k ct) (sc_con k' ct) (fewer_pre k k' ct)) as (b & b0 & b' & b0' & H & H' & HT); [destruct k, k', ct; vm_compute; reflexivity|].
  unfold fewer_pre in HT. do 17 (apply andb_true_iff in HT; destruct HT as [HT ?]).
  assert (R1 : regular env0 (bd_A b) x1002) by (split; [now apply strictb_ok|now apply resolvableb_ok]).
  assert (R2 : regular env0 (bd_A b') x100) by (split; [now apply strictb_ok|now apply resolvableb_ok]).
  exists [0; 1; 2]%nat, b, b', b0, b0'. split; [exact (sc_assigned _ _ _ H)|]. split; [exact (sc_assigned _ _ _ H')|]. split; [apply narrowedb_ok; [now apply nodup_nat|assumption]|]. split; [reflexivity|].
  split; [now apply conb_ok|]. split.
  { split; [now apply (orderly_upto env0 2)|]. split; [now apply flipsb_ok|]. split; [now apply currentb_ok|]. split; [now apply Z.leb_le|now apply deniedb'_ok]. }
  split; [now apply orderlyb_ok|]. split; [exact R1|]. split; [destruct (bd_kind b), k; congruence|]. split; [destruct (bd_kind b'), k'; congruence|]. split; [destruct (bd_cost b), ct; congruence|].
  intros sv S F. destruct (sc_fit _ _ _ some_b H env0_ok H0 sv S F) as (b1 & [s|] & Hf & Ht); [eauto|discriminate Ht].
Qed.

(** ** From tables: a third column that cannot change is left out. *)
Lemma builder_with E k A a ct x b b0 : mk_builder E k A a ct None = Ok b -> set_x E b x = (b0, Ok tt) -> mk_builder E k A a ct (Some x) = Ok b0.
Proof.
  intros H Hx. unfold mk_builder in *. bnd H as wt Hp. destruct wt as [w t]. rewrite Hp. cbn [bind]. bnd H as u Hu. rewrite Hu. cbn [bind].
  bnd H as A' HA'. rewrite HA'. cbn [bind]. cbv zeta in *. injection H as <-. rewrite Hx. reflexivity.
Qed.
Definition tab2d : list (list Qc) := [[z 0; z 0; z 1; z 0]; [z 1; z 2; z 4; z 3]; [z 2; z 1; z 2; z 1]; [z 3; z 3; z 0; z 2]].
Definition ed_d : list aset_op := [OIndexSet (IStr "d") "actionable" (PBool false)].
Definition sc2d k ct := mk env0 tab2d ["a"; "b"; "d"; "e"] 1 ed_d k [z 1; z 2; z 5; z 0] (- z 17) ct [z 0; z 1; z 2; z 1].
Lemma run_parts E X n y ops k w t ct x b b0 : sc_run (mk E X n y ops k w t ct x) = Ok (b, b0) ->
  exists A0, mk_action_set X n y [] default_bounds default_step_type = Ok A0 /\ mk_builder E k (aset_run E A0 ops) (coef_args w t) ct None = Ok b /\ mk_builder E k (aset_run E A0 ops) (coef_args w t) ct (Some x) = Ok b0.
Proof.
  intro H. pose proof (sc_run_builder _ _ _ H) as HB. rewrite sc_builder_mk, sc_aset_mk in HB. destruct (mk_action_set X n y [] default_bounds default_step_type) as [A0|] eqn:Q; [|discriminate HB]. cbn [bind] in HB.
  exists A0. split; [reflexivity|]. split; [exact HB|]. pose proof (sc_assigned _ _ _ H (fun _ _ => SInfeasible)) as [_ HX]. exact (builder_with _ _ _ _ _ _ _ _ HB HX).
Qed.

Definition aset_ok (X : list (list Qc)) n y ops (t : action_set -> bool) : bool := match mk_action_set X n y [] default_bounds default_step_type with Ok A0 => t (aset_run env0 A0 ops) | Err _ => false end.
Definition x012 : list Qc := [z 0; z 1; z 2; z 1].
Lemma fewer_case k k' ct : exists A0 A A' b0 b0', mk_action_set tab2d ["a"; "b"; "d"; "e"] 1 [] default_bounds default_step_type = Ok A0 /\ A = aset_run env0 A0 ed_d /\
  mk_action_set tab2 ["a"; "b"] 1 [] default_bounds default_step_type = Ok A' /\
  Forall2 (rearranged [0; 1]%nat) tab2d tab2 /\ rearranged [0; 1]%nat ["a"; "b"; "d"; "e"] ["a"; "b"] /\ Forall set_up_edit ed_d /\ Forall (edits_others ["a"; "b"]) ed_d /\
  (forall j, ~ In j [0; 1]%nat -> left_out A [z 1; z 2; z 5; z 0] j) /\ score [z 1; z 2] (- z 7) [z 0; z 1] = score [z 1; z 2; z 5; z 0] (- z 17) x012 /\ denied (as_y A) (score [z 1; z 2; z 5; z 0] (- z 17) x012) /\ regular env0 A x012 /\
  mk_builder env0 k A (coef_args [z 1; z 2; z 5; z 0] (- z 17)) ct (Some x012) = Ok b0 /\ mk_builder env0 k' A' (coef_args [z 1; z 2] (- z 7)) ct (Some [z 0; z 1]) = Ok b0' /\
  forall sv, sound_solver sv -> finishing_solver sv -> exists b1 s, fit sv b0 = Ok (b1, Some s).
Proof.
  destruct (pairb_ok (sc2d k ct) (sc2c k' ct) (fun b b0 b' b0' => fit_test b0 some_b)) as (b & b0 & b' & b0' & H & H' & HT); [destruct k, k', ct; vm_compute; reflexivity|].
  destruct (run_parts _ _ _ _ _ _ _ _ _ _ _ _ H) as (A0 & Q0 & _ & HB). destruct (run_parts _ _ _ _ _ _ _ _ _ _ _ _ H') as (A' & Q' & _ & HB').
  assert (T : aset_ok tab2d ["a"; "b"; "d"; "e"] 1 ed_d (fun A => outb [0; 1]%nat A [z 1; z 2; z 5; z 0] && strictb env0 A x012 && resolvableb A x012 && negb (on_sideb (as_y A) (score [z 1; z 2; z 5; z 0] (- z 17) x012)) && (score [z 1; z 2] (- z 7) [z 0; z 1] =? score [z 1; z 2; z 5; z 0] (- z 17) x012)) = true) by (vm_compute; reflexivity).
  unfold aset_ok in T. rewrite Q0 in T. do 4 (apply andb_true_iff in T; destruct T as [T ?]).
  exists A0, (aset_run env0 A0 ed_d), A', b0, b0'. split; [exact Q0|]. split; [reflexivity|]. split; [exact Q'|].
  split; [repeat (constructor; [repeat (constructor; [reflexivity|]); constructor|]); constructor|]. split; [repeat (constructor; [reflexivity|]); constructor|].
  split; [constructor; [discriminate|constructor]|]. split; [constructor; [cbn; intros [Q|[Q|[]]]; discriminate Q|constructor]|].
  split; [now apply outb_ok|]. split; [now apply qeqb_ok|]. split; [apply deniedb; now apply negb_true_iff|]. split; [split; [now apply strictb_ok|now apply resolvableb_ok]|].
  split; [exact HB|]. split; [exact HB'|]. intros sv S F. destruct (sc_fit _ _ _ some_b H env0_ok HT sv S F) as (b1 & [s|] & Hf & Ht); [eauto|discriminate Ht].
Qed.
