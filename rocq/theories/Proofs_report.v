(** Proofs about audit reports. *)
From Verif Require Import Proofs_props_element Proofs_props_actionset Spec_report Proofs_audit Proofs_audit2 Proofs_audit3 Proofs_audit4 Proofs_concrete Proofs_scen Proofs_builder7 Proofs_builder8.
#[local] Open Scope list_scope.

Lemma count_filter {A} (P : A -> Prop) (p : A -> bool) l : (forall a, In a l -> (p a = true <-> P a)) -> count P l (length (filter p l)).
Proof.
  intro H. induction l as [|a l IH]; cbn; [constructor|]. assert (IH' : count P l (length (filter p l))) by (apply IH; intros b Hb; apply H; now right).
  destruct (p a) eqn:E; cbn; constructor; auto; [apply H; [now left|exact E]|]. intro K. apply H in K; [|now left]. congruence.
Qed.
Lemma count_unique {A} (P : A -> Prop) l n m : count P l n -> count P l m -> n = m.
Proof.
  intro H. revert m. induction H; intros m K; inversion K; subst; try contradiction; auto; f_equal; auto.
Qed.
Section R.
Context {I R L : Type} (eqi : I -> I -> bool) (eql : L -> L -> bool) (set_of : list L -> list L).
Context (Hi : decides eqi) (Hl : decides eql) (Hs : ok_set set_of).

Lemma flat_once {A B} (f : A -> list B) (p : A -> bool) l a0 : NoDup l -> In a0 l -> (forall a, In a l -> p a = true -> a = a0) -> p a0 = true ->
  flat_map (fun a => if p a then f a else []) l = f a0.
Proof.
  intros HN HI HP H0. induction HN as [|a l H1 H2 IH]; [destruct HI|]. cbn. destruct (p a) eqn:E.
  - assert (a = a0) by (apply HP; [now left|exact E]). subst a0. assert (Q : flat_map (fun a1 => if p a1 then f a1 else []) l = []).
    { assert (F : forall b, In b l -> p b = false). { intros b Hb. destruct (p b) eqn:Eb; [|reflexivity]. exfalso. apply H1. rewrite <- (HP b (or_intror Hb) Eb). exact Hb. }
      clear - F. induction l as [|b l IHl]; [reflexivity|]. cbn. rewrite F by now left. apply IHl. intros c Hc. apply F. now right. }
    rewrite Q. apply app_nil_r.
  - cbn. destruct HI as [->|HI]; [congruence|]. apply IH; [exact HI|]. intros b Hb. apply HP. now right.
Qed.
Lemma flat_none {A B} (f : A -> list B) (p : A -> bool) l : (forall a, In a l -> p a = false) -> flat_map (fun a => if p a then f a else []) l = [].
Proof. intro H. induction l as [|a l IH]; [reflexivity|]. cbn. rewrite H by now left. apply IH. intros b Hb. apply H. now right. Qed.
Lemma eqi_refl i : eqi i i = true. Proof. now apply Hi. Qed.
Lemma NoDup_of_fst {A B} (l : list (A * B)) : NoDup (map fst l) -> NoDup l.
Proof. apply NoDup_map_inv. Qed.
Lemma fst_inj {A B} (l : list (A * B)) p q : NoDup (map fst l) -> In p l -> In q l -> fst p = fst q -> p = q.
Proof.
  induction l as [|a l IH]; cbn; intros HN Hp Hq E; [destruct Hp|]. inversion HN as [|? ? H1 H2]; subst. destruct Hp as [<-|Hp], Hq as [<-|Hq]; auto.
  - exfalso. apply H1. rewrite E. now apply in_map. - exfalso. apply H1. rewrite <- E. now apply in_map.
Qed.
(** The merged table for unique indexes: one row for every labelled individual. *)
Definition label_in (y : list (I * L)) (i : I) : list L := flat_map (fun l => if eqi i (fst l) then [snd l] else []) y.
Lemma label_in_some y i g : NoDup (map fst y) -> In (i, g) y -> label_in y i = [g].
Proof.
  intros HN HI. unfold label_in. rewrite (flat_once (fun l : I * L => [snd l]) (fun l => eqi i (fst l)) y (i, g)); [reflexivity|now apply NoDup_of_fst|exact HI| |apply eqi_refl].
  intros p Hp E. apply Hi in E. apply (fst_inj y); auto.
Qed.
Lemma label_in_none y i : ~ In i (map fst y) -> label_in y i = [].
Proof.
  intro H. unfold label_in. apply flat_none. intros p Hp. destruct (eqi i (fst p)) eqn:E; [|reflexivity]. exfalso. apply Hi in E. apply H. rewrite E. now apply in_map.
Qed.
Lemma merged_rows a (X : list (I * R)) y : NoDup (map fst X) -> map fst a = map fst X ->
  merged eqi a X y = flat_map (fun r => map (pair (snd r)) (label_in y (fst r))) a.
Proof.
  intros HX HE. unfold merged. assert (HIn : forall r, In r a -> exists x, In x X /\ fst x = fst r).
  { intros r Hr. assert (K : In (fst r) (map fst X)) by (rewrite <- HE; now apply in_map). apply in_map_iff in K. destruct K as (x & E & Hx). eauto. }
  clear HE. induction a as [|r a IH]; [reflexivity|]. cbn [flat_map]. rewrite IH by (intros r' Hr'; apply HIn; now right). f_equal.
  destruct (HIn r (or_introl eq_refl)) as (x & Hx & E).
  rewrite (flat_once (fun x => flat_map (fun l => if eqi (fst r) (fst l) then [(snd r, snd l)] else []) y) (fun x => eqi (fst r) (fst x)) X x).
  - unfold label_in. clear. induction y as [|l y IH]; [reflexivity|]. cbn. rewrite map_app, <- IH. destruct (eqi (fst r) (fst l)); reflexivity.
  - now apply NoDup_of_fst.
  - exact Hx.
  - intros q Hq Eq. apply Hi in Eq. apply (fst_inj X); auto. congruence.
  - rewrite E. apply eqi_refl.
Qed.
(** Counting over the merged table is counting over the individuals. *)
Lemma count_merged (T : audit_entry -> bool) g a y : NoDup (map fst y) ->
  length (filter (fun r => eql (snd r) g && T (fst r)) (map (fun r => (no_inf (fst r), snd r)) (flat_map (fun r => map (pair (snd r)) (label_in y (fst r))) a))) =
  length (filter (fun r => existsb (eql g) (label_in y (fst r)) && T (no_inf (snd r))) a).
Proof.
  intro HN. induction a as [|r a IH]; [reflexivity|]. cbn [flat_map]. rewrite map_app, filter_app, app_length, IH. cbn [filter].
  assert (Q : label_in y (fst r) = [] \/ exists h, label_in y (fst r) = [h]).
  { destruct (in_dec (fun i j => Bool.reflect_dec _ _ (Bool.iff_reflect _ _ (iff_sym (Hi i j)))) (fst r) (map fst y)) as [K|K]; [right|left; now apply label_in_none].
    apply in_map_iff in K. destruct K as ([i h] & E & K). cbn in E. subst i. exists h. now apply label_in_some. }
  destruct Q as [->|(h & ->)]; [reflexivity|]. cbn [map existsb filter fst snd]. rewrite orb_false_r.
  assert (E : eql h g = eql g h). { destruct (eql h g) eqn:E1, (eql g h) eqn:E2; try reflexivity; [apply Hl in E1|apply Hl in E2]; subst; rewrite (proj2 (Hl _ _) eq_refl) in *; discriminate. }
  rewrite E. destruct (eql g h && T (no_inf (snd r))); reflexivity.
Qed.
Lemma existsb_label y i g : NoDup (map fst y) -> (existsb (eql g) (label_in y i) = true <-> In (i, g) y).
Proof.
  intro HN. split.
  - intro H. apply existsb_exists in H. destruct H as (h & Hh & E). apply Hl in E. subst h. unfold label_in in Hh. apply in_flat_map in Hh. destruct Hh as ([j h] & Hp & K).
    cbn [fst snd] in K. destruct (eqi i j) eqn:E; [|destruct K]. apply Hi in E. subst j. destruct K as [->|[]]. exact Hp.
  - intro H. rewrite (label_in_some _ _ _ HN H). cbn. now rewrite (proj2 (Hl _ _) eq_refl).
Qed.
Lemma print_groups_first gs (data : list (audit_entry * L)) : print_groups eql gs data = match gs with [] => ([], Ok tt) | g :: _ => print_group eql g data end.
Proof. destruct gs; reflexivity. Qed.

Lemma c56_shape (X : list (I * R)) a y : y <> [] -> exists g n1 n2 n3, In g (map snd y) /\ report eqi eql set_of X a y = ([LSize n1; LDesired g n2; LNoRecourse g n3], Err NameError).
Proof.
  intro Hy. unfold report. cbv zeta. rewrite print_groups_first. destruct (set_of (map snd y)) as [|g gs] eqn:E.
  - exfalso. destruct y as [|p y]; [congruence|]. destruct (Hs (map snd (p :: y))) as [_ K]. specialize (K (snd p)). rewrite E in K. apply K. now left.
  - exists g. do 3 eexists. split; [|reflexivity]. apply (Hs (map snd y)). rewrite E. now left.
Qed.
Lemma c56_zero (X : list (I * R)) a y ls o g n : (forall i f c, In (i, Some (f, c)) a -> f = false -> c = PosInf) ->
  report eqi eql set_of X a y = (ls, o) -> In (LNoRecourse g n) ls -> n = 0%nat.
Proof.
  intros HF H HI. unfold report in H. cbv zeta in H. rewrite print_groups_first in H. destruct (set_of (map snd y)) as [|g0 gs].
  - apply pair_equal_spec in H. destruct H as [<- _]. destruct HI as [HI|[]]. discriminate HI.
  - unfold print_group in H. apply pair_equal_spec in H. destruct H as [<- _]. destruct HI as [HI|[HI|[HI|[]]]]; try discriminate HI. injection HI as <- <-.
    match goal with |- length (filter ?p ?l) = _ => assert (K : forall r, In r l -> p r = false); [|revert K; generalize l; intro l0; clear; induction l0 as [|r l0 IH]; [reflexivity|]; intro K; cbn; rewrite K by (now left); apply IH; intros; apply K; now right] end.
    intros r Hr. apply in_map_iff in Hr. destruct Hr as ([e l] & <- & Hr). unfold merged in Hr. apply in_flat_map in Hr. destruct Hr as ([i e'] & Ha & Hr).
    apply in_flat_map in Hr. destruct Hr as (x & _ & Hr). cbn [fst snd] in Hr. destruct (eqi i (fst x)); [|destruct Hr]. apply in_flat_map in Hr. destruct Hr as (l' & _ & Hr). destruct (eqi i (fst l')); [|destruct Hr].
    destruct Hr as [Q|[]]. injection Q as <- _. unfold no_recourse_row. cbn [fst snd]. destruct e' as [[f c]|]; cbn; [|apply andb_false_r]. destruct f; cbn; [apply andb_false_r|].
    rewrite (HF _ _ _ Ha eq_refl). cbn. apply andb_false_r.
Qed.
Lemma c56_counts (P : R -> Prop) (X : list (I * R)) a y g n1 n2 n3 ls o : NoDup (map fst X) -> NoDup (map fst y) ->
  Forall2 (fun p q => fst q = fst p /\ (snd q = None <-> P (snd p))) X a ->
  report eqi eql set_of X a y = (ls, o) ->
  (In (LSize n1) ls -> count (fun p => In (fst p) (map fst y)) X n1) /\
  (In (LDesired g n2) ls -> count (fun p => In (fst p, g) y /\ P (snd p)) X n2) /\
  (In (LNoRecourse g n3) ls -> (forall i f c, In (i, Some (f, c)) a -> f = false -> c = PosInf) -> n3 = 0%nat).
Proof.
  intros HX HY HF H. assert (HE : map fst a = map fst X) by (clear - HF; induction HF as [|p q X a H1 _ IH]; cbn; [reflexivity|]; destruct H1 as [-> _]; now f_equal).
  split; [|split].
  - intro HI. assert (Q : n1 = length (merged eqi a X y)).
    { unfold report in H. cbv zeta in H. rewrite print_groups_first in H. destruct (set_of (map snd y)); apply pair_equal_spec in H; destruct H as [<- _]; cbn [In] in HI.
      - destruct HI as [HI|[]]. injection HI as <-. now rewrite map_length.
      - destruct HI as [HI|[HI|[HI|[]]]]; try discriminate HI. injection HI as <-. now rewrite map_length. }
    rewrite Q, (merged_rows a X y HX HE). clear - HF Hi HY. induction HF as [|p q X a [H1 _] _ IH]; cbn [flat_map length]; [constructor|]. rewrite app_length, map_length. unfold audit_entry in *. rewrite H1.
    destruct (in_dec (fun i j => Bool.reflect_dec _ _ (Bool.iff_reflect _ _ (iff_sym (Hi i j)))) (fst p) (map fst y)) as [K|K].
    + pose proof K as K0. apply in_map_iff in K. destruct K as ([i h] & E & K). cbn in E. subst i. rewrite (label_in_some _ _ _ HY K). cbn. now constructor.
    + rewrite (label_in_none _ _ K). cbn. now constructor.
  - intro HI. assert (Q : n2 = length (filter (fun r => existsb (eql g) (label_in y (fst r)) && match no_inf (snd r) with None => true | Some _ => false end) a)).
    { unfold report in H. cbv zeta in H. rewrite print_groups_first in H. destruct (set_of (map snd y)); apply pair_equal_spec in H; destruct H as [<- _]; cbn [In] in HI.
      - destruct HI as [HI|[]]. discriminate HI.
      - destruct HI as [HI|[HI|[HI|[]]]]; try discriminate HI. injection HI as -> <-. rewrite (merged_rows a X y HX HE). exact (count_merged (fun e => match e with None => true | Some _ => false end) g a y HY). }
    rewrite Q. clear - HF Hi Hl HY. induction HF as [|p q X a [H1 H2] _ IH]; cbn [filter length]; [constructor|]. unfold audit_entry in *.
    destruct (existsb (eql g) (label_in y (fst q))) eqn:EL; cbn [andb].
    + apply (existsb_label y (fst q) g HY) in EL. rewrite H1 in EL. destruct (snd q) as [[f c]|] eqn:EQ; cbn.
      * constructor; [|exact IH]. intros [_ K]. apply H2 in K. discriminate K.
      * constructor; [|exact IH]. split; [exact EL|now apply H2].
    + constructor; [|exact IH]. intros [K _]. rewrite <- H1 in K. apply (existsb_label y (fst q) g HY) in K. congruence.
  - intros HI HP. eapply c56_zero; eauto.
Qed.
End R.
Lemma c56_duplicates {I R L} (eqi : I -> I -> bool) (eql : L -> L -> bool) set_of (X : list (I * R)) a y i : decides eqi ->
  (forall p, In p X -> fst p = i) -> (forall p, In p a -> fst p = i) -> (forall p, In p y -> fst p = i) ->
  exists ls o, report eqi eql set_of X a y = (LSize (length a * (length X * length y)) :: ls, o).
Proof.
  intros Hi HX Ha Hy. unfold report. cbv zeta. destruct (print_groups _ _ _) as [ls o]. exists ls, o. rewrite map_length. do 3 f_equal.
  unfold merged. assert (K : forall p q, fst p = i -> fst q = i -> eqi (@fst I audit_entry p) (@fst I L q) = true) by (intros p q -> ->; now apply Hi).
  assert (K2 : forall p q, fst p = i -> fst q = i -> eqi (@fst I audit_entry p) (@fst I R q) = true) by (intros p q -> ->; now apply Hi).
  induction a as [|r a IH]; [reflexivity|]. cbn [flat_map length]. rewrite app_length, IH by (intros; apply Ha; now right). cbn [Nat.mul]. f_equal.
  assert (Hr : fst r = i) by (apply Ha; now left). clear IH. induction X as [|x X IHX]; [reflexivity|]. cbn [flat_map length]. rewrite app_length, IHX by (intros; apply HX; now right). rewrite (K2 r x Hr (HX x (or_introl eq_refl))). cbn [Nat.mul]. f_equal.
  clear IHX. induction y as [|l y IHy]; [reflexivity|]. cbn [flat_map]. rewrite (K r l Hr (Hy l (or_introl eq_refl))). cbn. f_equal. apply IHy. intros; apply Hy; now right.
Qed.
(** ** Reports of audits *)
Lemma loop_inf E sv l : forall b b' out, audit_loop E sv b l = (b', Ok out) -> forall i f c, In (i, (f, c)) out -> f = false -> c = PosInf.
Proof.
  induction l as [|[i u] l IH]; intros b b' out H; cbn [audit_loop] in H.
  - apply pair_equal_spec in H. destruct H as [_ H]. injection H as <-. intros ? ? ? [].
  - destruct (set_x E b u) as [b1 [?|?]]; [|apply pair_equal_spec in H; destruct H as [_ H]; discriminate H].
    destruct (fit sv b1) as [[b2 s]|]; [|apply pair_equal_spec in H; destruct H as [_ H]; discriminate H].
    destruct (audit_loop E sv b2 l) as [b3 [o|]] eqn:EL; [|apply pair_equal_spec in H; destruct H as [_ H]; discriminate H].
    apply pair_equal_spec in H. destruct H as [_ H]. injection H as <-. intros j f c [HI|HI] Hf; [|eapply IH; eauto].
    apply pair_equal_spec in HI. destruct HI as [_ HI]. subst f. destruct s; cbn in HI; [discriminate HI|]. now injection HI.
Qed.
Lemma lookup_In i out v : lookup_idx i out = Some v -> In (i, v) out.
Proof.
  induction out as [|[j w] out IH]; cbn; [intro H; discriminate H|]. destruct (Nat.eqb_spec i j) as [->|]; intro H; [injection H as <-; now left|right; auto].
Qed.
Lemma audit_inf {I} E sv b (X : list (I * list fl)) y b' out : audit E sv b X y = (b', Ok out) -> forall i f c, In (i, Some (f, c)) out -> f = false -> c = PosInf.
Proof.
  unfold audit. intro H. match type of H with (match ?pre with _ => _ end) = _ => destruct pre as [rows|e] end; [|apply pair_equal_spec in H; destruct H as [_ H]; discriminate H].
  cbv zeta in H. match type of H with (match ?l with _ => _ end) = _ => destruct l as [b1 [o|e]] eqn:EL end; [|apply pair_equal_spec in H; destruct H as [_ H]; discriminate H].
  destruct o as [|o1 o]; [apply pair_equal_spec in H; destruct H as [_ H]; discriminate H|]. apply pair_equal_spec in H. destruct H as [_ H]. injection H as <-.
  intros i f c HI Hf. apply in_combine_r in HI. apply in_map_iff in HI. destruct HI as (r & Q & _). apply (lookup_In _ (o1 :: o)) in Q. eapply loop_inf; eauto.
Qed.
Lemma c56_audit {I L} (eqi : I -> I -> bool) (eql : L -> L -> bool) set_of E sv k A w t b (X : list (I * list Qc)) y b' out (labels : list (I * L)) :
  decides eqi -> decides eql -> ok_set set_of -> auditor_reachable E sv k A w t b -> audit E sv b (table_of X) y = (b', Ok out) ->
  NoDup (map fst X) -> NoDup (map fst labels) -> labels <> [] ->
  exists g n1 n2, report eqi eql set_of X out labels = ([LSize n1; LDesired g n2; LNoRecourse g 0], Err NameError) /\ In g (map snd labels) /\
    count (fun p => In (fst p) (map fst labels)) X n1 /\ count (fun p => In (fst p, g) labels /\ has_outcome y (score w t (snd p))) X n2.
Proof.
  intros Hi Hl Hs HR HA HX HY HN. destruct (c56_shape eqi eql set_of Hs X out labels HN) as (g & n1 & n2 & n3 & HG & H).
  destruct (c56_counts eqi eql set_of Hi Hl (fun r => has_outcome y (score w t r)) X out labels g n1 n2 n3 _ _ HX HY (c50 _ _ _ _ _ _ _ _ _ _ _ HR HA) H) as (C1 & C2 & C3).
  exists g, n1, n2. rewrite (C3 (or_intror (or_intror (or_introl eq_refl))) (audit_inf _ _ _ _ _ _ _ HA)) in H. split; [exact H|]. split; [exact HG|]. split; [apply C1; now left|apply C2; right; now left].
Qed.
Lemma nat_decides : decides Nat.eqb. Proof. intros a b. apply Nat.eqb_eq. Qed.
Lemma z_decides : decides Z.eqb. Proof. intros a b. apply Z.eqb_eq. Qed.
Definition zset (l : list Z) : list Z := nodup Z.eq_dec l.
Lemma zset_ok : ok_set zset. Proof. intro l. split; [apply NoDup_nodup|]. intro a. apply nodup_In. Qed.
(** Individuals 5 and 9 are certified to have no recourse, and have label 1 (7 has label -1). *)
Definition labels56 : list (nat * Z) := [(5%nat, 1%Z); (7%nat, (-1)%Z); (9%nat, 1%Z)].
Lemma c56_refuted : exists A b, aset_reachable env0 A /\ auditor_created env0 PyMIP A [z 1; z 1] (- z 7)%Qc b /\
  forall sv, sound_solver sv -> finishing_solver sv -> exists b' out, audit env0 sv b (table_of X_case) 1 = (b', Ok out) /\
    count (fun p => snd p = Some (false, PosInf) /\ In (fst p, 1%Z) labels56) out 2 /\
    forall set_of, ok_set set_of -> exists g n, report Nat.eqb Z.eqb set_of X_case out labels56 = ([LSize 3; LDesired g n; LNoRecourse g 0], Err NameError).
Proof.
  destruct (audit_case (- z 7)%Qc false) as (A & b & HA & HC & _ & _ & _ & _ & _ & H); [right; auto|]. exists A, b. split; [exact HA|]. split; [exact HC|]. intros sv H1 H2.
  destruct (H sv H1 H2) as (b' & v & HB). exists b'. eexists. split; [exact HB|].
  assert (v = PosInf) as ->. { eapply (audit_inf _ _ _ _ _ _ _ HB 5%nat false); [now left|reflexivity]. }
  split.
  - apply ct_yes; [split; [reflexivity|now left]|]. apply ct_no; [intros [Q _]; discriminate Q|]. apply ct_yes; [split; [reflexivity|do 2 right; now left]|]. constructor.
  - intros set_of Hs.
    destruct (c56_audit Nat.eqb Z.eqb set_of env0 sv PyMIP A [z 1; z 1] (- z 7)%Qc b X_case 1 b' _ labels56 nat_decides z_decides Hs (ex_intro _ b (ex_intro _ [] (conj HC eq_refl))) HB) as (g & n1 & n2 & HR & _ & C1 & _).
    + cbn. repeat constructor; cbn; intuition discriminate. + cbn. repeat constructor; cbn; intuition discriminate. + intro Q. discriminate Q.
    + exists g, n2. rewrite HR. do 2 f_equal. f_equal. apply (count_unique _ _ _ _ C1). repeat (apply ct_yes; [cbn; tauto|]). constructor.
Qed.
