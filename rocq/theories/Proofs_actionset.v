(** Proofs about action sets: construction, histories, attribute assignment, alignment. *)
From Verif Require Export Proofs_registry.

(** ** list_set *)
Lemma list_set_length {A} n (x : A) l : length (list_set n x l) = length l.
Proof. revert n. induction l as [|y r IH]; intros [|n]; cbn; auto. Qed.
Lemma list_set_eq {A} n (x : A) l : (n < length l)%nat -> nth_error (list_set n x l) n = Some x.
Proof. revert n. induction l as [|y r IH]; intros [|n] H; cbn in *; try lia; auto. apply IH. lia. Qed.
Lemma list_set_neq {A} n m (x : A) l : n <> m -> nth_error (list_set n x l) m = nth_error l m.
Proof. revert n m. induction l as [|y r IH]; intros [|n] [|m] H; cbn; try congruence; auto. Qed.
Lemma list_set_map {A B} (f : A -> B) n x l : (forall y, nth_error l n = Some y -> f x = f y) ->
  map f (list_set n x l) = map f l.
Proof.
  revert n. induction l as [|y r IH]; intros [|n] H; cbn; auto.
  - f_equal. now apply H.
  - f_equal. apply IH. exact H.
Qed.
Lemma list_set_Forall {A} (P : A -> Prop) n x l : P x -> Forall P l -> Forall P (list_set n x l).
Proof. intros Hx H. revert n. induction H as [|y r Hy H IH]; intros [|n]; cbn; constructor; auto. Qed.

(** ** Reachability of elements *)
Lemma reach_step E e o : elem_reachable E e -> elem_reachable E (elem_step E e o).
Proof.
  intros (e0 & ops & Hc & ->). exists e0, (ops ++ [o])%list. split; [exact Hc|]. unfold elem_run. now rewrite fold_left_app.
Qed.
Lemma reach_created E e : elem_created e -> elem_reachable E e.
Proof. intro H. exists e, []. split; [exact H|reflexivity]. Qed.
Lemma qsign_qz z : qsign (qz z) = Z.sgn z.
Proof.
  unfold qsign. destruct (qlt_spec 0 (qz z)) as [H|H].
  - rewrite <- qz_0, qz_lt in H. symmetry. now apply Z.sgn_pos.
  - destruct (qlt_spec (qz z) 0) as [H'|H'].
    + rewrite <- qz_0, qz_lt in H'. symmetry. now apply Z.sgn_neg.
    + assert (z = 0)%Z; [|subst; reflexivity]. rewrite <- qz_0, qz_le in H, H'. lia.
Qed.
Lemma reach_flip E e z : elem_reachable E e -> elem_reachable E (with_flip e (Some (Z.sgn z))).
Proof.
  intro H. replace (with_flip e (Some (Z.sgn z))) with (elem_step E e (ESet "flip_direction" (PInt z))); [now apply reach_step|].
  cbn. unfold set_flip_direction. cbn. now rewrite qsign_qz.
Qed.
Lemma reach_setattr E e n v e' : elem_reachable E e -> elem_setattr n v e = Ok e' -> elem_reachable E e'.
Proof. intros H Hs. pose proof (reach_step E e (ESet n v) H) as K. cbn in K. now rewrite Hs in K. Qed.

(** ** Construction *)
Lemma nth_column X j row v : In row X -> nth_error row j = Some v -> nth j row 0 = v.
Proof. intros _ H. now apply nth_error_nth. Qed.
Lemma column_is X (names : list string) j : Forall (fun row => length row = length names) X -> (j < length names)%nat ->
  is_column X j (column X j).
Proof.
  intros H Hj. unfold is_column, column. induction H as [|row X Hr H IH]; cbn; constructor; [|exact IH].
  apply nth_error_nth'. lia.
Qed.

Lemma mk_element_name name values bounds vt act st sd ss e : mk_element name values bounds vt act st sd ss = Ok e ->
  e_name e = name /\ e_values e = qsort values /\ e_flip e = None.
Proof.
  intro H. pose proof (created_inv env0 e) as K.
  apply mk_element_spec in H. destruct H as (Hn & Hv & t & a & b & stp & q & z & lb & ub & tv & Hb & Hq & Hq1 & Hz & HU).
  destruct (update_grid_spec _ _ (raw_basic _ _ _ _ _ _ _ _ _ _ _ Hb Hq) HU) as [_ ->]. auto.
Qed.
Lemma mk_column_created custom dflt dst n col e : mk_column_element custom dflt dst n col = Ok e ->
  elem_created e /\ e_name e = n /\ e_values e = qsort col /\ e_flip e = None.
Proof.
  unfold mk_column_element. intro H.
  destruct (determine_variable_type col); (split; [do 8 eexists; exact H|eapply mk_element_name; exact H]).
Qed.

(** Well-formed action sets. *)
Definition wf_aset (E : env) (A : action_set) : Prop :=
  valid_names (as_names A) /\ map e_name (as_elems A) = as_names A /\ Forall (elem_reachable E) (as_elems A) /\
  r_names (as_cons A) = as_names A /\ wf_registry (as_cons A) /\ (as_y A = 1 \/ as_y A = -1)%Z.

Lemma wf_len E A : wf_aset E A -> length (as_elems A) = as_len A.
Proof. intros (_ & H & _). unfold as_len. rewrite <- H. now rewrite map_length. Qed.

Lemma map_fst_combine_seq {A} (l : list A) k : map snd (combine (seq k (length l)) l) = l.
Proof. revert k. induction l as [|a l IH]; intro k; cbn; [reflexivity|]. now rewrite IH. Qed.
Lemma combine_seq_nth {A} (l : list A) k i : nth_error (combine (seq k (length l)) l) i =
  match nth_error l i with Some a => Some ((k + i)%nat, a) | None => None end.
Proof.
  revert k i. induction l as [|a l IH]; intros k [|i]; cbn; try reflexivity.
  - now rewrite Nat.add_0_r.
  - rewrite IH. destruct (nth_error l i); [|reflexivity]. do 2 f_equal. lia.
Qed.
Lemma Forall2_nth {A B} (R : A -> B -> Prop) l m : Forall2 R l m <->
  (length l = length m /\ forall i a b, nth_error l i = Some a -> nth_error m i = Some b -> R a b).
Proof.
  split.
  - induction 1 as [|a b l m Hab H [IH1 IH2]]; [split; [reflexivity|intros [|] ? ? ?; discriminate]|].
    split; [cbn; congruence|]. intros [|i] x y Hx Hy; cbn in *; [congruence|eauto].
  - revert m. induction l as [|a l IH]; intros [|b m] [H1 H2]; try discriminate; constructor.
    + now apply (H2 0%nat).
    + apply IH. split; [now injection H1|]. intros i x y Hx Hy. now apply (H2 (S i)).
Qed.

Lemma mk_aset_spec X names y custom dflt dst A : mk_action_set X names y custom dflt dst = Ok A ->
  valid_names names /\ valid_table X names /\ as_names A = names /\ as_cons A = empty_registry names /\
  (as_y A = if (0 <? y)%Z then 1 else -1)%Z /\ length (as_elems A) = length names /\
  (forall j n e, nth_error names j = Some n -> nth_error (as_elems A) j = Some e ->
     mk_column_element custom dflt dst n (column X j) = Ok e).
Proof.
  unfold mk_action_set. intro H. bnd H as u1 H1. bnd H as u2 H2. bnd H as u3 H3. bnd H as es H4. bnd H as u5 H5.
  injection H as <-. apply passert_ok in H1, H2, H3, H5. apply check_names_iff in H1. apply mapM_ok in H4.
  cbn [as_names as_cons as_y as_elems]. split; [exact H1|].
  split. { split; [intros ->; discriminate|]. rewrite Forall_forall. rewrite forallb_forall in H3.
    intros r Hr. apply H3 in Hr. now apply Nat.eqb_eq in Hr. }
  split; [reflexivity|]. split; [reflexivity|]. split; [reflexivity|].
  apply Forall2_nth in H4. destruct H4 as [HL HN]. rewrite combine_length, seq_length, Nat.min_id in HL.
  split; [congruence|]. intros j n e Hj He.
  specialize (HN j (j, n) e). rewrite combine_seq_nth, Hj in HN. cbn in HN. now apply HN.
Qed.

Lemma created_wf E A : aset_created A -> wf_aset E A.
Proof.
  intros (X & names & y & custom & dflt & dst & H). apply mk_aset_spec in H.
  destruct H as (HV & HT & En & Ec & Ey & HL & HC). unfold wf_aset. rewrite En, Ec, Ey.
  assert (HF : Forall2 (fun e n => e_name e = n /\ elem_reachable E e) (as_elems A) names).
  { apply Forall2_nth. split; [exact HL|]. intros i e n He Hn.
    apply (HC i n e Hn), mk_column_created in He. destruct He as (C1 & C2 & _). split; [exact C2|now apply reach_created]. }
  split; [exact HV|]. split. { clear - HF. induction HF as [|e n es ns [H _] HF IH]; cbn; [reflexivity|]. now rewrite H, IH. }
  split. { clear - HF. induction HF as [|e n es ns [_ H] HF IH]; constructor; auto. }
  split; [reflexivity|]. split; [now apply wf_empty|]. destruct (0 <? y)%Z; auto.
Qed.

(** ** Attribute assignment *)
(** After [k] work items: the first [k] targets hold their new values, everything else is as before. *)
Definition assigned_prefix (name : string) (vals : list pyval) (work : list (nat * nat)) (es es' : list element) (k : nat) : Prop :=
  (k <= length work)%nat /\ length es' = length es /\ map e_name es' = map e_name es /\
  (forall i p j, (i < k)%nat -> nth_error work i = Some (p, j) ->
     exists e v e', nth_error es p = Some e /\ nth_error vals j = Some v /\ elem_setattr name v e = Ok e' /\ nth_error es' p = Some e') /\
  (forall p, (forall i j, nth_error work i = Some (p, j) -> (k <= i)%nat) -> nth_error es' p = nth_error es p).

Lemma setattr_name n v e e' : elem_setattr n v e = Ok e' -> e_name e' = e_name e.
Proof. intro H. pose proof (step_values env0 e (ESet n v)) as K. cbn in K. rewrite H in K. apply K. Qed.

Lemma assign_loop_spec name vals work es es' r : NoDup (map fst work) ->
  assign_loop name vals work es = (es', r) ->
  exists k, assigned_prefix name vals work es es' k /\ (r = Ok tt <-> k = length work).
Proof.
  revert es. induction work as [|[p j] work IH]; intros es HN H; cbn [assign_loop] in H.
  - injection H as <- <-. exists 0%nat. split; [|split; reflexivity].
    split; [reflexivity|]. split; [reflexivity|]. split; [reflexivity|]. split; [intros; lia|reflexivity].
  - inversion HN as [|? ? HI HN']; subst.
    assert (K0 : forall x, (es, Err x) = (es', r) -> exists k, assigned_prefix name vals ((p, j) :: work) es es' k /\ (r = Ok tt <-> k = length ((p, j) :: work))).
    { intros x Hx. injection Hx as <- <-. exists 0%nat. split; [|split; discriminate].
      split; [cbn; lia|]. split; [reflexivity|]. split; [reflexivity|]. split; [intros; lia|reflexivity]. }
    destruct (nth_error es p) as [e|] eqn:Ep; [|now apply (K0 IndexError)].
    destruct (nth_error vals j) as [v|] eqn:Ev; [|now apply (K0 IndexError)].
    destruct (elem_setattr name v e) as [e'|x] eqn:Es; [|now apply (K0 x)].
    destruct (IH _ HN' H) as (k & (P1 & P2 & P3 & P4 & P5) & PR). exists (S k). split; [|rewrite PR; cbn; lia].
    assert (Hp : (p < length es)%nat) by (apply nth_error_Some; congruence).
    split; [cbn; lia|]. split; [now rewrite P2, list_set_length|].
    split. { rewrite P3. apply list_set_map. intros y Hy. rewrite Ep in Hy. injection Hy as <-. eapply setattr_name, Es. }
    assert (Hpun : nth_error es' p = Some e').
    { rewrite P5; [now apply list_set_eq|]. intros i j' Hw. exfalso. apply HI. apply nth_error_In in Hw.
      apply (in_map fst) in Hw. exact Hw. }
    split.
    + intros [|i] q j' Hi Hw; cbn in Hw.
      * injection Hw as <- <-. exists e, v, e'. auto.
      * destruct (P4 i q j' ltac:(lia) Hw) as (e1 & v1 & e2 & A1 & A2 & A3 & A4). exists e1, v1, e2. split; [|auto].
        rewrite <- A1. symmetry. apply list_set_neq. intros ->. apply HI. apply nth_error_In in Hw. apply (in_map fst) in Hw. exact Hw.
    + intros q Hq. destruct (Nat.eq_dec q p) as [->|Hne].
      * specialize (Hq 0%nat j eq_refl). lia.
      * rewrite P5; [apply list_set_neq; congruence|]. intros i j' Hw. specialize (Hq (S i) j' Hw). lia.
Qed.
Lemma assign_loop_reach E name vals work es : Forall (elem_reachable E) es ->
  Forall (elem_reachable E) (fst (assign_loop name vals work es)) /\
  map e_name (fst (assign_loop name vals work es)) = map e_name es.
Proof.
  revert es. induction work as [|[p j] work IH]; intros es H; cbn; [auto|].
  destruct (nth_error es p) as [e|] eqn:Ep; [|auto]. destruct (nth_error vals j) as [v|]; [|auto].
  destruct (elem_setattr name v e) as [e'|] eqn:Es; [|auto].
  assert (He : elem_reachable E e). { rewrite Forall_forall in H. apply H. eapply nth_error_In, Ep. }
  destruct (IH (list_set p e' es)) as [I1 I2]; [apply list_set_Forall; [eapply reach_setattr; eauto|exact H]|].
  split; [exact I1|]. rewrite I2. apply list_set_map. intros y Hy. rewrite Ep in Hy. injection Hy as <-. eapply setattr_name, Es.
Qed.

Lemma expand_ok v m vals : expand_values v m = Ok vals ->
  length vals = m /\ forall k w, nth_error vals k = Some w -> value_for v m k w.
Proof.
  assert (R : forall (x : pyval) n k w, nth_error (repeat x n) k = Some w -> w = x).
  { intros x n k w H. apply nth_error_In, repeat_spec in H. exact H. }
  destruct v as [|b|z|f|z|s|l|l|l|t]; cbn [expand_values]; intro H; try discriminate.
  1,2,3,4: injection H as <-; split; [apply repeat_length|intros k w Hw; exact (R _ _ _ _ Hw)].
  - destruct (Nat.eqb_spec (length l) m) as [E|E].
    + injection H as <-. split; [exact E|]. intros k w Hw. left. auto.
    + destruct l as [|a [|? ?]]; try discriminate. injection H as <-. split; [apply repeat_length|].
      intros k w Hw. right. split; [exact E|]. split; [reflexivity|]. exact (R _ _ _ _ Hw).
  - destruct (Nat.eqb_spec (length l) m) as [E|E].
    + injection H as <-. split; [now rewrite map_length|]. intros k w Hw. left. split; [exact E|].
      rewrite nth_error_map in Hw. destruct (nth_error l k) as [f|]; [|discriminate]. injection Hw as <-. eauto.
    + destruct l as [|a [|? ?]]; try discriminate. injection H as <-. split; [apply repeat_length|].
      intros k w Hw. right. split; [exact E|]. exists a. split; [reflexivity|]. exact (R _ _ _ _ Hw).
Qed.
(** Values that cannot be distributed over [m] features. *)
Lemma expand_err v m x : expand_values v m = Err x -> x = ValueError.
Proof.
  destruct v as [|b|z|f|z|s|l|l|l|t]; cbn; intro H; try discriminate; try (injection H as <-; reflexivity).
  - destruct (Nat.eqb (length l) m); [discriminate|]. destruct l as [|a [|? ?]]; try discriminate; injection H as <-; reflexivity.
  - destruct (Nat.eqb (length l) m); [discriminate|]. destruct l as [|a [|? ?]]; try discriminate; injection H as <-; reflexivity.
Qed.

(** Whole-set assignment. *)
Lemma diag_nth n i p j : nth_error (map (fun j => (j, j)) (seq 0 n)) i = Some (p, j) <-> (i = p /\ p = j /\ (p < n)%nat).
Proof.
  rewrite nth_error_map. destruct (Nat.lt_ge_cases i n) as [H|H].
  - rewrite (nth_error_nth' _ 0%nat) by (now rewrite seq_length). rewrite seq_nth by exact H. cbn. split.
    + intro E. injection E as <- <-. lia.
    + intros (-> & -> & _). reflexivity.
  - assert (E : nth_error (seq 0 n) i = None) by (apply nth_error_None; now rewrite seq_length). rewrite E. cbn.
    split; [discriminate|lia].
Qed.
Lemma set_setattr_spec A name v A' r : elem_hasattr name = true -> length (as_elems A) = as_len A ->
  set_setattr A name v = (A', r) ->
  as_names A' = as_names A /\ as_cons A' = as_cons A /\ as_y A' = as_y A /\
  ((exists x, expand_values v (as_len A) = Err x /\ r = Err x /\ A' = A) \/
   exists k, (k <= as_len A)%nat /\ (r = Ok tt <-> k = as_len A) /\ length (as_elems A') = as_len A /\
     (forall j, (j < k)%nat -> exists e w e', nth_error (as_elems A) j = Some e /\ value_for v (as_len A) j w /\
                 elem_setattr name w e = Ok e' /\ nth_error (as_elems A') j = Some e') /\
     (forall j, (k <= j)%nat -> nth_error (as_elems A') j = nth_error (as_elems A) j)).
Proof.
  intros Ha HL H. unfold set_setattr in H. rewrite Ha in H.
  destruct (expand_values v (as_len A)) as [vals|x] eqn:Ev.
  - destruct (assign_loop name vals _ (as_elems A)) as [es' r'] eqn:HA. injection H as <- <-. cbn.
    do 3 (split; [reflexivity|]). right.
    apply assign_loop_spec in HA.
    2:{ rewrite map_map. cbn. rewrite map_id. apply seq_NoDup. }
    destruct HA as (k & (P1 & P2 & P3 & P4 & P5) & PR). rewrite map_length, seq_length in P1, PR. exists k.
    split; [exact P1|]. split; [exact PR|]. split; [congruence|]. split.
    + intros j Hj. destruct (P4 j j j Hj) as (e & w & e' & A1 & A2 & A3 & A4); [apply diag_nth; lia|].
      exists e, w, e'. split; [exact A1|]. split; [|auto]. apply expand_ok in Ev. now apply Ev.
    + intros j Hj. apply P5. intros i j' Hw. apply diag_nth in Hw. lia.
  - injection H as <- <-. do 3 (split; [reflexivity|]). left. eauto.
Qed.

(** Selections *)
Lemma py_index_seq n i p : py_index (seq 0 n) i = Some p -> (p < n)%nat.
Proof.
  unfold py_index. rewrite seq_length. intro H.
  assert (K : forall k, nth_error (seq 0 n) k = Some p -> (p < n)%nat).
  { intros k Hk. apply nth_error_In, in_seq in Hk. lia. }
  destruct (_ && _)%bool; [eauto|]. destruct (_ && _)%bool; [eauto|discriminate].
Qed.
Lemma name_pos_lt A i p : name_pos A i = Ok p -> (p < as_len A)%nat.
Proof. unfold name_pos. destruct (py_index _ i) eqn:E; [|discriminate]. cbn. intro H. injection H as <-. eapply py_index_seq, E. Qed.
Lemma key_pos_lt A n p : key_pos A n = Ok p -> (p < as_len A)%nat /\ nth_error (as_names A) p = Some n.
Proof.
  unfold key_pos. destruct (index_of n _) eqn:E; [|discriminate]. cbn. intro H. injection H as <-. apply index_of_ok in E.
  split; [apply nth_error_Some; congruence|exact E].
Qed.
Lemma mask_positions_iff k m p : In p (mask_positions k m) <-> exists i, p = (k + i)%nat /\ nth_error m i = Some true.
Proof.
  revert k. induction m as [|b m IH]; intro k; cbn.
  - split; [tauto|]. intros (i & _ & H). destruct i; discriminate.
  - assert (R : In p (mask_positions (S k) m) <-> exists i, p = (k + S i)%nat /\ nth_error m i = Some true).
    { rewrite IH. split; intros (i & -> & H); exists i; (split; [lia|exact H]). }
    destruct b; cbn.
    + rewrite R. split.
      * intros [<-|(i & -> & H)]; [exists 0%nat|exists (S i)]; (split; [lia|auto]).
      * intros ([|i] & -> & H); [left; lia|right; exists i; auto].
    + rewrite R. split.
      * intros (i & -> & H). exists (S i). auto.
      * intros ([|i] & -> & H); [discriminate|exists i; auto].
Qed.
Lemma select_lt A i ps p : select A i = Ok ps -> In p ps -> (p < as_len A)%nat.
Proof.
  assert (M : forall {T} (f : T -> res nat) l ps, (forall t q, f t = Ok q -> (q < as_len A)%nat) -> mapM f l = Ok ps -> In p ps -> (p < as_len A)%nat).
  { intros T f l qs Hf H Hin. apply mapM_ok in H. induction H as [|t q l qs Ht H IH]; [destruct Hin|].
    destruct Hin as [<-|Hin]; [eapply Hf, Ht|auto]. }
  destruct i as [s|z|l|m|l|a b]; cbn [select]; intros H Hin.
  - bnd H as q Hq. injection H as <-. destruct Hin as [<-|[]]. now apply key_pos_lt in Hq.
  - bnd H as q Hq. injection H as <-. destruct Hin as [<-|[]]. now apply name_pos_lt in Hq.
  - unfold select_list in H. destruct l as [|v l]; [discriminate|].
    destruct v; try discriminate; (eapply M; [|exact H|exact Hin]); intros t q Ht; cbn beta in Ht.
    + destruct (as_int t); [eapply name_pos_lt, Ht|discriminate].
    + destruct (as_int t); [eapply name_pos_lt, Ht|discriminate].
    + destruct t; try discriminate. now apply key_pos_lt in Ht.
  - destruct (Nat.eqb_spec (length m) (as_len A)); [|discriminate]. injection H as <-.
    apply mask_positions_iff in Hin. destruct Hin as (i & -> & Hi). rewrite <- e. apply nth_error_Some. cbn. congruence.
  - eapply M; [|exact H|exact Hin]. apply name_pos_lt.
  - injection H as <-. unfold py_slice in Hin. destruct (py_slice_bounds _ _ _) as [i j].
    assert (K : In p (skipn i (seq 0 (as_len A)))).
    { rewrite <- (firstn_skipn (j - i) (skipn i (seq 0 (as_len A)))). apply in_or_app. now left. }
    assert (K2 : In p (seq 0 (as_len A))).
    { rewrite <- (firstn_skipn i (seq 0 (as_len A))). apply in_or_app. now right. }
    apply in_seq in K2. lia.
Qed.

(** The slice dictionary keeps every distinct selected element, in selection order. *)
Lemma dset_new {V} k (v : V) d : ~ In k (map fst d) -> dset k v d = (d ++ [(k, v)])%list.
Proof.
  induction d as [|[k' v'] d IH]; intro H; cbn in *; [reflexivity|].
  destruct (String.eqb_spec k k') as [->|]; [tauto|]. f_equal. apply IH. tauto.
Qed.
Lemma slice_fold (es : list element) ps k d :
  NoDup ps -> (forall p, In p ps -> (p < length es)%nat) -> NoDup (map e_name es) ->
  (forall p e, In p ps -> nth_error es p = Some e -> ~ In (e_name e) (map fst d)) ->
  map snd (fold_left (fun (d : dict (nat * nat)) (pj : nat * nat) =>
             match nth_error es (fst pj) with Some e => dset (e_name e) pj d | None => d end)
            (combine ps (seq k (length ps))) d) = (map snd d ++ combine ps (seq k (length ps)))%list.
Proof.
  revert k d. induction ps as [|p ps IH]; intros k d HN Hlt Hnm Hd; cbn; [now rewrite app_nil_r|].
  inversion HN as [|? ? HI HN']; subst.
  destruct (nth_error es p) as [e|] eqn:Ep; [|apply nth_error_None in Ep; specialize (Hlt p (or_introl eq_refl)); lia].
  rewrite dset_new by (apply (Hd p); [now left|exact Ep]).
  rewrite IH; auto.
  - rewrite map_app. cbn. now rewrite <- app_assoc.
  - intros q Hq. apply Hlt. now right.
  - intros q e' Hq Eq Hin. rewrite map_app, in_app_iff in Hin. destruct Hin as [Hin|[Hin|[]]].
    + eapply Hd; [right; exact Hq|exact Eq|exact Hin].
    + cbn in Hin. assert (p = q); [|subst; tauto].
      apply (proj1 (NoDup_nth_error (map e_name es)) Hnm); [rewrite map_length; apply Hlt; now left|].
      rewrite !nth_error_map, Ep, Eq. cbn. congruence.
Qed.
Lemma slice_dict_eq A ps : NoDup ps -> (forall p, In p ps -> (p < length (as_elems A))%nat) -> NoDup (map e_name (as_elems A)) ->
  slice_dict A ps = combine ps (seq 0 (length ps)).
Proof. intros H1 H2 H3. unfold slice_dict. rewrite slice_fold; auto. Qed.

Lemma combine_nth_seq {A} (l : list A) k i p j : nth_error (combine l (seq k (length l))) i = Some (p, j) <->
  nth_error l i = Some p /\ j = (k + i)%nat.
Proof.
  revert k i. induction l as [|a l IH]; intros k i; cbn.
  - destruct i; cbn; (split; [discriminate|intros [H _]; discriminate]).
  - destruct i as [|i]; cbn.
    + split; [intro H; injection H as <- <-; split; [reflexivity|lia]|intros [H ->]; injection H as ->; do 2 f_equal; lia].
    + rewrite IH. split; intros [H ->]; (split; [exact H|lia]).
Qed.

(** Assignment through an index: element, list, mask or slice. *)
Definition single (i : index) : bool := match i with IStr _ | IInt _ => true | _ => false end.
Lemma index_setattr_spec E A i ps name v A' r : wf_aset E A -> select A i = Ok ps -> NoDup ps ->
  index_setattr A i name v = (A', r) ->
  as_names A' = as_names A /\ as_cons A' = as_cons A /\ as_y A' = as_y A /\ length (as_elems A') = as_len A /\
  (forall p, ~ In p ps -> nth_error (as_elems A') p = nth_error (as_elems A) p) /\
  (r = Ok tt -> forall k p, nth_error ps k = Some p ->
     exists e w e', nth_error (as_elems A) p = Some e /\ (if single i then w = v else value_for v (length ps) k w) /\
       elem_setattr name w e = Ok e' /\ nth_error (as_elems A') p = Some e').
Proof.
  intros HW Hs HN H. pose proof (wf_len _ _ HW) as HL. unfold index_setattr in H. rewrite Hs in H.
  assert (Hlt : forall p, In p ps -> (p < length (as_elems A))%nat) by (intros p Hp; rewrite HL; eapply select_lt; eauto).
  assert (Hsame : forall x, (A, Err x) = (A', r) ->
     as_names A' = as_names A /\ as_cons A' = as_cons A /\ as_y A' = as_y A /\ length (as_elems A') = as_len A /\
     (forall p, ~ In p ps -> nth_error (as_elems A') p = nth_error (as_elems A) p) /\
     (r = Ok tt -> forall k p, nth_error ps k = Some p ->
     exists e w e', nth_error (as_elems A) p = Some e /\ (if single i then w = v else value_for v (length ps) k w) /\
       elem_setattr name w e = Ok e' /\ nth_error (as_elems A') p = Some e')).
  { intros x Hx. injection Hx as <- <-. repeat (split; [auto|]). discriminate. }
  assert (Hgen : single i = false ->
     (if elem_hasattr name then
        let work := slice_dict A ps in
        match expand_values v (length work) with
        | Err x => (A, Err x)
        | Ok vals => let '(es, r) := assign_loop name vals work (as_elems A) in (with_elems A es, r)
        end
      else (A, Err AssertionError)) = (A', r) ->
     as_names A' = as_names A /\ as_cons A' = as_cons A /\ as_y A' = as_y A /\ length (as_elems A') = as_len A /\
     (forall p, ~ In p ps -> nth_error (as_elems A') p = nth_error (as_elems A) p) /\
     (r = Ok tt -> forall k p, nth_error ps k = Some p ->
     exists e w e', nth_error (as_elems A) p = Some e /\ (if single i then w = v else value_for v (length ps) k w) /\
       elem_setattr name w e = Ok e' /\ nth_error (as_elems A') p = Some e')).
  { intros Hi H'. rewrite Hi in *. destruct (elem_hasattr name); [|now apply (Hsame AssertionError)]. cbv zeta in H'.
    rewrite slice_dict_eq in H'; [|exact HN|exact Hlt|destruct HW as (W1 & W2 & _); rewrite W2; apply W1].
    assert (El : length (combine ps (seq 0 (length ps))) = length ps) by (rewrite combine_length, seq_length; lia).
    rewrite El in H'. destruct (expand_values v (length ps)) as [vals|x] eqn:Ev; [|now apply (Hsame x)].
    destruct (assign_loop name vals _ (as_elems A)) as [es' r'] eqn:HA. injection H' as <- <-.
    apply assign_loop_spec in HA.
    2:{ destruct (combine_split_maps ps (seq 0 (length ps))) as [-> _]; [now rewrite seq_length|exact HN]. }
    destruct HA as (k & (P1 & P2 & P3 & P4 & P5) & PR). cbn.
    do 3 (split; [reflexivity|]). split; [congruence|]. split.
    - intros p Hp. apply P5. intros i' j' Hw. exfalso. apply Hp. apply nth_error_In in Hw. now apply in_combine_l in Hw.
    - intros Hr k' p Hk. apply PR in Hr. subst k. rewrite El in *.
      destruct (P4 k' p k') as (e & w & e' & A1 & A2 & A3 & A4).
      + apply nth_error_Some. congruence.
      + apply combine_nth_seq. auto.
      + exists e, w, e'. apply expand_ok in Ev. destruct Ev as [_ Ev]. auto. }
  destruct i as [s|z|l|m|l|a b]; try (now apply Hgen).
  1,2: cbn [select] in Hs; bnd Hs as q Hq; injection Hs as <-;
    destruct (nth_error (as_elems A) q) as [e|] eqn:Eq; [|now apply (Hsame KeyError)];
    destruct (elem_setattr name v e) as [e'|x] eqn:Es; [|now apply (Hsame x)];
    injection H as <- <-; cbn [as_names as_cons as_y as_elems with_elems single];
    do 3 (split; [reflexivity|]); (split; [now rewrite list_set_length|]); split;
    [ intros p Hp; apply list_set_neq; intros ->; apply Hp; now left
    | intros _ [|[|k]] p Hk; cbn in Hk; try discriminate; injection Hk as <-; exists e, v, e';
      split; [exact Eq|]; split; [reflexivity|]; split; [exact Es|]; apply list_set_eq; apply Hlt; now left ].
Qed.

(** ** Histories preserve well-formedness *)
Lemma index_setattr_elems E A i name v : Forall (elem_reachable E) (as_elems A) ->
  let A' := fst (index_setattr A i name v) in
  as_names A' = as_names A /\ as_cons A' = as_cons A /\ as_y A' = as_y A /\
  Forall (elem_reachable E) (as_elems A') /\ map e_name (as_elems A') = map e_name (as_elems A).
Proof.
  intro HF. unfold index_setattr. destruct (select A i) as [ps|x]; [|cbn; auto 10].
  assert (G : let A' := fst (if elem_hasattr name then
            let work := slice_dict A ps in
            match expand_values v (length work) with
            | Err x => (A, Err x)
            | Ok vals =>
                let '(es, r) := assign_loop name vals work (as_elems A) in
                (with_elems A es, r)
            end
          else (A, Err AssertionError)) in
     as_names A' = as_names A /\ as_cons A' = as_cons A /\ as_y A' = as_y A /\
     Forall (elem_reachable E) (as_elems A') /\ map e_name (as_elems A') = map e_name (as_elems A)).
  { destruct (elem_hasattr name); [|cbn; auto 10]. cbv zeta. destruct (expand_values _ _) as [vals|]; [|cbn; auto 10].
    pose proof (assign_loop_reach E name vals (slice_dict A ps) (as_elems A) HF) as K.
    destruct (assign_loop name vals _ _) as [es r]. cbn in *. tauto. }
  destruct i; try exact G.
  1,2: destruct ps as [|p [|? ?]]; [cbn; auto 10| |cbn; auto 10];
       destruct (nth_error (as_elems A) p) as [e|] eqn:Ep; [|cbn; auto 10];
       destruct (elem_setattr name v e) as [e'|] eqn:Es; [|cbn; auto 10]; cbn;
       do 3 (split; [reflexivity|]); split;
       [ apply list_set_Forall; [eapply reach_setattr; [|exact Es]; rewrite Forall_forall in HF; apply HF; eapply nth_error_In, Ep|exact HF]
       | apply list_set_map; intros y Hy; rewrite Ep in Hy; injection Hy as <-; eapply setattr_name, Es ].
Qed.
Lemma set_setattr_elems E A name v : Forall (elem_reachable E) (as_elems A) ->
  let A' := fst (set_setattr A name v) in
  as_names A' = as_names A /\ as_cons A' = as_cons A /\ as_y A' = as_y A /\
  Forall (elem_reachable E) (as_elems A') /\ map e_name (as_elems A') = map e_name (as_elems A).
Proof.
  intro HF. unfold set_setattr. destruct (elem_hasattr name); [|cbn; auto 10].
  destruct (expand_values _ _) as [vals|]; [|cbn; auto 10].
  pose proof (assign_loop_reach E name vals (map (fun j => (j, j)) (seq 0 (as_len A))) (as_elems A) HF) as K.
  destruct (assign_loop name vals _ _) as [es r]. cbn in *. tauto.
Qed.

Lemma set_y_spec A y A' : set_y_desired A y = Ok A' ->
  (y = 1 \/ y = 0 \/ y = -1)%Z /\ as_names A' = as_names A /\ as_cons A' = as_cons A /\
  ((y = as_y A /\ A' = A) \/
   (y <> as_y A /\ (as_y A' = if (0 <? y)%Z then 1 else -1)%Z /\
    ((alignment_known A = true /\ as_elems A' = map (fun e => with_flip e (option_map (fun f => Z.sgn (- f)) (e_flip e))) (as_elems A)) \/
     (alignment_known A = false /\ as_elems A' = as_elems A)))).
Proof.
  unfold set_y_desired. intro H. bnd H as u Hu. apply passert_ok in Hu.
  split. { rewrite !orb_true_iff, !Z.eqb_eq in Hu. lia. }
  destruct (Z.eqb_spec y (as_y A)) as [E|E].
  - injection H as <-. auto.
  - cbv zeta in H. change (alignment_known (with_y A _)) with (alignment_known A) in H.
    destruct (alignment_known A) eqn:EA; injection H as <-; cbn; auto 10.
Qed.
Lemma set_alignment_spec A a A' : set_alignment A a = Ok A' -> exists w t, parse_classifier_args a = Ok (w, t) /\
  length w = as_len A /\ as_names A' = as_names A /\ as_cons A' = as_cons A /\ as_y A' = as_y A /\
  as_elems A' = map (fun p => with_flip (fst p) (Some (Z.sgn (snd p))))
                  (combine (as_elems A) (map (fun w => if (0 <? as_y A)%Z then qsign w else (- qsign w)%Z) w)).
Proof.
  unfold set_alignment. intro H. bnd H as [w t] Hp. bnd H as u Hu. apply passert_ok in Hu. apply Nat.eqb_eq in Hu.
  injection H as <-. exists w, t. auto 10.
Qed.

Lemma run_name E e ops : e_name (elem_run E e ops) = e_name e.
Proof.
  revert e. induction ops as [|o ops IH]; intro e; [reflexivity|]. cbn. etransitivity; [apply IH|apply step_values].
Qed.
Lemma wf_astep E A o : wf_aset E A -> wf_aset E (aset_step E A o).
Proof.
  intro HW. destruct o as [n v|i n v|j|j|n vs bs vt ac st sd ss eops|y|a|ns lb ub id|id]; cbn [aset_step].
  - destruct HW as (W1 & W2 & W3 & W4 & W5 & W6). destruct (set_setattr_elems E A n v W3) as (E1 & E2 & E3 & E4 & E5).
    unfold wf_aset. rewrite E1, E2, E3, E5. auto 10.
  - destruct HW as (W1 & W2 & W3 & W4 & W5 & W6). destruct (index_setattr_elems E A i n v W3) as (E1 & E2 & E3 & E4 & E5).
    unfold wf_aset. rewrite E1, E2, E3, E5. auto 10.
  - unfold on_elem. destruct (nth_error (as_elems A) j) as [e|] eqn:Ej; [|exact HW].
    destruct HW as (W1 & W2 & W3 & W4 & W5 & W6). unfold wf_aset. cbn [as_names as_elems as_cons as_y with_elems].
    split; [exact W1|]. split; [|split; [|auto]].
    + rewrite <- W2. apply list_set_map. intros y Hy. rewrite Ej in Hy. injection Hy as <-. apply step_values.
    + apply list_set_Forall; [|exact W3]. apply reach_step. rewrite Forall_forall in W3. apply W3. eapply nth_error_In, Ej.
  - unfold on_elem. destruct (nth_error (as_elems A) j) as [e|] eqn:Ej; [|exact HW].
    destruct HW as (W1 & W2 & W3 & W4 & W5 & W6). unfold wf_aset. cbn [as_names as_elems as_cons as_y with_elems].
    split; [exact W1|]. split; [|split; [|auto]].
    + rewrite <- W2. apply list_set_map. intros y Hy. rewrite Ej in Hy. injection Hy as <-. apply step_values.
    + apply list_set_Forall; [|exact W3]. apply reach_step. rewrite Forall_forall in W3. apply W3. eapply nth_error_In, Ej.
  - destruct (mk_element n vs bs vt ac st sd ss) as [e0|] eqn:He0; [|exact HW]. unfold setitem.
    destruct (index_of n (as_names A)) as [p|] eqn:Hp; [|exact HW].
    destruct HW as (W1 & W2 & W3 & W4 & W5 & W6). unfold wf_aset. cbn [as_names as_elems as_cons as_y with_elems].
    assert (HR : elem_reachable E (elem_run E e0 eops)) by (exists e0, eops; split; [do 8 eexists; exact He0|reflexivity]).
    assert (HN : e_name (elem_run E e0 eops) = n).
    { rewrite (run_name E). apply mk_element_name in He0. apply He0. }
    split; [exact W1|]. split; [|split; [now apply list_set_Forall|auto]].
    transitivity (map e_name (as_elems A)); [|exact W2]. apply list_set_map. intros e Hy. apply index_of_ok in Hp.
    rewrite <- W2, nth_error_map, Hy in Hp. cbn in Hp. congruence.
  - destruct (set_y_desired A y) as [A'|] eqn:H; [|exact HW]. apply set_y_spec in H.
    destruct H as (_ & E1 & E2 & [[_ ->]|(_ & E3 & E4)]); [exact HW|].
    destruct HW as (W1 & W2 & W3 & W4 & W5 & W6). unfold wf_aset. rewrite E1, E2, E3.
    split; [exact W1|]. assert (Ky : ((if 0 <? y then 1 else -1) = 1 \/ (if 0 <? y then 1 else -1) = -1)%Z) by (destruct (0 <? y)%Z; auto).
    destruct E4 as [[_ ->]|[_ ->]]; [|auto 10]. split; [rewrite map_map; cbn; exact W2|]. split; [|auto].
    rewrite Forall_map. eapply Forall_impl; [|exact W3]. intros e He. destruct (e_flip e) as [f|] eqn:Ef; cbn.
    + now apply reach_flip.
    + replace (with_flip e None) with e; [exact He|]. destruct e; cbn in *; now subst.
  - destruct (set_alignment A a) as [A'|] eqn:H; [|exact HW]. apply set_alignment_spec in H.
    destruct H as (w & t & _ & HL & E1 & E2 & E3 & E4). pose proof (wf_len _ _ HW) as HE.
    destruct HW as (W1 & W2 & W3 & W4 & W5 & W6). unfold wf_aset. rewrite E1, E2, E3, E4.
    split; [exact W1|]. split; [|split; [|auto]].
    + rewrite map_map. cbn. rewrite <- W2. rewrite <- (map_map fst e_name).
      f_equal. apply combine_split_maps. rewrite map_length. congruence.
    + rewrite Forall_map, Forall_forall. intros [e f] Hin. apply in_combine_l in Hin. cbn. apply reach_flip.
      rewrite Forall_forall in W3. now apply W3.
  - unfold add_constraint. cbn. destruct HW as (W1 & W2 & W3 & W4 & W5 & W6).
    pose proof (wf_step _ (RAdd ns lb ub id) W5) as K. pose proof (reg_step_names (as_cons A) (RAdd ns lb ub id)) as KN. cbn in K, KN.
    destruct (add_subset_limit (as_cons A) ns lb ub id) as [[r i]|]; cbn; unfold wf_aset; cbn; [|auto 10]. rewrite KN. auto 10.
  - unfold remove_constraint. destruct HW as (W1 & W2 & W3 & W4 & W5 & W6).
    pose proof (wf_step _ (RRemove id) W5) as K. pose proof (reg_step_names (as_cons A) (RRemove id)) as KN. cbn in K, KN.
    destruct (registry_remove (as_cons A) id) as [r|]; cbn; unfold wf_aset; cbn; [|auto 10]. rewrite KN. auto 10.
Qed.
Lemma reachable_wf E A : aset_reachable E A -> wf_aset E A.
Proof.
  intros (A0 & ops & Hc & ->). apply (created_wf E) in Hc. revert A0 Hc.
  induction ops as [|o ops IH]; intros A0 H; [exact H|]. cbn. apply IH, wf_astep, H.
Qed.
Lemma run_anames E A ops : wf_aset E A -> as_names (aset_run E A ops) = as_names A.
Proof.
  revert A. induction ops as [|o ops IH]; intros A HW; [reflexivity|]. cbn.
  etransitivity; [apply IH, wf_astep, HW|]. destruct HW as (W1 & W2 & W3 & _).
  destruct o as [n v|i n v|j|j|n vs bs vt ac st sd ss eops|y|a|ns lb ub id|id]; cbn [aset_step].
  - apply (set_setattr_elems E A n v W3).
  - apply (index_setattr_elems E A i n v W3).
  - unfold on_elem. destruct (nth_error _ _); reflexivity.
  - unfold on_elem. destruct (nth_error _ _); reflexivity.
  - destruct (mk_element n vs bs vt ac st sd ss); [|reflexivity]. unfold setitem. destruct (index_of n (as_names A)); reflexivity.
  - destruct (set_y_desired A y) eqn:H; [|reflexivity]. now apply set_y_spec in H.
  - destruct (set_alignment A a) eqn:H; [|reflexivity]. apply set_alignment_spec in H. destruct H as (w & t & _ & _ & H & _). exact H.
  - unfold add_constraint. cbn. destruct (add_subset_limit _ _ _ _ _) as [[r i]|]; reflexivity.
  - unfold remove_constraint. destruct (registry_remove _ _); reflexivity.
Qed.

(** ** What an assignment changes *)
Lemma setattr_same n v e e' : elem_setattr n v e = Ok e' -> same_except n e e'.
Proof.
  intro H. apply setattr_spec in H. unfold same_except.
  inversion H; subst; cbn -[In]; repeat split; intros; try reflexivity; try congruence; try (exfalso; auto; fail).
Qed.
