(** Decoding and encoding of the recourse MIP: feasible points are choices of one option per feature. *)
From Verif Require Import Proofs_props_actionset Spec_recourse.
#[local] Open Scope list_scope.
#[local] Open Scope Qc_scope.

#[global] Arguments eval : simpl never.
(** ** Evaluation *)
Lemma eval_app s a b : eval s (a ++ b) = eval s a + eval s b.
Proof. unfold eval. now rewrite map_app, qsum_app. Qed.
Lemma eval_cons s c v e : eval s ((c, v) :: e) = c * s v + eval s e.
Proof. reflexivity. Qed.
Lemma eval_nil s : eval s [] = 0.
Proof. reflexivity. Qed.
Lemma eval_ext s s' e : (forall c v, In (c, v) e -> s v = s' v) -> eval s e = eval s' e.
Proof.
  intro H. unfold eval. f_equal. apply map_ext_in. intros [c v] Hin. cbn. now rewrite (H c v Hin).
Qed.
Lemma eval_flat_map {A} s (f : A -> expr) l : eval s (flat_map f l) = qsum (map (fun i => eval s (f i)) l).
Proof. induction l as [|a l IH]; [reflexivity|]. cbn [flat_map map qsum]. now rewrite eval_app, IH. Qed.
Lemma eval_sum_of s vs : eval s (sum_of vs) = qsum (map s vs).
Proof.
  induction vs as [|v vs IH]; [reflexivity|]. unfold sum_of in *. cbn [map]. rewrite eval_cons, IH. cbn. ring.
Qed.
Lemma eval_neg_sum_of s vs : eval s (neg_sum_of vs) = - qsum (map s vs).
Proof.
  induction vs as [|v vs IH]; [reflexivity|]. unfold neg_sum_of in *. cbn [map]. rewrite eval_cons, IH. cbn. ring.
Qed.
Lemma eval_map_coef {A} s (f : A -> Qc) (g : A -> mvar) l :
  eval s (map (fun i => (f i, g i)) l) = qsum (map (fun i => f i * s (g i)) l).
Proof. induction l as [|a l IH]; [reflexivity|]. cbn [map]. rewrite eval_cons, IH. reflexivity. Qed.
Lemma eval_neg s e : eval s (map (fun p => (- fst p, snd p)) e) = - eval s e.
Proof.
  induction e as [|[c v] e IH]; [reflexivity|]. cbn [map]. rewrite !eval_cons, IH. cbn [fst snd]. ring.
Qed.

(** ** One-hot vectors *)
Definition hot (c k : nat) : Qc := if Nat.eqb k c then 1 else 0.
Lemma eval_hot s j l st c :
  (forall k, (st <= k < st + length l)%nat -> s (VU j k) = hot c k) ->
  eval s (combine l (map (VU j) (seq st (length l)))) =
  if (Nat.leb st c && Nat.ltb c (st + length l))%bool then nth (c - st) l 0 else 0.
Proof.
  revert st. induction l as [|a l IH]; intros st H.
  - cbn [length combine]. rewrite eval_nil. destruct (_ && _)%bool; [destruct (c - st)%nat; reflexivity|reflexivity].
  - cbn [length seq map combine]. rewrite eval_cons, IH.
    2:{ intros k Hk. apply H. cbn [length]. lia. }
    rewrite (H st) by (cbn [length]; lia). unfold hot.
    destruct (Nat.eqb_spec st c) as [->|N].
    + replace (Nat.leb (S c) c) with false by (symmetry; apply Nat.leb_gt; lia). cbn [andb].
      rewrite Nat.leb_refl. replace (Nat.ltb c (c + S (length l))) with true by (symmetry; apply Nat.ltb_lt; lia).
      cbn [andb]. rewrite Nat.sub_diag. cbn [nth]. ring.
    + replace (Nat.leb (S st) c) with (Nat.leb st c).
      2:{ destruct (Nat.leb_spec st c); destruct (Nat.leb_spec (S st) c); try reflexivity; lia. }
      replace (st + S (length l))%nat with (S st + length l)%nat by lia.
      destruct (Nat.leb_spec st c) as [L|L]; cbn [andb]; [|ring].
      destruct (Nat.ltb c (S st + length l)) eqn:F; [|ring].
      replace (c - st)%nat with (S (c - S st)) by lia. cbn [nth]. ring.
Qed.
Lemma qsum_hot c n st : qsum (map (hot c) (seq st n)) = if (Nat.leb st c && Nat.ltb c (st + n))%bool then 1 else 0.
Proof.
  revert st. induction n as [|n IH]; intro st.
  - cbn [seq map qsum]. destruct (Nat.leb_spec st c); destruct (Nat.ltb_spec c (st + 0)); cbn [andb]; try reflexivity; lia.
  - cbn [seq map qsum]. rewrite IH. unfold hot at 1. destruct (Nat.eqb_spec st c) as [->|N].
    + replace (Nat.leb (S c) c) with false by (symmetry; apply Nat.leb_gt; lia).
      rewrite Nat.leb_refl. replace (Nat.ltb c (c + S n)) with true by (symmetry; apply Nat.ltb_lt; lia). cbn. ring.
    + replace (Nat.leb (S st) c) with (Nat.leb st c).
      2:{ destruct (Nat.leb_spec st c); destruct (Nat.leb_spec (S st) c); try reflexivity; lia. }
      replace (st + S n)%nat with (S st + n)%nat by lia. destruct (_ && _)%bool; ring.
Qed.
Definition bit (q : Qc) : Prop := q = 0 \/ q = 1.
Lemma bit_nonneg q : bit q -> 0 <= q.
Proof. intros [->| ->]; [apply Qcle_refl|discriminate]. Qed.
Lemma bits_sum0 l : Forall bit l -> qsum l = 0 -> Forall (eq 0) l.
Proof.
  induction 1 as [|q l Hq HF IH]; intro H; [constructor|]. cbn in H.
  assert (0 <= qsum l) by (apply qsum_nonneg; eapply Forall_impl; [|exact HF]; exact bit_nonneg).
  pose proof (bit_nonneg _ Hq). constructor; [|apply IH]; qlra.
Qed.
Lemma bits_sum1 l : Forall bit l -> qsum l = 1 -> exists c, (c < length l)%nat /\ forall k, nth k l 0 = if (Nat.ltb k (length l)) then hot c k else 0.
Proof.
  induction 1 as [|q l Hq HF IH]; intro H; [cbn in H; discriminate H|]. cbn in H.
  destruct Hq as [->| ->].
  - destruct IH as (c & Hc & Hk); [qlra|]. exists (S c). cbn [length]. split; [lia|].
    intros [|k]; [reflexivity|]. cbn [nth]. rewrite Hk. reflexivity.
  - exists 0%nat. cbn [length]. split; [lia|]. assert (Z : Forall (eq 0) l) by (apply bits_sum0; [exact HF|qlra]).
    intros [|k]; [reflexivity|]. cbn [nth]. transitivity 0; [|change (hot 0 (S k)) with 0; destruct (Nat.ltb (S k) (S (length l))); reflexivity].
    destruct (Nat.lt_ge_cases k (length l)) as [L|L]; [|now apply nth_overflow].
    rewrite Forall_forall in Z. symmetry. apply Z. now apply nth_In.
Qed.

(** ** Well-formed build information *)
Definition act (i : info) (k : nat) : Qc := nth k (i_actions i) 0.
Definition cst (i : info) (k : nat) : Qc := nth k (i_costs i) 0.
Definition nopt (i : info) : nat := length (i_actions i).
Record wf_info (i : info) : Prop := {
  wi_len : (2 <= nopt i)%nat; wi_len2 : length (i_costs i) = nopt i;
  wi_nodup : NoDup (i_actions i); wi_a0 : act i 0 = 0; wi_c0 : cst i 0 = 0;
  wi_pos : forall k, (0 < k < nopt i)%nat -> 0 < cst i k /\ act i k <> 0;
  wi_null : (i_knull i < nopt i)%nat }.
Definition wf_infos (infos : list info) : Prop := Forall wf_info infos /\ NoDup (map i_idx infos).

Definition info_at (infos : list info) (j : nat) : option info := find (fun i => Nat.eqb (i_idx i) j) infos.
Lemma info_at_In infos i : NoDup (map i_idx infos) -> In i infos -> info_at infos (i_idx i) = Some i.
Proof.
  induction infos as [|a l IH]; [intros _ []|]. cbn. intros Hn Hin. inversion Hn as [|? ? Ha Hn']; subst.
  destruct (Nat.eqb_spec (i_idx a) (i_idx i)) as [E|N].
  - destruct Hin as [->|Hin]; [reflexivity|]. exfalso. apply Ha. rewrite E. now apply in_map.
  - destruct Hin as [->|Hin]; [tauto|]. now apply IH.
Qed.
Lemma info_at_Some infos j i : info_at infos j = Some i -> In i infos /\ i_idx i = j.
Proof. intro H. apply find_some in H. destruct H as [H1 H2]. apply Nat.eqb_eq in H2. auto. Qed.
Lemma info_at_None infos j : info_at infos j = None -> ~ In j (map i_idx infos).
Proof.
  intros H Hin. apply in_map_iff in Hin. destruct Hin as (i & E & Hi). pose proof (find_none _ _ H i Hi) as F.
  apply Nat.eqb_neq in F. tauto.
Qed.

(** A choice of one option per feature, and the point it stands for. *)
Definition choice := nat -> nat.
Definition ch_ok (infos : list info) (ch : choice) : Prop := forall i, In i infos -> (ch (i_idx i) < nopt i)%nat.
Definition chosen_costs (infos : list info) (ch : choice) : list Qc := map (fun i => cst i (ch (i_idx i))) infos.
Definition assign (infos : list info) (ch : choice) : assignment := fun v =>
  match v with
  | VA j => match info_at infos j with Some i => act i (ch j) | None => 0 end
  | VU j k => hot (ch j) k
  | VC j => match info_at infos j with Some i => cst i (ch j) | None => 0 end
  | VMax => qmaxl (chosen_costs infos ch) 0
  end.
(** [s] encodes the choice [ch] (cost variables aside). *)
Definition agree (infos : list info) (s : assignment) (ch : choice) : Prop :=
  ch_ok infos ch /\ forall i, In i infos ->
    s (VA (i_idx i)) = act i (ch (i_idx i)) /\ forall k, (k < nopt i)%nat -> s (VU (i_idx i) k) = hot (ch (i_idx i)) k.
Lemma assign_agree infos ch : wf_infos infos -> ch_ok infos ch -> agree infos (assign infos ch) ch.
Proof.
  intros [_ Hn] Hc. split; [exact Hc|]. intros i Hi. cbn. rewrite (info_at_In _ _ Hn Hi). split; [reflexivity|auto].
Qed.

Lemma agree_actions infos s ch i : agree infos s ch -> wf_info i -> In i infos ->
  eval s (combine (i_actions i) (uvars i)) = act i (ch (i_idx i)).
Proof.
  intros [Hc H] W Hi. specialize (Hc i Hi). destruct (H i Hi) as [_ Hu]. unfold uvars, nopt in *.
  rewrite (eval_hot s (i_idx i) (i_actions i) 0 (ch (i_idx i))); [|intros; apply Hu; lia].
  cbn [Nat.leb andb plus]. rewrite (proj2 (Nat.ltb_lt _ _) Hc). now rewrite Nat.sub_0_r.
Qed.
Lemma agree_costs infos s ch i : agree infos s ch -> wf_info i -> In i infos ->
  eval s (cost_terms i) = cst i (ch (i_idx i)).
Proof.
  intros [Hc H] W Hi. specialize (Hc i Hi). destruct (H i Hi) as [_ Hu]. unfold cost_terms, uvars, nopt in *.
  pose proof (wi_len2 _ W) as L. unfold nopt in L. rewrite <- L in Hc |- *.
  rewrite (eval_hot s (i_idx i) (i_costs i) 0 (ch (i_idx i))); [|intros; apply Hu; rewrite <- L; lia].
  cbn [Nat.leb andb plus]. rewrite (proj2 (Nat.ltb_lt _ _) Hc). now rewrite Nat.sub_0_r.
Qed.
Lemma map_uvars infos s ch i : agree infos s ch -> In i infos -> map s (uvars i) = map (hot (ch (i_idx i))) (seq 0 (nopt i)).
Proof.
  intros [Hc H] Hi. destruct (H i Hi) as [_ Hu]. unfold uvars. rewrite map_map. apply map_ext_in. intros k Hk.
  apply in_seq in Hk. apply Hu. lia.
Qed.
Lemma agree_pick infos s ch i : agree infos s ch -> In i infos -> eval s (sum_of (uvars i)) = 1.
Proof.
  intros HA Hi. rewrite eval_sum_of, (map_uvars _ _ _ _ HA Hi), qsum_hot. cbn [Nat.leb andb plus].
  pose proof (proj1 HA i Hi) as Hc. now rewrite (proj2 (Nat.ltb_lt _ _) Hc).
Qed.

(** ** The shape shared by a freshly built MIP and everything populate and the limit setters turn it into *)
Definition plain_var (infos : list info) (v : mvar) : Prop :=
  exists i, In i infos /\ (v = VA (i_idx i) \/ exists k, (k < nopt i)%nat /\ v = VU (i_idx i) k).
Definition plain_row (infos : list info) (r : row) : Prop := forall c v, In (c, v) (r_terms r) -> plain_var infos v.
Definition udecl (i : info) (k : nat) (b : Qc) : vdecl := {| v_var := VU (i_idx i) k; v_bin := true; v_lb := b; v_ub := Some 1 |}.
Definition structural (bk : backend) (ct : cost_type) (i : info) (r : row) : Prop :=
  r = set_row bk i \/ r = pick_row i \/ (ct = CMax /\ (r = def_cost_row bk i \/ r = set_max_row i)).
Definition obj_of (ct : cost_type) (infos : list info) : expr :=
  match ct with
  | CMax => (1, VMax) :: map (fun v => (epsilon infos, v)) (map (fun i => VC (i_idx i)) infos)
  | _ => flat_map cost_terms infos
  end.
Record shape (bk : backend) (ct : cost_type) (infos : list info) (m : mip) : Prop := {
  sh_vars : forall d, In d (m_vars m) -> (exists i, In i infos /\ d = avar_decl i) \/
              (exists i k b, In i infos /\ (k < nopt i)%nat /\ d = udecl i k b) \/
              (ct = CMax /\ (d = cvar_decl VMax \/ exists i, In i infos /\ d = cvar_decl (VC (i_idx i))));
  sh_u : forall i k, In i infos -> (k < nopt i)%nat -> exists b, In (udecl i k b) (m_vars m);
  sh_max : ct = CMax -> In (cvar_decl VMax) (m_vars m);
  sh_rows : forall r, In r (m_rows m) -> plain_row infos r \/ exists i, In i infos /\ structural bk ct i r;
  sh_struct : forall i r, In i infos -> structural bk ct i r -> In r (m_rows m);
  sh_sos : m_sos m = map uvars infos;
  sh_obj : m_obj m = obj_of ct infos }.

Lemma mip_sat_iff m s : mip_sat m s = true <->
  (forall d, In d (m_vars m) -> var_ok s d = true) /\ (forall r, In r (m_rows m) -> row_ok s r = true) /\
  (forall l, In l (m_sos m) -> sos_ok s l = true).
Proof. unfold mip_sat. rewrite !andb_true_iff, !forallb_forall. tauto. Qed.

Lemma row_ok_eq s n e b : row_ok s (row_eq n e b) = true <-> eval s e = b.
Proof.
  unfold row_ok. cbn. rewrite andb_true_iff. split; [intros [H1 H2]; qbool; now apply Qcle_antisym|intros ->; split; qbool; apply Qcle_refl].
Qed.
Lemma row_ok_ge s n e b : row_ok s (row_ge n e b) = true <-> b <= eval s e.
Proof. unfold row_ok. cbn. rewrite andb_true_r. apply qle_iff. Qed.
Lemma row_ok_le s n e b : row_ok s (row_le n e b) = true <-> eval s e <= b.
Proof. unfold row_ok. cbn. apply qle_iff. Qed.
Lemma row_ok_rng s n e b w : row_ok s (row_rng n e b w) = true <-> b <= eval s e /\ eval s e <= b + w.
Proof. unfold row_ok. cbn. rewrite andb_true_iff. now rewrite !qle_iff. Qed.
Lemma row_ok_ext s s' r : (forall c v, In (c, v) (r_terms r) -> s v = s' v) -> row_ok s r = row_ok s' r.
Proof. intro H. unfold row_ok. now rewrite (eval_ext s s'). Qed.

Lemma plain_ext infos s s' ch r : agree infos s ch -> agree infos s' ch -> plain_row infos r -> row_ok s r = row_ok s' r.
Proof.
  intros [_ H] [_ H'] P. apply row_ok_ext. intros c v Hin. destruct (P c v Hin) as (i & Hi & [->|(k & Hk & ->)]).
  - destruct (H i Hi) as [-> _], (H' i Hi) as [-> _]. reflexivity.
  - destruct (H i Hi) as [_ Hu], (H' i Hi) as [_ Hu']. now rewrite Hu, Hu'.
Qed.
Lemma set_row_ok bk s ch infos i : agree infos s ch -> wf_info i -> In i infos -> row_ok s (set_row bk i) = true.
Proof.
  intros HA W Hi. pose proof (agree_actions _ _ _ _ HA W Hi) as E. destruct (proj2 HA i Hi) as [Ha _].
  destruct bk; apply row_ok_eq; [rewrite eval_cons, E, Ha; ring|].
  rewrite eval_app, E, eval_cons, eval_nil, Ha. ring.
Qed.

Lemma qmaxl_ge l d : d <= qmaxl l d /\ forall v, In v l -> v <= qmaxl l d.
Proof.
  induction l as [|a l IH]; cbn [qmaxl]; [split; [apply Qcle_refl|intros ? []]|].
  destruct IH as [H1 H2]. unfold qmax. destruct (qle_spec a (qmaxl l d)) as [H|H].
  - split; [exact H1|]. intros v [<-|Hv]; [exact H|auto].
  - split; [qlra|]. intros v [<-|Hv]; [apply Qcle_refl|]. specialize (H2 v Hv). qlra.
Qed.
Lemma qmaxl_le l d b : d <= b -> (forall v, In v l -> v <= b) -> qmaxl l d <= b.
Proof.
  intros Hd. induction l as [|a l IH]; cbn [qmaxl]; intro H; [exact Hd|].
  unfold qmax. destruct (qle a (qmaxl l d)); [apply IH; intros; apply H; now right|apply H; now left].
Qed.
Lemma qminl_le l d : qminl l d <= d /\ forall v, In v l -> qminl l d <= v.
Proof.
  induction l as [|a l IH]; cbn [qminl]; [split; [apply Qcle_refl|intros ? []]|].
  destruct IH as [H1 H2]. unfold qmin. destruct (qle_spec a (qminl l d)) as [H|H].
  - split; [qlra|]. intros v [<-|Hv]; [apply Qcle_refl|]. specialize (H2 v Hv). qlra.
  - split; [exact H1|]. intros v [<-|Hv]; [qlra|auto].
Qed.
Lemma lmax_ge l v : In v l -> v <= lmax l.
Proof. destruct l as [|a l]; [intros []|]. cbn. intros [<-|H]; [apply (proj1 (qmaxl_ge l a))|now apply (proj2 (qmaxl_ge l a))]. Qed.
Lemma lmin_le l v : In v l -> lmin l <= v.
Proof. destruct l as [|a l]; [intros []|]. cbn. intros [<-|H]; [apply (proj1 (qminl_le l a))|now apply (proj2 (qminl_le l a))]. Qed.
Lemma lmin_In l : l <> [] -> In (lmin l) l.
Proof.
  destruct l as [|a l]; [congruence|]. intros _. cbn [lmin].
  destruct (np_min_spec (a :: l) (qminl l a)) as [H _]; [reflexivity|exact H].
Qed.
Lemma lmax_In l : l <> [] -> In (lmax l) l.
Proof.
  destruct l as [|a l]; [congruence|]. intros _. cbn [lmax].
  destruct (np_max_spec (a :: l) (qmaxl l a)) as [H _]; [reflexivity|exact H].
Qed.

(** Decoding: a feasible point determines a choice. *)
Definition ch_of (infos : list info) (s : assignment) : choice := fun j =>
  match info_at infos j with
  | Some i => match find (fun k => negb (s (VU j k) =? 0)) (seq 0 (nopt i)) with Some k => k | None => 0%nat end
  | None => 0%nat
  end.
Lemma find_hot c n (f : nat -> Qc) : (c < n)%nat -> (forall k, (k < n)%nat -> f k = hot c k) ->
  find (fun k => negb (f k =? 0)) (seq 0 n) = Some c.
Proof.
  intros Hc Hf. destruct (find _ (seq 0 n)) as [k|] eqn:F.
  - apply find_some in F. destruct F as [Hin Hk]. apply in_seq in Hin. rewrite Hf in Hk by lia. unfold hot in Hk.
    destruct (Nat.eqb_spec k c); [now subst|]. discriminate Hk.
  - exfalso. pose proof (find_none _ _ F c) as N. rewrite in_seq, Hf in N by lia. unfold hot in N.
    rewrite Nat.eqb_refl in N. assert (T : true = false) by (apply N; lia). discriminate T.
Qed.

Section Decode.
Context (bk : backend) (ct : cost_type) (infos : list info) (W : wf_infos infos).
Implicit Types (m : mip) (s : assignment).

Lemma wfi i : In i infos -> wf_info i.
Proof. apply (proj1 (Forall_forall _ _) (proj1 W)). Qed.

Lemma decode_agree m s : shape bk ct infos m -> mip_sat m s = true -> agree infos s (ch_of infos s).
Proof.
  intros SH HS. apply mip_sat_iff in HS. destruct HS as (HV & HR & _).
  assert (K : forall i, In i infos -> exists c, (c < nopt i)%nat /\ forall k, (k < nopt i)%nat -> s (VU (i_idx i) k) = hot c k).
  { intros i Hi. destruct (bits_sum1 (map s (uvars i))) as (c & Hc & Hk).
    - rewrite Forall_forall. intros q Hq. apply in_map_iff in Hq. destruct Hq as (v & <- & Hv).
      unfold uvars in Hv. apply in_map_iff in Hv. destruct Hv as (k & <- & Hk). apply in_seq in Hk.
      destruct (sh_u _ _ _ _ SH i k Hi) as (b & Hd); [unfold nopt; lia|]. specialize (HV _ Hd).
      unfold var_ok in HV. cbn in HV. apply andb_true_iff in HV. destruct HV as [HV _].
      apply andb_true_iff in HV. destruct HV as [HV _]. apply orb_true_iff in HV. destruct HV as [HV|HV]; qbool; [now left|now right].
    - rewrite <- eval_sum_of. apply (row_ok_eq s (NPick (i_idx i))). apply HR, (sh_struct _ _ _ _ SH i); [exact Hi|].
      right. now left.
    - unfold uvars in Hc, Hk. rewrite !map_length, seq_length in *. exists c. split; [exact Hc|]. intros k Hk'.
      specialize (Hk k). unfold nopt in Hk'. rewrite (proj2 (Nat.ltb_lt _ _) Hk') in Hk. rewrite <- Hk.
      rewrite map_map. rewrite (nth_indep _ 0 (s (VU (i_idx i) 0))) by (now rewrite map_length, seq_length).
      rewrite (map_nth (fun k => s (VU (i_idx i) k))). now rewrite seq_nth. }
  assert (C : forall i, In i infos -> (ch_of infos s (i_idx i) < nopt i)%nat /\
             forall k, (k < nopt i)%nat -> s (VU (i_idx i) k) = hot (ch_of infos s (i_idx i)) k).
  { intros i Hi. destruct (K i Hi) as (c & Hc & Hk). unfold ch_of. rewrite (info_at_In _ _ (proj2 W) Hi).
    rewrite (find_hot c) by assumption. auto. }
  split; [intros i Hi; apply (C i Hi)|]. intros i Hi. destruct (C i Hi) as [Hc Hu]. split; [|exact Hu].
  assert (HS : row_ok s (set_row bk i) = true) by (apply HR, (sh_struct _ _ _ _ SH i); [exact Hi|now left]).
  pose proof (wfi i Hi) as Wi.
  assert (E : eval s (combine (i_actions i) (uvars i)) = act i (ch_of infos s (i_idx i))).
  { unfold uvars. rewrite (eval_hot s (i_idx i) (i_actions i) 0 (ch_of infos s (i_idx i))); [|intros; apply Hu; unfold nopt; lia].
    cbn [Nat.leb andb plus]. unfold nopt in Hc. rewrite (proj2 (Nat.ltb_lt _ _) Hc). now rewrite Nat.sub_0_r. }
  destruct bk; apply row_ok_eq in HS; [rewrite eval_cons, E in HS|rewrite eval_app, E, eval_cons, eval_nil in HS].
  - transitivity (act i (ch_of infos s (i_idx i)) - (- (1) * s (VA (i_idx i)) + act i (ch_of infos s (i_idx i)))); [ring|rewrite HS; ring].
  - transitivity (act i (ch_of infos s (i_idx i)) - (act i (ch_of infos s (i_idx i)) + (- (1) * s (VA (i_idx i)) + 0))); [ring|rewrite HS; ring].
Qed.

Lemma decode_cost m s ch i : shape bk ct infos m -> ct = CMax -> mip_sat m s = true -> agree infos s ch -> In i infos ->
  s (VC (i_idx i)) = cst i (ch (i_idx i)) /\ cst i (ch (i_idx i)) <= s VMax /\ 0 <= s VMax.
Proof.
  intros SH HM HS HA Hi. apply mip_sat_iff in HS. destruct HS as (HV & HR & _).
  pose proof (agree_costs _ _ _ _ HA (wfi i Hi) Hi) as E.
  assert (R1 : row_ok s (def_cost_row bk i) = true) by (apply HR, (sh_struct _ _ _ _ SH i _ Hi); right; right; auto).
  assert (R2 : row_ok s (set_max_row i) = true) by (apply HR, (sh_struct _ _ _ _ SH i _ Hi); right; right; auto).
  assert (C : s (VC (i_idx i)) = cst i (ch (i_idx i))).
  { destruct bk; apply row_ok_eq in R1; rewrite eval_cons in R1; [rewrite E in R1|rewrite eval_neg, E in R1]; qlra. }
  split; [exact C|]. apply row_ok_ge in R2. rewrite !eval_cons, eval_nil, C in R2. split; [qlra|].
  specialize (HV _ (sh_max _ _ _ _ SH HM)). unfold var_ok in HV. cbn in HV. rewrite andb_true_r in HV. now qbool.
Qed.
Lemma vmax_nonneg m s : shape bk ct infos m -> ct = CMax -> mip_sat m s = true -> 0 <= s VMax.
Proof.
  intros SH HM HS. apply mip_sat_iff in HS. destruct HS as (HV & _).
  specialize (HV _ (sh_max _ _ _ _ SH HM)). unfold var_ok in HV. cbn in HV. rewrite andb_true_r in HV. now qbool.
Qed.

(** What remains to be checked for a choice: the plain rows and the raised lower bounds. *)
Definition passes m (ch : choice) : Prop :=
  ch_ok infos ch /\
  (forall r, In r (m_rows m) -> plain_row infos r -> row_ok (assign infos ch) r = true) /\
  (forall i k b, In i infos -> (k < nopt i)%nat -> In (udecl i k b) (m_vars m) -> b <= hot (ch (i_idx i)) k).

Lemma hot_bit c k : bit (hot c k).
Proof. unfold hot. destruct (Nat.eqb k c); [now right|now left]. Qed.
Lemma filter_hot c n : length (filter (fun k => negb (hot c k =? 0)) (seq 0 n)) = if Nat.ltb c n then 1%nat else 0%nat.
Proof.
  assert (G : forall n st, length (filter (fun k => negb (hot c k =? 0)) (seq st n)) =
              if (Nat.leb st c && Nat.ltb c (st + n))%bool then 1%nat else 0%nat).
  { induction n0 as [|n0 IH]; intro st; cbn [seq filter].
    - cbn [seq map qsum]. destruct (Nat.leb_spec st c); destruct (Nat.ltb_spec c (st + 0)); cbn [andb]; try reflexivity; lia.
    - unfold hot at 1. destruct (Nat.eqb_spec st c) as [->|N].
      + change (negb (1 =? 0)) with true. cbn [length]. rewrite IH.
        replace (Nat.leb (S c) c) with false by (symmetry; apply Nat.leb_gt; lia).
        rewrite Nat.leb_refl. replace (Nat.ltb c (c + S n0)) with true by (symmetry; apply Nat.ltb_lt; lia). reflexivity.
      + change (negb (0 =? 0)) with false. cbn [length]. rewrite IH. replace (Nat.leb (S st) c) with (Nat.leb st c).
        2:{ destruct (Nat.leb_spec st c); destruct (Nat.leb_spec (S st) c); try reflexivity; lia. }
        now replace (st + S n0)%nat with (S st + n0)%nat by lia. }
  rewrite G. reflexivity.
Qed.

Lemma act_In i k : In i infos -> (k < nopt i)%nat -> In (act i k) (i_actions i).
Proof. intros Hi Hk. apply nth_In, Hk. Qed.
Lemma cst_nonneg i k : In i infos -> (k < nopt i)%nat -> 0 <= cst i k.
Proof.
  intros Hi Hk. pose proof (wfi i Hi) as Wi. destruct k as [|k]; [rewrite (wi_c0 _ Wi); apply Qcle_refl|].
  apply Qclt_le_weak, (wi_pos _ Wi). lia.
Qed.

Lemma encode m ch : shape bk ct infos m -> (mip_sat m (assign infos ch) = true /\ ch_ok infos ch <-> passes m ch).
Proof.
  intro SH. split.
  - intros [HS Hc]. apply mip_sat_iff in HS. destruct HS as (HV & HR & _). split; [exact Hc|]. split; [auto|].
    intros i k b Hi Hk Hd. specialize (HV _ Hd). unfold var_ok in HV. cbn in HV. rewrite !andb_true_iff in HV.
    destruct HV as [[_ HV] _]. now qbool.
  - intros (Hc & HR & HB). split; [|exact Hc]. apply mip_sat_iff.
    pose proof (assign_agree _ _ W Hc) as HA. repeat split.
    + intros d Hd. destruct (sh_vars _ _ _ _ SH d Hd) as [(i & Hi & ->)|[(i & k & b & Hi & Hk & ->)|(HM & [->|(i & Hi & ->)])]].
      * unfold var_ok. cbn [v_bin avar_decl v_lb v_var v_ub]. destruct (proj2 HA i Hi) as [-> _]. cbn [andb].
        pose proof (act_In i _ Hi (Hc i Hi)) as In1. apply andb_true_iff. split; qbool; [now apply lmin_le|now apply lmax_ge].
      * unfold var_ok. cbn [v_bin udecl v_lb v_var v_ub]. specialize (HB i k b Hi Hk Hd). cbn [assign].
        rewrite !andb_true_iff. unfold hot in *. destruct (Nat.eqb k _); repeat split; try reflexivity; qbool; exact HB.
      * unfold var_ok. cbn [v_bin cvar_decl v_lb v_var v_ub assign]. rewrite andb_true_r. cbn [andb]. qbool. apply (proj1 (qmaxl_ge _ _)).
      * unfold var_ok. cbn [v_bin cvar_decl v_lb v_var v_ub assign]. rewrite andb_true_r. cbn [andb]. qbool.
        rewrite (info_at_In _ _ (proj2 W) Hi). apply cst_nonneg; auto.
    + intros r Hr. destruct (sh_rows _ _ _ _ SH r Hr) as [P|(i & Hi & [->|[->|(HM & [->| ->])]])]; [auto|..].
      * apply (set_row_ok bk _ ch infos i HA (wfi i Hi) Hi).
      * apply row_ok_eq. eapply agree_pick; eauto.
      * pose proof (agree_costs _ _ _ _ HA (wfi i Hi) Hi) as E. destruct bk; apply row_ok_eq; rewrite eval_cons;
          [rewrite E|rewrite eval_neg, E]; cbn [assign]; rewrite (info_at_In _ _ (proj2 W) Hi); ring.
      * apply row_ok_ge. rewrite !eval_cons, eval_nil. cbn [assign]. rewrite (info_at_In _ _ (proj2 W) Hi).
        destruct (qmaxl_ge (chosen_costs infos ch) 0) as [_ G].
        specialize (G (cst i (ch (i_idx i)))). assert (cst i (ch (i_idx i)) <= qmaxl (chosen_costs infos ch) 0).
        { apply G. apply in_map_iff. eauto. } qlra.
    + intros l Hl. rewrite (sh_sos _ _ _ _ SH) in Hl. apply in_map_iff in Hl. destruct Hl as (i & <- & Hi).
      unfold sos_ok, uvars. fold (nopt i). replace (filter (fun v => negb (assign infos ch v =? 0)) (map (VU (i_idx i)) (seq 0 (nopt i))))
        with (map (VU (i_idx i)) (filter (fun k => negb (hot (ch (i_idx i)) k =? 0)) (seq 0 (nopt i)))).
      * rewrite map_length, filter_hot. destruct (Nat.ltb _ _); reflexivity.
      * generalize (seq 0 (nopt i)). intro q. induction q as [|k q IH]; [reflexivity|]. cbn [filter map assign].
        destruct (negb (hot (ch (i_idx i)) k =? 0)); cbn [map]; now rewrite IH.
Qed.

(** The objective of a choice. *)
Definition choice_cost (ch : choice) : Qc :=
  match ct with
  | CMax => qmaxl (chosen_costs infos ch) 0 + epsilon infos * qsum (chosen_costs infos ch)
  | _ => qsum (chosen_costs infos ch)
  end.
Lemma qsum_scale c l : qsum (map (fun v => c * v) l) = c * qsum l.
Proof. induction l as [|a l IH]; cbn; [ring|]. rewrite IH. ring. Qed.

Lemma objective_sum m s ch : shape bk ct infos m -> ct <> CMax -> agree infos s ch -> objective m s = qsum (chosen_costs infos ch).
Proof.
  intros SH HM HA. unfold objective. rewrite (sh_obj _ _ _ _ SH). unfold obj_of.
  assert (E : eval s (flat_map cost_terms infos) = qsum (chosen_costs infos ch)).
  { rewrite eval_flat_map. unfold chosen_costs. f_equal. apply map_ext_in. intros i Hi. apply (agree_costs infos s ch i HA (wfi i Hi) Hi). }
  destruct ct; [exact E|exact E|congruence].
Qed.
Lemma objective_max m s ch : shape bk ct infos m -> ct = CMax ->
  (forall i, In i infos -> s (VC (i_idx i)) = cst i (ch (i_idx i))) ->
  objective m s = s VMax + epsilon infos * qsum (chosen_costs infos ch).
Proof.
  intros SH HM HC. unfold objective. rewrite (sh_obj _ _ _ _ SH). rewrite HM at 1. cbn [obj_of]. rewrite eval_cons.
  rewrite eval_map_coef, map_map. unfold chosen_costs. rewrite <- qsum_scale, map_map.
  replace (map (fun x => epsilon infos * s (VC (i_idx x))) infos) with (map (fun x => epsilon infos * cst x (ch (i_idx x))) infos); [ring|].
  apply map_ext_in. intros i Hi. now rewrite HC.
Qed.
Lemma objective_assign m ch : shape bk ct infos m -> ch_ok infos ch -> objective m (assign infos ch) = choice_cost ch.
Proof.
  intros SH Hc. pose proof (assign_agree _ _ W Hc) as HA. unfold choice_cost.
  assert (D : ct = CMax \/ ct <> CMax) by (destruct ct; auto; right; congruence). destruct D as [HM|HM].
  - rewrite (objective_max m (assign infos ch) ch SH HM).
    + rewrite HM at 1. reflexivity.
    + intros i Hi. cbn. now rewrite (info_at_In _ _ (proj2 W) Hi).
  - rewrite (objective_sum m (assign infos ch) ch SH HM HA). destruct ct; congruence.
Qed.

Lemma decode m s : shape bk ct infos m -> mip_sat m s = true -> let ch := ch_of infos s in
  agree infos s ch /\ passes m ch /\ choice_cost ch <= objective m s /\ (ct <> CMax -> objective m s = choice_cost ch) /\
  (ct = CMax -> (forall i, In i infos -> s (VC (i_idx i)) = cst i (ch (i_idx i))) /\
                qmaxl (chosen_costs infos ch) 0 <= s VMax /\
                objective m s = s VMax + epsilon infos * qsum (chosen_costs infos ch)).
Proof.
  intros SH HS ch. pose proof (decode_agree m s SH HS) as HA. fold ch in HA.
  assert (HP : passes m ch).
  { pose proof HS as HS'. apply mip_sat_iff in HS'. destruct HS' as (HV & HR & _). split; [apply HA|]. split.
    - intros r Hr Hp. rewrite <- (plain_ext infos s _ ch r HA (assign_agree _ _ W (proj1 HA)) Hp). auto.
    - intros i k b Hi Hk Hd. specialize (HV _ Hd). unfold var_ok in HV. cbn in HV. rewrite !andb_true_iff in HV.
      destruct HV as [[_ HV] _]. qbool. destruct (proj2 HA i Hi) as [_ Hu]. now rewrite Hu in HV. }
  split; [exact HA|]. split; [exact HP|].
  assert (HMx : ct = CMax -> (forall i, In i infos -> s (VC (i_idx i)) = cst i (ch (i_idx i))) /\
                qmaxl (chosen_costs infos ch) 0 <= s VMax /\
                objective m s = s VMax + epsilon infos * qsum (chosen_costs infos ch)).
  { intro HM. assert (HC : forall i, In i infos -> s (VC (i_idx i)) = cst i (ch (i_idx i))).
    { intros i Hi. apply (decode_cost m s ch i SH HM HS HA Hi). }
    split; [exact HC|]. split; [|now apply objective_max].
    apply qmaxl_le; [eapply vmax_nonneg; eauto|]. intros v Hv. apply in_map_iff in Hv. destruct Hv as (i & <- & Hi).
    apply (decode_cost m s ch i SH HM HS HA Hi). }
  assert (D : ct = CMax \/ ct <> CMax) by (destruct ct; auto; right; congruence).
  assert (HT : ct <> CMax -> objective m s = choice_cost ch).
  { intro HM. rewrite (objective_sum m s ch SH HM HA). unfold choice_cost. destruct ct; congruence. }
  split; [|split; assumption]. destruct D as [HM|HM]; [|rewrite (HT HM); apply Qcle_refl].
  destruct (HMx HM) as (_ & Hle & ->). unfold choice_cost. rewrite HM at 1. qlra.
Qed.

(** ** Solver answers in terms of choices *)
Lemma optimal_choice m s g : shape bk ct infos m -> valid_outcome m (SOptimal s g) ->
  exists ch, agree infos s ch /\ passes m ch /\ (forall ch', passes m ch' -> choice_cost ch <= choice_cost ch') /\
    (ct <> CMax -> objective m s = qsum (chosen_costs infos ch)) /\
    (ct = CMax -> (forall i, In i infos -> s (VC (i_idx i)) = cst i (ch (i_idx i))) /\ s VMax = qmaxl (chosen_costs infos ch) 0).
Proof.
  intros SH [HS HO]. destruct (decode m s SH HS) as (HA & HP & Hle & HT & HM). exists (ch_of infos s).
  assert (HO' : forall ch', passes m ch' -> objective m s <= choice_cost ch').
  { intros ch' HP'. destruct (proj2 (encode m ch' SH) HP') as [Hsat Hc']. specialize (HO _ Hsat).
    now rewrite (objective_assign m ch' SH Hc') in HO. }
  split; [exact HA|]. split; [exact HP|]. split; [intros ch' HP'; specialize (HO' ch' HP'); qlra|].
  split; [intro N; rewrite (HT N); unfold choice_cost; destruct ct; congruence|].
  intro N. destruct (HM N) as (HC & HL & HE). split; [exact HC|]. specialize (HO' _ HP).
  unfold choice_cost in HO'. rewrite HE in HO'. rewrite N in HO' at 1. apply Qcle_antisym; [|exact HL]. qlra.
Qed.
Lemma feasible_choice m s : shape bk ct infos m -> mip_sat m s = true ->
  exists ch, agree infos s ch /\ passes m ch /\ (ct <> CMax -> objective m s = qsum (chosen_costs infos ch)) /\
    (ct = CMax -> (forall i, In i infos -> s (VC (i_idx i)) = cst i (ch (i_idx i))) /\ qmaxl (chosen_costs infos ch) 0 <= s VMax).
Proof.
  intros SH HS. destruct (decode m s SH HS) as (HA & HP & Hle & HT & HM). exists (ch_of infos s).
  split; [exact HA|]. split; [exact HP|]. split; [intro N; rewrite (HT N); unfold choice_cost; destruct ct; congruence|].
  intro N. destruct (HM N) as (HC & HL & _). auto.
Qed.
Lemma infeasible_choice m : shape bk ct infos m -> (forall s, mip_sat m s = false) -> forall ch, ~ passes m ch.
Proof. intros SH H ch HP. apply (encode m ch SH) in HP. destruct HP as [HP _]. rewrite H in HP. discriminate HP. Qed.
Lemma choice_infeasible m : shape bk ct infos m -> (forall ch, ~ passes m ch) -> forall s, mip_sat m s = false.
Proof.
  intros SH H s. apply not_true_is_false. intro HS. destruct (decode m s SH HS) as (_ & HP & _). eapply H, HP.
Qed.
Lemma choice_optimal m ch : shape bk ct infos m -> passes m ch -> (forall ch', passes m ch' -> choice_cost ch <= choice_cost ch') ->
  forall g, valid_outcome m (SOptimal (assign infos ch) g).
Proof.
  intros SH HP HO g. destruct (proj2 (encode m ch SH) HP) as [Hsat Hc]. split; [exact Hsat|].
  intros s' Hs'. rewrite (objective_assign m ch SH Hc). destruct (decode m s' SH Hs') as (_ & HP' & Hle & _).
  specialize (HO _ HP'). qlra.
Qed.
End Decode.
