(** Proofs for C111: the statistics of audit reports. *)
From Verif Require Import Spec_stats Proofs_num Proofs_report Proofs_audit Proofs_audit2 Proofs_audit3 Proofs_audit4 Proofs_concrete Proofs_scen.
#[local] Open Scope list_scope.
#[local] Open Scope Qc_scope.

Definition rising := StronglySorted Qcle.
Lemma insert_perm a l : Permutation (insert_q a l) (a :: l).
Proof. induction l as [|b l IH]; [reflexivity|]. cbn. destruct (a <=? b); [reflexivity|]. rewrite IH. apply perm_swap. Qed.
Lemma sort_perm l : Permutation (sort_q l) l.
Proof. induction l as [|a l IH]; [reflexivity|]. cbn. rewrite insert_perm. now constructor. Qed.
Lemma insert_rising a l : rising l -> rising (insert_q a l).
Proof.
  intro H. induction H as [|b l H IH HF]; [repeat constructor|]. cbn. destruct (qle_spec a b) as [L|L].
  - constructor; [now constructor|]. constructor; [exact L|]. rewrite Forall_forall in *. intros c Hc. eapply Qcle_trans; eauto.
  - constructor; [exact IH|]. rewrite Forall_forall in *. intros c Hc. rewrite insert_perm in Hc. destruct Hc as [<-|Hc]; [now apply Qclt_le_weak|auto].
Qed.
Lemma sort_rising l : rising (sort_q l).
Proof. induction l as [|a l IH]; [constructor|]. cbn. now apply insert_rising. Qed.
Lemma filter_perm {A} (p : A -> bool) l m : Permutation l m -> length (filter p l) = length (filter p m).
Proof. induction 1; cbn; [reflexivity|destruct (p x); cbn; lia|destruct (p x), (p y); reflexivity|lia]. Qed.
Lemma rising_nth s : rising s -> forall i j u v, nth_error s i = Some u -> nth_error s j = Some v -> (i <= j)%nat -> u <= v.
Proof.
  induction 1 as [|a s H IH HF]; intros i j u v Hi Hj L; [destruct i; discriminate Hi|]. rewrite Forall_forall in HF. destruct i as [|i], j as [|j]; cbn in Hi, Hj.
  - injection Hi as <-. injection Hj as <-. apply Qcle_refl.
  - injection Hi as <-. apply HF. eapply nth_error_In; eauto.
  - lia.
  - eapply IH; eauto. lia.
Qed.
Lemma below s m : rising s -> forall i u, nth_error s i = Some u -> u <= m -> (S i <= length (filter (fun v => (v <=? m)%Qc) s))%nat.
Proof.
  induction 1 as [|a s H IH HF]; intros i u Hi L; [destruct i; discriminate Hi|]. rewrite Forall_forall in HF. cbn [filter]. destruct i as [|i]; cbn in Hi.
  - injection Hi as <-. destruct (qle_spec a m) as [_|N]; [cbn; lia|]. exfalso. exact (Qclt_not_le _ _ N L).
  - specialize (IH i u Hi L). destruct (qle_spec a m) as [_|N]; [cbn; lia|]. exfalso. apply (Qclt_not_le _ _ N). eapply Qcle_trans; [apply HF; eapply nth_error_In; eauto|exact L].
Qed.
Lemma above s m : rising s -> forall i u, nth_error s i = Some u -> m <= u -> (length s - i <= length (filter (fun v => (m <=? v)%Qc) s))%nat.
Proof.
  induction 1 as [|a s H IH HF]; intros i u Hi L; [destruct i; discriminate Hi|]. rewrite Forall_forall in HF. cbn [filter length]. destruct i as [|i]; cbn in Hi.
  - injection Hi as <-. assert (Q : filter (fun v => (m <=? v)%Qc) s = s).
    { clear -HF L. induction s as [|b s IH]; [reflexivity|]. cbn. rewrite (proj2 (qle_iff m b)); [f_equal; apply IH; intros; apply HF; now right|]. eapply Qcle_trans; [exact L|apply HF; now left]. }
    rewrite (proj2 (qle_iff m a)) by exact L. rewrite Q. cbn. lia.
  - specialize (IH i u Hi L). destruct (qle_spec m a); cbn; lia.
Qed.
Lemma pick s i : (i < length s)%nat -> nth_error s i = Some (nth i s 0).
Proof. intro H. apply nth_error_nth'. exact H. Qed.
Lemma two_pos : 0 < qz 2. Proof. apply qlt_iff. reflexivity. Qed.
Lemma median_gen l i j : (i <= j)%nat -> (j <= S i)%nat -> (j < length l)%nat -> (length l <= 2 * S i)%nat -> (length l <= 2 * (length l - j))%nat -> forall m, nth i (sort_q l) 0 + nth j (sort_q l) 0 = qz 2 * m -> is_median l m.
Proof.
  intros H1 H2 H3 H4 H5 m Hm. set (s := sort_q l) in *. pose proof (sort_perm l) as P. pose proof (sort_rising l) as RS. fold s in P, RS. pose proof (Permutation_length P) as PL.
  assert (Hi : nth_error s i = Some (nth i s 0)) by (apply pick; lia). assert (Hj : nth_error s j = Some (nth j s 0)) by (apply pick; lia). set (u := nth i s 0) in *. set (v := nth j s 0) in *.
  pose proof (rising_nth s RS i j u v Hi Hj H1) as UV. pose proof two_pos.
  assert (M1 : u <= m). { apply (qmul_cancel_le _ _ (qz 2) two_pos). rewrite (Qcmult_comm m), <- Hm. replace (u * qz 2) with (u + u) by (change (qz 2) with (1 + 1); ring). apply qle_iff. qlra. }
  assert (M2 : m <= v). { apply (qmul_cancel_le _ _ (qz 2) two_pos). rewrite (Qcmult_comm m), <- Hm. replace (v * qz 2) with (v + v) by (change (qz 2) with (1 + 1); ring). apply qle_iff. qlra. }
  unfold is_median. rewrite <- !(filter_perm _ _ _ P). pose proof (below s m RS i u Hi M1). pose proof (above s m RS j v Hj M2). split; [lia|]. split; [lia|].
  exists u, v. split; [rewrite <- P; eapply nth_error_In; eauto|]. split; [rewrite <- P; eapply nth_error_In; eauto|]. split; [exact UV|]. split; [exact Hm|].
  intros q Hq. rewrite <- P in Hq. apply In_nth_error in Hq. destruct Hq as (n & Hn). destruct (Nat.le_gt_cases n i); [left|right]; [exact (rising_nth s RS n i q u Hn Hi ltac:(lia))|exact (rising_nth s RS j n v q Hj Hn ltac:(lia))].
Qed.
Lemma median_ok l : l <> [] -> exists m, series_median l = Fin m /\ is_median l m.
Proof.
  intro HN. assert (EM : series_median l = let s := sort_q l in let n := length l in if Nat.even n then Fin ((nth (n / 2 - 1) s 0 + nth (n / 2) s 0) / qz 2) else Fin (nth (n / 2) s 0)) by (destruct l; [congruence|reflexivity]). rewrite EM. clear EM. assert (L : (1 <= length l)%nat) by (destruct l; [congruence|cbn; lia]). pose proof (Nat.div_mod (length l) 2 ltac:(lia)) as D. pose proof (Nat.mod_upper_bound (length l) 2 ltac:(lia)) as B.
  cbv zeta. destruct (Nat.even (length l)) eqn:EV; eexists; (split; [reflexivity|]).
  - apply Nat.even_spec in EV. destruct EV as (h & EV). assert (length l / 2 = h)%nat as -> by (rewrite EV, Nat.mul_comm; apply Nat.div_mul; lia).
    apply (median_gen l (h - 1) h); try lia. rewrite Qcmult_comm. rewrite qdiv_mul; [reflexivity|]. intro Q. apply (f_equal this) in Q. discriminate Q.
  - assert (O : Nat.odd (length l) = true) by (unfold Nat.odd; now rewrite EV). apply Nat.odd_spec in O. destruct O as (h & O). assert (length l / 2 = h)%nat as -> by (rewrite O, Nat.mul_comm, Nat.div_add_l by lia; cbn; lia).
    apply (median_gen l h h); try lia. change (qz 2) with (1 + 1). ring.
Qed.
Lemma average_ok l : l <> [] -> exists m, series_mean l = Fin m /\ average l m.
Proof.
  intro H. unfold series_mean. destruct l as [|a l]; [congruence|]. eexists. split; [reflexivity|]. split; [discriminate|]. rewrite Qcmult_comm. apply qdiv_mul.
  intro Q. assert (K : 0 < qz (Z.of_nat (length (a :: l)))) by (change 0 with (qz 0); apply qz_lt; cbn [length]; lia). rewrite Q in K. discriminate K.
Qed.

Section S.
Context {I R L : Type} (eqi : I -> I -> bool) (eql : L -> L -> bool) (set_of : list L -> list L).
Context (Hi : decides eqi) (Hl : decides eql) (Hs : ok_set set_of).

Lemma collect_rows (a : list (I * audit_entry)) (y : list (I * L)) g : NoDup (map fst y) -> (forall i f c, In (i, Some (f, c)) a -> f = true -> exists q, c = Fin q) ->
  let rows := filter (recourse_row eql g) (map (fun r => (no_inf (fst r), snd r)) (flat_map (fun r => map (pair (snd r)) (label_in eqi y (fst r))) a)) in
  collects (fun q c => In (fst q, g) y /\ snd q = Some (true, Fin c)) a (finite_part (map row_cost rows)) /\ length rows = length (finite_part (map row_cost rows)).
Proof.
  intros HY. induction a as [|[i e] a IH]; intros HT; [split; [constructor|reflexivity]|]. cbv zeta. cbn [flat_map fst snd]. rewrite map_app, filter_app, map_app. unfold finite_part in *. rewrite flat_map_app, !app_length.
  assert (HT' : forall i f c, In (i, Some (f, c)) a -> f = true -> exists q, c = Fin q) by (intros; eapply HT; [right|]; eassumption). destruct (IH HT') as [IH1 IH2]. clear IH. rewrite <- IH2.
  destruct (in_dec (fun i j => Bool.reflect_dec _ _ (Bool.iff_reflect _ _ (iff_sym (Hi i j)))) i (map fst y)) as [K|K].
  - apply in_map_iff in K. destruct K as ([i' h] & E & K). cbn in E. subst i'. rewrite (label_in_some eqi Hi _ _ _ HY K). cbn [map filter fst snd]. unfold recourse_row at 1 3 5. cbn [fst snd].
    destruct (eql h g) eqn:Eg.
    + apply Hl in Eg. subst h. destruct e as [[f c]|]; cbn [no_inf option_map fst snd andb].
      * destruct f; cbn [map app flat_map length row_cost fst snd].
        -- destruct (HT i true c (or_introl eq_refl) eq_refl) as (q & ->). cbn [map app flat_map length row_cost fst snd]. split; [|lia]. constructor; [split; [exact K|reflexivity]|exact IH1].
        -- split; [|lia]. apply co_no; [intros b [_ Q]; discriminate Q|exact IH1].
      * cbn [map app flat_map length]. split; [|lia]. apply co_no; [intros b [_ Q]; discriminate Q|exact IH1].
    + cbn [andb map app flat_map length]. split; [|lia]. apply co_no; [|exact IH1]. intros b [Q _]. cbn [fst] in Q. pose proof (fst_inj y _ _ HY Q K eq_refl) as Z. injection Z as <-. rewrite (proj2 (Hl g g) eq_refl) in Eg. discriminate Eg.
  - rewrite (label_in_none eqi Hi _ _ K). cbn [map filter app flat_map length]. split; [|lia]. apply co_no; [|exact IH1]. intros b [Q _]. apply K. apply in_map_iff. exists (i, g). split; [reflexivity|exact Q].
Qed.
(** The text of the report is that of [report]; the tables follow. *)
Lemma full_shape (X : list (I * R)) a y : y <> [] -> exists g n1 n2 n3 rows, In g (map snd y) /\ report eqi eql set_of X a y = ([LSize n1; LDesired g n2; LNoRecourse g n3], Err NameError) /\
  rows = filter (recourse_row eql g) (map (fun r => (no_inf (fst r), snd r)) (merged eqi a X y)) /\
  full_report eqi eql set_of X a y = ([Text (LSize n1); Text (LDesired g n2); Text (LNoRecourse g n3); CostTable (cost_table rows); CountTable (count_table rows)], Err NameError).
Proof.
  intro Hy. unfold report, full_report. cbv zeta. destruct (set_of (map snd y)) as [|g gs] eqn:E.
  - exfalso. destruct y as [|p y]; [congruence|]. destruct (Hs (map snd (p :: y))) as [_ K]. specialize (K (snd p)). rewrite E in K. apply K. now left.
  - exists g. do 4 eexists. split; [apply (Hs (map snd y)); rewrite E; now left|]. split; [reflexivity|]. split; reflexivity.
Qed.
End S.

Lemma loop_fin E sv l : forall b b' out, audit_loop E sv b l = (b', Ok out) -> forall i f c, In (i, (f, c)) out -> f = true -> exists q, c = Fin q.
Proof.
  induction l as [|[i u] l IH]; intros b b' out H; cbn [audit_loop] in H.
  - apply pair_equal_spec in H. destruct H as [_ H]. injection H as <-. intros ? ? ? [].
  - destruct (set_x E b u) as [b1 [?|?]]; [|apply pair_equal_spec in H; destruct H as [_ H]; discriminate H].
    destruct (fit sv b1) as [[b2 s]|]; [|apply pair_equal_spec in H; destruct H as [_ H]; discriminate H].
    destruct (audit_loop E sv b2 l) as [b3 [o|]] eqn:EL; [|apply pair_equal_spec in H; destruct H as [_ H]; discriminate H].
    apply pair_equal_spec in H. destruct H as [_ H]. injection H as <-. intros j f c [HI|HI] Hf; [|eapply IH; eauto].
    apply pair_equal_spec in HI. destruct HI as [_ HI]. subst f. destruct s; cbn in HI; [|discriminate HI]. injection HI as <-. eauto.
Qed.
Lemma audit_fin {I} E sv b (X : list (I * list fl)) y b' out : audit E sv b X y = (b', Ok out) -> forall i f c, In (i, Some (f, c)) out -> f = true -> exists q, c = Fin q.
Proof.
  unfold audit. intro H. match type of H with (match ?pre with _ => _ end) = _ => destruct pre as [rows|e] end; [|apply pair_equal_spec in H; destruct H as [_ H]; discriminate H].
  cbv zeta in H. match type of H with (match ?l with _ => _ end) = _ => destruct l as [b1 [o|e]] eqn:EL end; [|apply pair_equal_spec in H; destruct H as [_ H]; discriminate H].
  destruct o as [|o1 o]; [apply pair_equal_spec in H; destruct H as [_ H]; discriminate H|]. apply pair_equal_spec in H. destruct H as [_ H]. injection H as <-.
  intros i f c HI Hf. apply in_combine_r in HI. apply in_map_iff in HI. destruct HI as (r & Q & _). apply (Proofs_report.lookup_In _ (o1 :: o)) in Q. eapply loop_fin; eauto.
Qed.
Lemma stats_audit {I L} (eqi : I -> I -> bool) (eql : L -> L -> bool) set_of E sv k A w t b (X : list (I * list Qc)) y b' out (labels : list (I * L)) :
  decides eqi -> decides eql -> ok_set set_of -> auditor_reachable E sv k A w t b -> audit E sv b (table_of X) y = (b', Ok out) ->
  NoDup (map fst X) -> NoDup (map fst labels) -> labels <> [] ->
  exists g texts costs t1 t2, full_report eqi eql set_of X out labels = (map Text texts ++ [CostTable t1; CountTable t2], Err NameError) /\
    fst (report eqi eql set_of X out labels) = texts /\ In g (map snd labels) /\ (exists n1 n2 n3, texts = [LSize n1; LDesired g n2; LNoRecourse g n3]) /\
    collects (fun q c => In (fst q, g) labels /\ snd q = Some (true, Fin c)) out costs /\
    ((costs = [] /\ t1 = None /\ t2 = None) \/
     exists mean median, t1 = Some (Fin mean, Fin median, length costs) /\ t2 = Some (length costs) /\ average costs mean /\ is_median costs median).
Proof.
  intros Hi Hl Hs HR HA HX HY HN. destruct (full_shape eqi eql set_of Hs X out labels HN) as (g & n1 & n2 & n3 & rows & HG & H1 & HRw & H2).
  assert (HE : map fst out = map fst X). { pose proof (c50 _ _ _ _ _ _ _ _ _ _ _ HR HA) as HF. clear - HF. induction HF as [|p q X a H1 _ IH]; [reflexivity|]. cbn [map]. f_equal; [exact (proj1 H1)|exact IH]. }
  rewrite (merged_rows eqi Hi out X labels HX HE) in HRw.
  destruct (collect_rows eqi eql Hi Hl out labels g HY (audit_fin _ _ _ _ _ _ _ HA)) as [C1 C2]. rewrite <- HRw in C1, C2.
  exists g, [LSize n1; LDesired g n2; LNoRecourse g n3], (finite_part (map row_cost rows)), (cost_table rows), (count_table rows). split; [exact H2|]. split; [now rewrite H1|]. split; [exact HG|]. split; [eauto|]. split; [exact C1|].
  destruct rows as [|r rows]; [left; repeat split|right]. cbn [cost_table count_table]. set (cs := finite_part (map row_cost (r :: rows))) in *.
  assert (NC : cs <> []) by (intro Q; rewrite Q in C2; discriminate C2). destruct (average_ok cs NC) as (m1 & M1 & M2). destruct (median_ok cs NC) as (m2 & M3 & M4). exists m1, m2. rewrite M1, M3, C2. repeat split; try reflexivity; try exact NC; [exact (proj2 M2)|apply M4|apply M4|apply M4].
Qed.
(** The report of [X_case] has a line of statistics about two people if the group shown first is 1. *)
Definition first_one (l : list Z) : list Z := let d := nodup Z.eq_dec l in if in_dec Z.eq_dec 1%Z d then 1%Z :: remove Z.eq_dec 1%Z d else d.
Lemma first_one_ok : ok_set first_one.
Proof.
  intro l. unfold first_one. pose proof (NoDup_nodup Z.eq_dec l) as N. assert (M : forall a, In a (nodup Z.eq_dec l) <-> In a l) by (intro; apply nodup_In). destruct (in_dec Z.eq_dec 1%Z (nodup Z.eq_dec l)) as [H|H]; [|split; [exact N|exact M]]. split.
  - constructor; [apply remove_In|]. clear -N. induction N as [|a l0 Ha N IH]; [constructor|]. cbn [remove]. destruct (Z.eq_dec 1 a); [exact IH|]. constructor; [|exact IH]. intro K. apply in_remove in K. tauto.
  - intro a. rewrite <- M. split.
    + intros [<-|K]; [exact H|]. apply in_remove in K. tauto.
    + intro K. destruct (Z.eq_dec a 1%Z) as [->|Ne]; [now left|right]. now apply in_in_remove.
Qed.
Lemma stats_case : exists A b, aset_reachable env0 A /\ auditor_created env0 PyMIP A [z 1; z 1] (- z 3) b /\ NoDup (map fst X_case) /\ NoDup (map fst labels56) /\
  forall sv, sound_solver sv -> finishing_solver sv -> exists b' out v m, audit env0 sv b (table_of X_case) 1 = (b', Ok out) /\ collects (fun q c => In (fst q, 1%Z) labels56 /\ snd q = Some (true, Fin c)) out [v; v] /\
    full_report Nat.eqb Z.eqb first_one X_case out labels56 = ([Text (LSize 3); Text (LDesired 1%Z 0); Text (LNoRecourse 1%Z 0); CostTable (Some (Fin m, Fin m, 2%nat)); CountTable (Some 2%nat)], Err NameError).
Proof.
  destruct (audit_case (- z 3) true) as (A & b & HA & HC & _ & _ & _ & _ & _ & H); [left; auto|]. exists A, b. split; [exact HA|]. split; [exact HC|]. split; [cbn; repeat constructor; cbn; intuition discriminate|]. split; [cbn; repeat constructor; cbn; intuition discriminate|].
  intros sv H1 H2. destruct (H sv H1 H2) as (b' & v & HB). destruct (audit_fin _ _ _ _ _ _ _ HB 5%nat true v ltac:(now left) eq_refl) as (q & ->).
  exists b'. eexists. exists q, q. split; [exact HB|]. split.
  - apply co_yes; [split; [now left|reflexivity]|]. apply co_no; [intros c [_ Q]; discriminate Q|]. apply co_yes; [split; [do 2 right; now left|reflexivity]|]. constructor.
  - assert (S2 : (q + (q + 0)) / qz 2 = q). { apply (qmul_cancel _ _ (qz 2)); [intro Q; apply (f_equal this) in Q; discriminate Q|]. rewrite qdiv_mul; [change (qz 2) with (1 + 1); ring|intro Q; apply (f_equal this) in Q; discriminate Q]. }
    assert (S3 : (q + q) / qz 2 = q) by (rewrite <- S2 at 3; f_equal; ring).
    assert (M1 : series_mean [q; q] = Fin q). { unfold series_mean. cbn [qsum fold_right length]. change (Z.of_nat 2) with 2%Z. f_equal. rewrite <- S2 at 3. f_equal; ring. }
    assert (M2 : series_median [q; q] = Fin q). { unfold series_median. assert (SQ : sort_q [q; q] = [q; q]) by (cbn; destruct (q <=? q); reflexivity). rewrite SQ. cbn [length Nat.even nth Nat.div fst Nat.divmod Nat.sub]. now rewrite S3. }
    unfold full_report. cbv zeta. change (first_one (map snd labels56)) with [1%Z; (-1)%Z].
    change (map (fun r => (no_inf (fst r), snd r)) (merged Nat.eqb _ X_case labels56)) with [(Some (true, Fin q), 1%Z); (None, (-1)%Z); (Some (true, Fin q), 1%Z)].
    cbn [full_groups full_group print_group map app length filter desired_row no_recourse_row recourse_row fst snd Z.eqb andb Pos.eqb negb cost_table count_table row_cost finite_part flat_map]. 
    unfold full_group, print_group. cbn. rewrite S2. destruct (q <=? q); cbn [nth]; rewrite S3; reflexivity.
Qed.
