(** C111 for tables that did not come from an audit as they are. *)
From Verif Require Import Spec_stats Proofs_num Proofs_report Proofs_audit Proofs_audit2 Proofs_audit3 Proofs_audit4 Proofs_concrete Proofs_scen Proofs_stats.
#[local] Open Scope list_scope.
#[local] Open Scope Qc_scope.

Lemma finite_collects l : collects (fun (c : fl) q => c = Fin q) l (finite_part l).
Proof.
  induction l as [|c l IH]; [constructor|]. unfold finite_part in *. cbn [flat_map]. destruct c as [q| | |]; cbn [app]; try (apply co_no; [intros b Q; discriminate Q|exact IH]). now apply co_yes.
Qed.
Section S.
Context {I R L : Type} (eqi : I -> I -> bool) (eql : L -> L -> bool) (set_of : list L -> list L).
Context (Hi : decides eqi) (Hl : decides eql) (Hs : ok_set set_of).
Lemma collect_any (a : list (I * audit_entry)) (y : list (I * L)) g : NoDup (map fst y) ->
  let rows := filter (recourse_row eql g) (map (fun r => (no_inf (fst r), snd r)) (flat_map (fun r => map (pair (snd r)) (label_in eqi y (fst r))) a)) in
  exists raw, collects (fun q c => In (fst q, g) y /\ snd q = Some (true, c)) a raw /\ length rows = length raw /\ finite_part (map row_cost rows) = finite_part raw.
Proof.
  intros HY. induction a as [|[i e] a IH]; [exists []; split; [constructor|split; reflexivity]|]. cbv zeta in *. destruct IH as (raw & IH1 & IH2 & IH3). cbn [flat_map fst snd]. rewrite map_app, filter_app, map_app. unfold finite_part in *. rewrite flat_map_app, !app_length.
  destruct (in_dec (fun i j => Bool.reflect_dec _ _ (Bool.iff_reflect _ _ (iff_sym (Hi i j)))) i (map fst y)) as [K|K].
  - apply in_map_iff in K. destruct K as ([i' h] & E & K). cbn in E. subst i'. rewrite (label_in_some eqi Hi _ _ _ HY K). cbn [map filter fst snd]. unfold recourse_row at 1 3. cbn [fst snd].
    destruct (eql h g) eqn:Eg.
    + apply Hl in Eg. subst h. destruct e as [[f c]|]; cbn [no_inf option_map fst snd andb].
      * destruct f; cbn [map app flat_map length row_cost fst snd].
        -- exists (c :: raw). split; [apply co_yes; [split; [exact K|reflexivity]|exact IH1]|]. split; [cbn; lia|]. cbn [flat_map]. rewrite IH3. destruct c; reflexivity.
        -- exists raw. split; [|split; [lia|exact IH3]]. apply co_no; [intros b [_ Q]; discriminate Q|exact IH1].
      * exists raw. split; [|split; [cbn; lia|exact IH3]]. apply co_no; [intros b [_ Q]; discriminate Q|exact IH1].
    + exists raw. split; [|split; [cbn; lia|exact IH3]]. apply co_no; [|exact IH1]. intros b [Q _]. cbn [fst] in Q. pose proof (fst_inj y _ _ HY Q K eq_refl) as Z. injection Z as <-. rewrite (proj2 (Hl g g) eq_refl) in Eg. discriminate Eg.
  - exists raw. rewrite (label_in_none eqi Hi _ _ K). cbn [map filter app flat_map length]. split; [|split; [lia|exact IH3]]. apply co_no; [|exact IH1]. intros b [Q _]. apply K. apply in_map_iff. exists (i, g). split; [reflexivity|exact Q].
Qed.
Lemma stats_any (X : list (I * R)) (a : list (I * audit_entry)) (labels : list (I * L)) : map fst a = map fst X -> NoDup (map fst X) -> NoDup (map fst labels) -> labels <> [] ->
  exists g texts raw costs t1 t2, full_report eqi eql set_of X a labels = (map Text texts ++ [CostTable t1; CountTable t2], Err NameError) /\ In g (map snd labels) /\
    (exists n1 n2 n3, texts = [LSize n1; LDesired g n2; LNoRecourse g n3]) /\
    collects (fun q c => In (fst q, g) labels /\ snd q = Some (true, c)) a raw /\ collects (fun c q => c = Fin q) raw costs /\
    ((raw = [] /\ t1 = None /\ t2 = None) \/
     (raw <> [] /\ t2 = Some (length raw) /\ exists mean median, t1 = Some (mean, median, length costs) /\
       ((costs = [] /\ mean = NaN /\ median = NaN) \/ exists m d, mean = Fin m /\ median = Fin d /\ average costs m /\ is_median costs d))).
Proof.
  intros HM HX HY HN. destruct (full_shape eqi eql set_of Hs X a labels HN) as (g & n1 & n2 & n3 & rows & H1 & _ & H3 & H4).
  assert (EMG : merged eqi a X labels = flat_map (fun r => map (pair (snd r)) (label_in eqi labels (fst r))) a) by (apply merged_rows; assumption).
  rewrite EMG in H3. destruct (collect_any a labels g HY) as (raw & C1 & C2 & C3). cbv zeta in *. rewrite <- H3 in C2, C3.
  exists g, [LSize n1; LDesired g n2; LNoRecourse g n3], raw, (finite_part raw), (cost_table rows), (count_table rows). split; [exact H4|]. split; [exact H1|]. split; [eauto|]. split; [exact C1|]. split; [apply finite_collects|].
  destruct rows as [|r0 rows]; [left; destruct raw; [auto|discriminate C2]|right]. split; [intros ->; discriminate C2|]. unfold cost_table, count_table. rewrite C2, C3. split; [reflexivity|].
  eexists _, _. split; [reflexivity|]. destruct (finite_part raw) as [|q l] eqn:E; [left; auto|right].
  destruct (average_ok (q :: l) ltac:(discriminate)) as (m & M1 & M2). destruct (median_ok (q :: l) ltac:(discriminate)) as (d & D1 & D2). exists m, d. auto.
Qed.
End S.
Definition rows_any : list (nat * audit_entry) := [(1%nat, Some (true, Fin (z 2))); (2%nat, Some (true, PosInf)); (3%nat, None); (4%nat, Some (true, Fin (z 4))); (5%nat, Some (false, PosInf))].
Definition X_any : list (nat * list Qc) := map (fun r => (fst r, [])) rows_any.
Definition labels_any : list (nat * Z) := map (fun r => (fst r, 1%Z)) rows_any.
Lemma stats_any_case : map fst rows_any = map fst X_any /\ NoDup (map fst X_any) /\ NoDup (map fst labels_any) /\ labels_any <> [] /\
  exists texts m d, full_report Nat.eqb Z.eqb first_one X_any rows_any labels_any = (map Text texts ++ [CostTable (Some (Fin m, Fin d, 2%nat)); CountTable (Some 3%nat)], Err NameError).
Proof.
  split; [reflexivity|]. split; [cbn; repeat constructor; cbn; intuition discriminate|]. split; [cbn; repeat constructor; cbn; intuition discriminate|]. split; [discriminate|].
  eexists [_; _; _], _, _. vm_compute. reflexivity.
Qed.
