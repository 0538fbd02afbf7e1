(** Proofs about the remaining CPLEX helper functions. *)
From Verif Require Import Proofs_num Proofs_cplex Spec_cplex2.
From Verif Require Import Proofs_registry.
#[local] Open Scope string_scope.
#[local] Open Scope list_scope.
#[local] Open Scope Qc_scope.

Lemma mem_in : forall p l, In p l -> smem p l = true.
Proof. intros. now apply smem_iff. Qed.
Lemma mem_out : forall p l, ~ In p l -> smem p l = false.
Proof. intros p l H. destruct (smem p l) eqn:E; [|reflexivity]. apply smem_iff in E. contradiction. Qed.

Lemma parameters_raise : forall L c, real_parameters L -> get_cpx_parameters L c = Err AttributeError.
Proof.
  intros L c (H1 & H2 & _ & H3 & _). unfold get_cpx_parameters, reading_table. cbn [mapM]. unfold read_entry, param_get. cbn [fst snd].
  rewrite (mem_in _ _ H1), (mem_in _ _ H2), (mem_out _ _ H3). reflexivity.
Qed.

Lemma leb_0 : forall f, fl_leb (Fin 0) f = true <-> f = PosInf \/ exists q, f = Fin q /\ 0 <= q.
Proof.
  intros [q| | |]; unfold fl_leb, fl_ltb, fl_eqb, fl_lt; (split; [intro H|intros [H|(r & H & HR)]; try discriminate H]); auto.
  - right. exists q. split; [reflexivity|]. apply orb_true_iff in H. destruct H as [H|H]; qbool; [now apply Qclt_le_weak|subst; apply Qcle_refl].
  - injection H as <-. apply orb_true_iff. destruct (Qcle_lt_or_eq _ _ HR) as [HL|HL]; [left|right]; qbool; auto.
  - discriminate H.
  - discriminate H.
Qed.

Lemma cutoff_spec : forall o i c, let b := fl_leb (Fin 0) o && fl_leb (Fin 0) i in
  (b = false -> set_mip_cutoff_values o i c = Err AssertionError) /\
  (b = true -> exists c', set_mip_cutoff_values o i c = Ok c' /\ c_streams c' = c_streams c /\ c_vars c' = c_vars c /\
     c_param c' "mip.tolerances.uppercutoff" = o /\ c_param c' "mip.tolerances.objdifference" = fl_scale (qfrac 95 100) i /\
     c_param c' "mip.tolerances.absmipgap" = fl_scale (qfrac 95 100) i /\
     forall p, ~ In p ["mip.tolerances.uppercutoff"; "mip.tolerances.objdifference"; "mip.tolerances.absmipgap"] -> c_param c' p = c_param c p).
Proof.
  intros o i c b. unfold set_mip_cutoff_values, b. destruct (fl_leb (Fin 0) o), (fl_leb (Fin 0) i); cbn [passert bind andb]; split; intro H; try discriminate H; try reflexivity.
  eexists. split; [reflexivity|]. repeat (split; [reflexivity|]). intros p HP. unfold c_set. cbn [c_param].
  destruct (String.eqb_spec "mip.tolerances.absmipgap" p) as [E|]; [exfalso; apply HP; rewrite <- E; cbn; tauto|].
  destruct (String.eqb_spec "mip.tolerances.objdifference" p) as [E|]; [exfalso; apply HP; rewrite <- E; cbn; tauto|].
  destruct (String.eqb_spec "mip.tolerances.uppercutoff" p) as [E|]; [exfalso; apply HP; rewrite <- E; cbn; tauto|reflexivity].
Qed.

Lemma cutoff_optimal : forall o i c c' (attains : Qc -> Prop), set_mip_cutoff_values o (Fin i) c = Ok c' ->
  (forall u v, attains u -> attains v -> u < v -> i <= v - u) ->
  (forall v, may_end_with c' attains v -> forall u, attains u -> v <= u) /\
  (may_end_without c' attains -> forall v, attains v -> ~ below o v).
Proof.
  intros o i c c' attains H HS. destruct (cutoff_spec o (Fin i) c) as (HF & HT).
  destruct (fl_leb (Fin 0) o && fl_leb (Fin 0) (Fin i)) eqn:E; [|rewrite (HF eq_refl) in H; discriminate H].
  destruct (HT eq_refl) as (c2 & H2 & _ & _ & HU & HO & HA & _). rewrite H in H2. injection H2 as <-.
  apply andb_true_iff in E. destruct E as (_ & E). apply leb_0 in E. destruct E as [E|(q & E & HQ)]; [discriminate E|]. injection E as <-.
  split.
  - intros v (HV & _ & HE) u HUu. apply Qcnot_lt_le. intro HL. specialize (HS _ _ HUu HV HL).
    assert (H95 : qfrac 95 100 * i <= i).
    { assert (Hc : qfrac 95 100 + qfrac 5 100 = 1) by (apply Qc_is_canon; reflexivity).
      assert (Hp : 0 <= qfrac 5 100) by (apply qle_iff; reflexivity).
      assert (HM : 0 <= qfrac 5 100 * i) by (now apply qmul_nonneg).
      replace i with (qfrac 95 100 * i + qfrac 5 100 * i) at 2 by (rewrite <- Qcmult_plus_distr_l, Hc; ring). qlra. }
    assert (HP : i = 0 \/ 0 < i). { destruct (Qcle_lt_or_eq _ _ HQ); auto. }
    destruct (HE u HUu HL) as [HC|HC]; rewrite ?HO, ?HA in HC; cbn in HC; [qlra|].
    destruct HP as [HP|HP]; [rewrite HP in HC|].
    + replace (qfrac 95 100 * 0) with 0 in HC by ring. qlra.
    + assert (H95' : qfrac 95 100 * i < i).
      { assert (Hc : qfrac 95 100 + qfrac 5 100 = 1) by (apply Qc_is_canon; reflexivity).
        assert (HM : 0 < qfrac 5 100 * i) by (apply qmul_pos; [apply qlt_iff; reflexivity|exact HP]).
        replace i with (qfrac 95 100 * i + qfrac 5 100 * i) at 2 by (rewrite <- Qcmult_plus_distr_l, Hc; ring). qlra. }
      qlra.
  - intros HN v HV. specialize (HN v HV). now rewrite HU in HN.
Qed.

(** Statistics *)
Lemma stats_spec : forall q i, get_stats_cpx q = Ok i ->
  (st_has_mipstats i = true ->
     q_status q = Ok (st_status i) /\ (exists k, q_code q = Ok k /\ st_code i = Some k) /\ q_iterations q = Ok (st_iterations i) /\
     q_processed q = Ok (st_processed i) /\ q_remaining q = Ok (st_remaining i)) /\
  (st_has_mipstats i = false ->
     (refused (q_status q) \/ refused (q_code q) \/ refused (q_iterations q) \/ refused (q_processed q) \/ refused (q_remaining q)) /\
     st_status i = "no solution exists" /\ st_code i = None /\ st_iterations i = 0%Z /\ st_processed i = 0%Z /\ st_remaining i = 0%Z) /\
  (st_has_solution i = true ->
     (exists v, q_values q = Ok v /\ st_values i = Some v) /\ q_objective q = Ok (st_objval i) /\ q_cutoff q = Ok (st_upper i) /\
     q_best q = Ok (st_lower i) /\ q_gap q = Ok (st_gap i)) /\
  (st_has_solution i = false ->
     (refused (q_values q) \/ refused (q_objective q) \/ refused (q_cutoff q) \/ refused (q_best q) \/ refused (q_gap q)) /\
     st_values i = None /\ st_objval i = NaN /\ st_upper i = NaN /\ st_lower i = NaN /\ st_gap i = NaN).
Proof.
  intros [s k n p r v o u l g] i H. unfold get_stats_cpx, progress_stats, solution_stats, initial_stats, refused in *. cbn [q_status q_code q_iterations q_processed q_remaining q_values q_objective q_cutoff q_best q_gap] in *.
  destruct s as [s|[]]; try discriminate H; [destruct k as [k|[]]; try discriminate H; [destruct n as [n|[]]; try discriminate H; [destruct p as [p|[]]; try discriminate H; [destruct r as [r|[]]; try discriminate H|]|]|]|];
  (destruct v as [v|[]]; try discriminate H; [destruct o as [o|[]]; try discriminate H; [destruct u as [u|[]]; try discriminate H; [destruct l as [l|[]]; try discriminate H; [destruct g as [g|[]]; try discriminate H|]|]|]|]);
  cbn in H; injection H as <-; cbn;
  (split; [intro; try discriminate; repeat split; eauto|split; [intro; try discriminate; repeat split; auto 8|split; [intro; try discriminate; repeat split; eauto|intro; try discriminate; repeat split; auto 8]]]).
Qed.
Lemma or_keep_ok : forall i r, answers_or_refuses r -> exists j, or_keep i r = Ok j.
Proof. intros i r [->|(a & ->)]; cbn; eauto. Qed.
Lemma bind_aor : forall A B (r : res A) (f : A -> res B), answers_or_refuses r -> (forall a, answers_or_refuses (f a)) -> answers_or_refuses (bind r f).
Proof. intros A B r f [->|(a & ->)] H; [now left|apply H]. Qed.
Lemma stats_total : forall q, answers_or_refuses (q_status q) -> answers_or_refuses (q_code q) -> answers_or_refuses (q_iterations q) ->
  answers_or_refuses (q_processed q) -> answers_or_refuses (q_remaining q) -> answers_or_refuses (q_values q) -> answers_or_refuses (q_objective q) ->
  answers_or_refuses (q_cutoff q) -> answers_or_refuses (q_best q) -> answers_or_refuses (q_gap q) -> exists i, get_stats_cpx q = Ok i.
Proof.
  intros. unfold get_stats_cpx.
  destruct (or_keep_ok initial_stats (progress_stats q initial_stats)) as (i & ->).
  { unfold progress_stats. repeat (apply bind_aor; [assumption|intro]). right; eauto. }
  cbn [bind]. apply or_keep_ok. unfold solution_stats. repeat (apply bind_aor; [assumption|intro]). right; eauto.
Qed.
Lemma stats_never : forall q, get_stats_cpx q <> Err CplexError.
Proof.
  intros q H. unfold get_stats_cpx in H. remember (progress_stats q initial_stats) as r eqn:E. clear E.
  destruct r as [i|[]]; cbn [or_keep bind] in H; try discriminate H; [remember (solution_stats q i) as r eqn:E|remember (solution_stats q initial_stats) as r eqn:E]; clear E; destruct r as [j|[]]; discriminate H.
Qed.

(** MIP starts *)
Lemma forallb_seq : forall n k m, forallb (fun i => Nat.ltb i m) (seq k n) = true <-> (n = 0 \/ k + n <= m)%nat.
Proof.
  induction n as [|n IH]; intros k m; cbn [seq forallb]; [split; auto|]. rewrite andb_true_iff, IH, Nat.ltb_lt. lia.
Qed.
Lemma start_spec : forall a x e n,
  ((length (vec_list x) <= sa_vars a)%nat -> exists s, add_mip_start_cpx a x e n = Ok {| sa_vars := sa_vars a; sa_list := sa_list a ++ [s] |} /\
     (forall j v, start_value s j v <-> nth_error (vec_list x) j = Some v) /\ ms_effort s = match e with Some k => k | None => 1%Z end /\ ms_name s = n) /\
  ((sa_vars a < length (vec_list x))%nat -> add_mip_start_cpx a x e n = Err CplexError).
Proof.
  intros a x e n. unfold add_mip_start_cpx, starts_add. cbn [ms_ind]. split; intro H.
  - rewrite (proj2 (forallb_seq _ _ _)) by lia. eexists. split; [reflexivity|]. cbn. split; [|auto].
    intros j v. unfold start_value. cbn [ms_ind ms_val]. split.
    + intros (k & HK & HV). assert (HL : (k < length (vec_list x))%nat) by (apply nth_error_Some; rewrite HV; discriminate).
      rewrite (nth_error_nth' _ 0%nat) in HK by (rewrite seq_length; exact HL). rewrite seq_nth in HK by exact HL. cbn in HK. injection HK as <-. exact HV.
    + intro HV. exists j. assert (HL : (j < length (vec_list x))%nat) by (apply nth_error_Some; rewrite HV; discriminate).
      split; [|exact HV]. rewrite (nth_error_nth' _ 0%nat) by (rewrite seq_length; exact HL). rewrite seq_nth by exact HL. reflexivity.
  - destruct (forallb _ _) eqn:E; [|reflexivity]. apply forallb_seq in E. lia.
Qed.
Lemma parameters_told : forall L c d, get_cpx_parameters L c = Ok d -> forall k p, In (k, p) told -> dget k d = Some (PFloat (c_param c p)).
Proof.
  intros L c d H. unfold get_cpx_parameters in H. assert (K : d = map (fun kp => (fst kp, if String.eqb (fst kp) "display_cplex_progress" then PBool (fl_ltb (Fin 0) (c_param c (snd kp))) else PFloat (c_param c (snd kp)))) reading_table).
  { revert d H. induction reading_table as [|kp l IH]; intros d H; cbn [mapM map] in *; [injection H as <-; reflexivity|]. unfold read_entry at 1, param_get in H. destruct (smem (snd kp) (cl_paths L)); [|discriminate H]. cbn [bind] in H.
    destruct (mapM (read_entry L c) l) as [d'|]; [|discriminate H]. cbn [bind] in H. injection H as <-. now rewrite (IH d' eq_refl). }
  subst d. intros k p Hk. repeat (destruct Hk as [Hk|Hk]; [injection Hk as <- <-; reflexivity|]). destruct Hk.
Qed.
Lemma parameters_display : forall L c d, get_cpx_parameters L c = Ok d -> dget "display_cplex_progress" d = Some (PBool (fl_ltb (Fin 0) (c_param c "mip.display"))).
Proof.
  intros L c d H. unfold get_cpx_parameters, reading_table in H. cbn [mapM] in H. unfold read_entry, param_get in H. cbn [fst snd] in H. destruct (smem "mip.display" (cl_paths L)); [|discriminate H]. cbn [bind] in H.
  match type of H with (let! _ := ?r in _) = _ => destruct r as [d'|] end; [|discriminate H]. cbn [bind] in H. injection H as <-. reflexivity.
Qed.
