(** Proofs about the CPLEX helper functions. *)
From Verif Require Import Proofs_num Proofs_props_actionset Spec_cplex.
#[local] Open Scope string_scope.
#[local] Open Scope list_scope.
#[local] Open Scope Qc_scope.

Lemma c_set_same p v c : c_param (c_set p v c) p = v.
Proof. cbn. now rewrite String.eqb_refl. Qed.
Lemma c_set_other p q v c : p <> q -> c_param (c_set p v c) q = c_param c q.
Proof. intro H. cbn. now rewrite (proj2 (String.eqb_neq p q) H). Qed.
Lemma fl_eqb_ok a b : fl_eqb a b = true -> a = b.
Proof. destruct a, b; cbn; intro H; try discriminate H; try reflexivity. qbool. now f_equal. Qed.

(** ** Copies *)
Lemma copy_fold c : forall l d p, (forall q, In q l -> True) -> c_param (fold_left (fun d pv => c_set (fst pv) (snd pv) d) (map (fun q => (q, c_param c q)) l) d) p =
  if smem p l then c_param c p else c_param d p.
Proof.
  induction l as [|q l IH]; intros d p _; [reflexivity|]. cbn [map fold_left fst snd]. rewrite IH by auto. cbn [smem existsb]. unfold smem in *.
  destruct (existsb (String.eqb p) l) eqn:E; [now rewrite orb_true_r|]. rewrite orb_false_r. cbn. rewrite String.eqb_sym. destruct (String.eqb_spec p q) as [->|]; reflexivity.
Qed.
Lemma c81_copy L c p : In p (cl_paths L) -> c_param (copy_cplex L c) p = c_param c p.
Proof.
  intro H. unfold copy_cplex, get_changed. rewrite copy_fold by auto. destruct (smem p _) eqn:E; [reflexivity|]. cbn [copy_problem c_param].
  destruct (fl_eqb (c_param c p) (cl_default L p)) eqn:F; [now rewrite (fl_eqb_ok _ _ F)|]. exfalso. enough (K : smem p (filter (fun p => negb (fl_eqb (c_param c p) (cl_default L p))) (cl_paths L)) = true) by congruence.
  apply smem_iff, filter_In. split; [exact H|]. now rewrite F.
Qed.
Lemma copy_vars L c : c_vars (copy_cplex L c) = c_vars c.
Proof.
  unfold copy_cplex. assert (G : forall l d, c_vars (fold_left (fun d pv => c_set (fst pv) (snd pv) d) l d) = c_vars d) by (induction l as [|q l IH]; intro d; cbn; [reflexivity|now rewrite IH]).
  now rewrite G.
Qed.
Lemma copy_streams L c : c_streams (copy_cplex L c) = true.
Proof.
  unfold copy_cplex. assert (G : forall l d, c_streams (fold_left (fun d pv => c_set (fst pv) (snd pv) d) l d) = c_streams d) by (induction l as [|q l IH]; intro d; cbn; [reflexivity|now rewrite IH]).
  now rewrite G.
Qed.

(** ** Preprocessing *)
Lemma toggle_spec L b c p : c_param (toggle_cpx_preprocessing L b c) p =
  if smem p preprocessing_parameters then (if b then cl_default L p else Fin 0) else c_param c p.
Proof.
  unfold toggle_cpx_preprocessing. generalize preprocessing_parameters. intro l. revert c. induction l as [|q l IH]; intro c; [reflexivity|]. cbn [fold_left]. rewrite IH. unfold smem. cbn [existsb].
  destruct (existsb (String.eqb p) l) eqn:E; [now rewrite orb_true_r|]. rewrite orb_false_r. destruct b; cbn; rewrite (String.eqb_sym q p); destruct (String.eqb_spec p q) as [->|]; reflexivity.
Qed.
Lemma toggle_rest L b c : c_vars (toggle_cpx_preprocessing L b c) = c_vars c /\ c_streams (toggle_cpx_preprocessing L b c) = c_streams c.
Proof. destruct b; split; reflexivity. Qed.

(** ** Display *)
Lemma display_param b1 b2 b3 c p : p <> "mip.display" -> p <> "simplex.display" -> p <> "paramdisplay" -> c_param (set_cpx_display_options b1 b2 b3 c) p = c_param c p.
Proof.
  intros H1 H2 H3. unfold set_cpx_display_options. destruct (b1 || b3); cbn [c_param c_close]; rewrite !c_set_other by congruence; reflexivity.
Qed.
Lemma display_shown b1 b2 b3 c : c_param (set_cpx_display_options b1 b2 b3 c) "mip.display" = flag b1.
Proof. unfold set_cpx_display_options. destruct (b1 || b3); reflexivity. Qed.
Lemma display_streams b1 b2 b3 c : c_streams (set_cpx_display_options b1 b2 b3 c) = (b1 || b3) && c_streams c.
Proof. unfold set_cpx_display_options. destruct (b1 || b3); reflexivity. Qed.

(** ** Limits *)
Lemma time_spec L v c c' : set_cpx_time_limit L v c = Ok c' -> exists t, c' = c_set "timelimit" t c /\
  t = match v with None => cl_max L "timelimit" | Some f => if fl_ltb (cl_max L "timelimit") f then cl_max L "timelimit" else f end.
Proof. unfold set_cpx_time_limit. intro H. bnd H as u Hu. injection H as <-. eauto. Qed.
Lemma node_spec L v c c' : set_cpx_node_limit L v c = Ok c' -> exists t, c' = c_set "mip.limits.nodes" t c /\
  match v with None | Some PosInf => t = cl_max L "mip.limits.nodes"
             | Some (Fin q) => t = if fl_ltb (cl_max L "mip.limits.nodes") (Fin (qz (qtrunc q))) then cl_max L "mip.limits.nodes" else Fin (qz (qtrunc q))
             | _ => False end.
Proof.
  unfold set_cpx_node_limit. intro H. bnd H as t Ht. bnd H as u Hu. injection H as <-. exists t. split; [reflexivity|]. destruct v as [[q| | |]|]; try discriminate Ht; injection Ht as <-; reflexivity.
Qed.
Definition limit_paths : list string := ["mip.display"; "simplex.display"; "paramdisplay"; "timelimit"; "mip.limits.nodes"].
Lemma call_param L t n d c c' p : cplex_of_call L t n d c = Ok c' -> ~ In p limit_paths -> c_param c' p = c_param c p.
Proof.
  unfold cplex_of_call, limit_paths. intros H HN. bnd H as c2 H2. apply time_spec in H2. destruct H2 as (u & -> & _). apply node_spec in H. destruct H as (v & -> & _).
  cbn [In] in HN. rewrite !c_set_other by (intro; subst; apply HN; auto 10). apply display_param; intro; subst; apply HN; auto 10.
Qed.
Lemma call_display L t n d c c' : cplex_of_call L t n d c = Ok c' -> c_streams c' = d && c_streams c /\ c_param c' "mip.display" = flag d.
Proof.
  unfold cplex_of_call. intros H. bnd H as c2 H2. apply time_spec in H2. destruct H2 as (u & -> & _). apply node_spec in H. destruct H as (v & -> & _).
  split; [cbn [c_set c_streams]; rewrite display_streams; destruct d; reflexivity|]. rewrite !c_set_other by discriminate. apply display_shown.
Qed.
Lemma calls_param L l : forall c c' p, after_calls L l c = Ok c' -> ~ In p limit_paths -> c_param c' p = c_param c p.
Proof.
  induction l as [|a l IH]; intros c c' p H HN; cbn in H; [congruence|]. bnd H as c1 H1. rewrite (IH _ _ _ H HN). eapply call_param; eauto.
Qed.
Lemma calls_streams L l : forall c c', after_calls L l c = Ok c' -> c_streams c' = forallb ca_display l && c_streams c.
Proof.
  induction l as [|a l IH]; intros c c' H; cbn in H; [injection H as <-; reflexivity|]. bnd H as c1 H1. rewrite (IH _ _ H). apply call_display in H1. destruct H1 as [-> _]. cbn. destruct (ca_display a), (forallb ca_display l); reflexivity.
Qed.
Lemma calls_snoc L l a c : after_calls L (l ++ [a]) c = let! c1 := after_calls L l c in cplex_of_call L (ca_time a) (ca_node a) (ca_display a) c1.
Proof.
  revert c. induction l as [|b l IH]; intro c; cbn.
  - destruct (cplex_of_call _ _ _ _ _); reflexivity.
  - destruct (cplex_of_call L (ca_time b) (ca_node b) (ca_display b) c); cbn; [apply IH|reflexivity].
Qed.

(** ** Parameters *)
Lemma set_all_param param : forall l c c' p, set_all param l c = Ok c' ->
  (forall s, In (p, s) l -> False) -> c_param c' p = c_param c p.
Proof.
  induction l as [|[q s] l IH]; intros c c' p H HN; cbn in H; [congruence|]. bnd H as c1 H1. rewrite (IH _ _ _ H) by (intros s' Hs; eapply HN; right; exact Hs).
  assert (q <> p) by (intros ->; eapply HN; left; reflexivity). unfold set_one in H1. cbn [fst snd] in H1. destruct s; [bnd H1 as v Hv|]; injection H1 as <-; now rewrite c_set_other.
Qed.
Lemma set_all_other param : forall l c c', set_all param l c = Ok c' -> c_streams c' = c_streams c /\ c_vars c' = c_vars c.
Proof.
  induction l as [|[q s] l IH]; intros c c' H; cbn in H; [injection H as <-; auto|]. bnd H as c1 H1. destruct (IH _ _ H) as [-> ->]. unfold set_one in H1. cbn [fst snd] in H1. destruct s; [bnd H1 as v Hv|]; injection H1 as <-; auto.
Qed.
Lemma set_all_in param : forall l c c' p s, set_all param l c = Ok c' -> NoDup (map fst l) -> In (p, s) l ->
  match s with FromKey k => fetch param k = Ok (c_param c' p) | Constant v => c_param c' p = v end.
Proof.
  induction l as [|[q r] l IH]; intros c c' p s H HD HI; [destruct HI|]. cbn in H. bnd H as c1 H1. inversion HD as [|? ? HD1 HD2]. subst. destruct HI as [HI|HI]; [|eapply IH; eauto].
  injection HI as -> ->. rewrite (set_all_param _ _ _ _ _ H) by (intros s' Hs; apply HD1; apply (in_map fst) in Hs; exact Hs).
  unfold set_one in H1. cbn [fst snd] in H1. destruct s; [bnd H1 as v Hv|]; injection H1 as <-; rewrite c_set_same; auto.
Qed.
Lemma table_nodup : NoDup (map fst parameter_table).
Proof. cbn. repeat (constructor; [cbn; intuition discriminate|]). constructor. Qed.
Lemma effective_table k p : In (k, p) effective -> In (p, FromKey k) parameter_table.
Proof. unfold effective. cbn [In]. intro H. repeat (destruct H as [H|H]; [injection H as <- <-; cbn; tauto|]). destruct H. Qed.
Lemma parameters_split L param c c' : set_cpx_parameters L param c = Ok c' -> exists d c1 t n, dget "display_cplex_progress" param = Some d /\
  set_all param parameter_table (match d with PBool false => set_cpx_display_options false false false c | _ => c end) = Ok c1 /\
  fetch param "time_limit" = Ok t /\ fetch param "node_limit" = Ok n /\ c_streams c' = c_streams c1 /\ c_vars c' = c_vars c1 /\
  forall p, p <> "timelimit" -> p <> "mip.limits.nodes" -> c_param c' p = c_param c1 p.
Proof.
  unfold set_cpx_parameters. intro H. bnd H as d Hd. bnd H as c1 H1. bnd H as t Ht. bnd H as c2 H2. bnd H as n Hn. exists d, c1, t, n.
  split; [destruct (dget _ param); [now injection Hd as ->|discriminate Hd]|]. split; [exact H1|]. split; [exact Ht|]. split; [exact Hn|].
  assert (G2 : c2 = c1 \/ exists u, c2 = c_set "timelimit" u c1). { destruct (fl_ltb t _); [right; apply time_spec in H2; destruct H2 as (u & -> & _); eauto|left; congruence]. }
  assert (G3 : c' = c2 \/ exists u, c' = c_set "mip.limits.nodes" u c2). { destruct (fl_ltb n _); [right; apply node_spec in H; destruct H as (u & -> & _); eauto|left; congruence]. }
  destruct G2 as [->|(u & ->)], G3 as [->|(v & ->)]; (split; [reflexivity|]; split; [reflexivity|]; intros p N1 N2; rewrite ?c_set_other by congruence; reflexivity).
Qed.
Lemma builder_param L p c0 : cplex_of_builder L (Some p) = Ok c0 ->
  (forall k q f, In (k, q) effective -> entry p k f -> c_param c0 q = f) /\
  (forall k q, In (k, q) ineffective -> c_param c0 q = cl_default L q) /\
  (c_streams c0 = true <-> dget "display_cplex_progress" p <> Some (PBool false)).
Proof.
  unfold cplex_of_builder. intro H. apply parameters_split in H. destruct H as (d & c1 & t & n & Hd & H1 & _ & _ & Hs & _ & HP). split; [|split].
  - intros k q f Hin (v & Hv & Hf). pose proof (effective_table _ _ Hin) as HT. pose proof (set_all_in _ _ _ _ _ _ H1 table_nodup HT) as HF. cbn in HF. unfold fetch in HF. rewrite Hv, Hf in HF. cbn in HF. injection HF as HF.
    rewrite HP; [auto| |]; intro Q; subst q; unfold effective in Hin; cbn [In] in Hin; repeat (destruct Hin as [Hin|Hin]; [discriminate Hin|]); destruct Hin.
  - intros k q Hin. assert (G : q <> "timelimit" /\ q <> "mip.limits.nodes" /\ (forall s, ~ In (q, s) parameter_table) /\ q <> "mip.display" /\ q <> "simplex.display" /\ q <> "paramdisplay").
    { unfold ineffective in Hin. cbn [In] in Hin. repeat (destruct Hin as [Hin|Hin]; [injection Hin as <- <-; repeat split; try discriminate; intros s Q; cbn in Q; repeat (destruct Q as [Q|Q]; [discriminate Q|]); exact Q|]). destruct Hin. }
    destruct G as (G1 & G2 & G3 & G4 & G5 & G6). rewrite HP by assumption. rewrite (set_all_param _ _ _ _ _ H1) by (intros s Q; exact (G3 s Q)).
    destruct d as [|[]| | | | | | | |]; try reflexivity. now rewrite display_param.
  - rewrite Hs. destruct (set_all_other _ _ _ _ H1) as [-> _]. rewrite Hd. destruct d as [|[]| | | | | | | |]; cbn; split; intro Q; try discriminate; try reflexivity; congruence.
Qed.

Lemma c79_display L p l a c : solves_with L (Some p) (l ++ [a]) c ->
  shows_progress c = true <-> ca_display a = true /\ dget "display_cplex_progress" p <> Some (PBool false) /\ Forall (fun a => ca_display a = true) l.
Proof.
  intros (_ & c0 & HB & HC). destruct (builder_param _ _ _ HB) as (_ & _ & HS). pose proof (calls_streams _ _ _ _ HC) as HT. rewrite calls_snoc in HC. bnd HC as c1 H1. apply call_display in HC. destruct HC as [_ HD].
  unfold shows_progress. rewrite HD, HT, forallb_app. cbn [forallb]. rewrite andb_true_r.
  assert (FA : forallb ca_display l = true <-> Forall (fun a => ca_display a = true) l) by (rewrite forallb_forall, Forall_forall; reflexivity).
  destruct (ca_display a) eqn:EA; cbn.
  - rewrite !andb_true_r, andb_true_iff, FA, HS. intuition.
  - rewrite !andb_false_r. split; [discriminate|]. intros (H & _). discriminate H.
Qed.
Lemma c79_levels L p l a c q : solves_with L p (l ++ [a]) c -> In q ["mip.display"; "simplex.display"; "paramdisplay"] -> c_param c q = Fin (if ca_display a then 1 else 0).
Proof.
  intros (_ & c0 & _ & HC) Hq. rewrite calls_snoc in HC. bnd HC as c1 H1. unfold cplex_of_call in HC. bnd HC as c2 H2. apply time_spec in H2. destruct H2 as (u & -> & _). apply node_spec in HC. destruct HC as (v & -> & _).
  assert (N : q <> "timelimit" /\ q <> "mip.limits.nodes") by (split; intros ->; repeat (destruct Hq as [Hq|Hq]; [discriminate Hq|]); destruct Hq). rewrite !c_set_other by (intro Z; symmetry in Z; destruct N; contradiction).
  unfold set_cpx_display_options. destruct Hq as [<-|[<-|[<-|[]]]]; destruct (ca_display a); reflexivity.
Qed.
Lemma default_quiet L l c : solves_with L None l c -> shows_progress c = false.
Proof.
  intros (HN & c0 & HB & HC). change (cplex_of_builder L None) with (cplex_of_builder L (Some default_cplex_parameters)) in HB. destruct (builder_param _ _ _ HB) as (_ & _ & HS).
  pose proof (calls_streams _ _ _ _ HC) as HT. unfold shows_progress. rewrite HT. destruct (c_streams c0); [|now rewrite andb_false_r]. exfalso. apply HS; reflexivity.
Qed.
Lemma c80_in_force L p l c k q f : solves_with L (Some p) l c -> In (k, q) effective -> entry p k f -> c_param c q = f.
Proof.
  intros (_ & c0 & HB & HC) Hin He. destruct (builder_param _ _ _ HB) as (HP & _). rewrite (calls_param _ _ _ _ _ HC); [eauto|].
  intro Q. unfold limit_paths in Q. cbn in Q, Hin. repeat (destruct Hin as [Hin|Hin]; [injection Hin as <- <-; intuition discriminate|]). destruct Hin.
Qed.
Lemma c80_ignored L p l c k q : solves_with L (Some p) l c -> In (k, q) ineffective -> c_param c q = cl_default L q.
Proof.
  intros (_ & c0 & HB & HC) Hin. destruct (builder_param _ _ _ HB) as (_ & HP & _). rewrite (calls_param _ _ _ _ _ HC); [eauto|].
  intro Q. unfold limit_paths in Q. cbn in Q, Hin. repeat (destruct Hin as [Hin|Hin]; [injection Hin as <- <-; intuition discriminate|]). destruct Hin.
Qed.
Lemma c80_constants L p l c q v : solves_with L (Some p) l c -> In (q, Constant v) parameter_table -> c_param c q = v.
Proof.
  intros (_ & c0 & HB & HC) Hin. unfold cplex_of_builder in HB. apply parameters_split in HB. destruct HB as (d & c1 & t & n & Hd & H1 & _ & _ & _ & _ & HP).
  pose proof (set_all_in _ _ _ _ _ _ H1 table_nodup Hin) as HF. cbn in HF.
  assert (G : ~ In q limit_paths).
  { unfold limit_paths. cbn in Hin |- *. repeat (destruct Hin as [Hin|Hin]; [first [discriminate Hin|injection Hin as <- <-; intuition discriminate]|]). destruct Hin. }
  rewrite (calls_param _ _ _ _ _ HC G). rewrite HP; [exact HF| |]; intros ->; apply G; cbn; auto 10.
Qed.
Lemma c80_defaults L l c q f : solves_with L None l c -> In (q, f) documented_defaults -> c_param c q = f.
Proof.
  intros H. assert (H' : solves_with L (Some default_cplex_parameters) l c) by exact H. clear H.
  assert (F : forall k q g f, In (k, q) effective -> entry default_cplex_parameters k g -> g = f -> c_param c q = f).
  { intros k q' g f' H1 H2 <-. exact (c80_in_force L _ l c k q' g H' H1 H2). }
  unfold documented_defaults. cbn [In]. intro H.
  repeat (destruct H as [H|H]; [injection H as <- <-; first
    [ eapply F; [unfold effective; cbn [In]; repeat (first [left; reflexivity|right]) | eexists; split; [reflexivity|reflexivity] | first [reflexivity|f_equal; apply Qc_is_canon; reflexivity] ]
    | eapply c80_constants; [exact H'|cbn [parameter_table In]; unfold parameter_table; cbn [In]; repeat (first [left; reflexivity|right])] ] | ]). destruct H.
Qed.
Lemma call_limits L t n d c c' : ok_maxima L -> cplex_of_call L t n d c = Ok c' ->
  (match t with None | Some PosInf => c_param c' "timelimit" = cl_max L "timelimit" | _ => True end) /\
  (match n with None | Some PosInf => c_param c' "mip.limits.nodes" = cl_max L "mip.limits.nodes" | _ => True end).
Proof.
  intros ((q & HQ & _) & _) H. unfold cplex_of_call in H. bnd H as c2 H2. apply time_spec in H2. destruct H2 as (u & -> & Hu). apply node_spec in H. destruct H as (v & -> & Hv).
  rewrite c_set_same. rewrite c_set_other by discriminate. rewrite c_set_same. rewrite HQ in Hu |- *. split.
  - destruct t as [[r| | |]|]; auto.
  - destruct n as [[r| | |]|]; auto.
Qed.
(** The limits of cplex_parameters are forgotten by every call without limits. *)
Lemma c80_limits L p l a c : ok_maxima L -> solves_with L (Some p) (l ++ [a]) c ->
  (ca_time a = None -> c_param c "timelimit" = cl_max L "timelimit") /\ (ca_node a = None -> c_param c "mip.limits.nodes" = cl_max L "mip.limits.nodes").
Proof.
  intros HL (_ & c0 & _ & HC). rewrite calls_snoc in HC. bnd HC as c1 H1. pose proof (call_limits _ _ _ _ _ _ HL HC) as [K1 K2]. split; intro Q; rewrite Q in *; assumption.
Qed.
(** ** Which dictionaries are accepted *)
Lemma set_all_total param : forall l c, (forall q k, In (q, FromKey k) l -> exists f, fetch param k = Ok f) -> exists c', set_all param l c = Ok c'.
Proof.
  induction l as [|[q s] l IH]; intros c H; [cbn; eauto|]. cbn [set_all]. unfold set_one. cbn [fst snd]. destruct s as [k|v].
  - destruct (H q k (or_introl eq_refl)) as (f & ->). cbn [bind]. apply IH. intros q' k' Hin. eapply H. right. exact Hin.
  - cbn [bind]. apply IH. intros q' k' Hin. eapply H. right. exact Hin.
Qed.
Lemma entry_fetch p k f : entry p k f -> fetch p k = Ok f.
Proof. intros (v & H1 & H2). unfold fetch. rewrite H1, H2. reflexivity. Qed.
Lemma table_effective q k : In (q, FromKey k) parameter_table -> In (k, q) effective.
Proof. unfold parameter_table. cbn [In]. intro H. repeat (destruct H as [H|H]; [try discriminate H; injection H as <- <-; cbn; tauto|]). destruct H. Qed.
Lemma nonneg_leb t : 0 <= t -> fl_leb (Fin 0) (Fin t) = true.
Proof.
  intro Ht. unfold fl_leb. cbn. destruct (qlt_spec 0 t) as [|N]; [reflexivity|]. cbn. destruct (qeq_spec 0 t) as [|N']; [reflexivity|]. exfalso. apply N'. apply Qcle_antisym; [exact Ht|].
  exact N.
Qed.
Lemma time_total L q c : ok_maxima L -> 0 <= q -> exists c', set_cpx_time_limit L (Some (Fin q)) c = Ok c'.
Proof.
  intros ((m & HM & Hm) & _) H. unfold set_cpx_time_limit. rewrite HM. cbn [fl_ltb fl_lt].
  destruct (m <? q); rewrite nonneg_leb by (try assumption; qlra); cbn; eauto.
Qed.
Lemma qtrunc_nonneg q : 0 <= q -> (0 <= qtrunc q)%Z.
Proof.
  intro H. unfold qtrunc. destruct (qle_spec 0 q) as [_|N]; [|exfalso; exact (Qclt_not_le _ _ N H)]. rewrite <- (qfloor_qz 0). apply qfloor_mono. exact H.
Qed.
Lemma node_total L q c : ok_maxima L -> 0 <= q -> exists c', set_cpx_node_limit L (Some (Fin q)) c = Ok c'.
Proof.
  intros (_ & (m & HM & Hm)) H. unfold set_cpx_node_limit. rewrite HM. cbn [fl_ltb fl_lt bind]. pose proof (qtrunc_nonneg q H) as HT. apply qz_le in HT. change (qz 0) with 0 in HT. apply qz_lt in Hm. change (qz 0) with 0 in Hm.
  destruct (qz m <? qz (qtrunc q)); rewrite nonneg_leb by (try assumption; qlra); cbn; eauto.
Qed.
Lemma c80_complete L p : ok_maxima L -> complete p -> exists c, cplex_of_builder L (Some p) = Ok c.
Proof.
  intros HL ((d & Hd) & HE & (t & Ht & Ht0) & (n & Hn & Hn0)). unfold cplex_of_builder, set_cpx_parameters. rewrite Hd. cbn [of_option bind].
  destruct (set_all_total p parameter_table (match d with PBool false => set_cpx_display_options false false false (new_cplex L) | _ => new_cplex L end)) as (c1 & ->).
  { intros q k Hin. destruct (HE k q (table_effective _ _ Hin)) as (f & Hf). exists f. now apply entry_fetch. }
  cbn [bind]. rewrite (entry_fetch _ _ _ Ht), (entry_fetch _ _ _ Hn). cbn [bind].
  assert (G : exists c2, (if fl_ltb (Fin t) default_time_limit then set_cpx_time_limit L (Some (Fin t)) c1 else Ok c1) = Ok c2) by (destruct (fl_ltb _ _); [now apply time_total|eauto]).
  destruct G as (c2 & ->). cbn [bind]. destruct (fl_ltb _ _); [now apply node_total|eauto].
Qed.
Lemma c80_incomplete L p c : cplex_of_builder L (Some p) = Ok c ->
  dget "display_cplex_progress" p <> None /\ dget "time_limit" p <> None /\ dget "node_limit" p <> None /\ forall k q, In (k, q) effective -> dget k p <> None.
Proof.
  unfold cplex_of_builder. intro H. apply parameters_split in H. destruct H as (d & c1 & t & n & Hd & H1 & Ht & Hn & _). split; [congruence|].
  assert (G : forall k f, fetch p k = Ok f -> dget k p <> None) by (unfold fetch; intros k f; destruct (dget k p); congruence).
  split; [eauto|]. split; [eauto|]. intros k q Hin. pose proof (set_all_in _ _ _ _ _ _ H1 table_nodup (effective_table _ _ Hin)) as HF. cbn in HF. eauto.
Qed.
Lemma default_complete : complete default_cplex_parameters.
Proof.
  split; [eexists; reflexivity|]. split.
  { intros k q H. unfold effective in H. cbn [In] in H. repeat (destruct H as [H|H]; [injection H as <- <-; eexists; eexists; split; reflexivity|]). destruct H. }
  split; eexists; (split; [eexists; split; reflexivity|]). - apply qz_le. apply Z.pow_nonneg. lia. - apply qz_le. lia.
Qed.

(** ** The solver object and the limits of Model_limits.v *)
Lemma c43_same_limits L M t n d c c' m : same_maxima L M -> cplex_of_call L t n d c = Ok c' ->
  (t = None \/ t = Some PosInf \/ exists q, t = Some (Fin q)) -> (n = None \/ n = Some PosInf \/ exists q, n = Some (Fin q)) ->
  let f v := match v with Some f => f | None => PosInf end in
  c_param c' "timelimit" = sl_time (put_time CPX M (f t) m) /\ c_param c' "mip.limits.nodes" = Fin (qz (sl_nodes (put_nodes CPX M (f n) m))).
Proof.
  intros [M1 M2] H Ht Hn. cbv zeta. unfold cplex_of_call in H. bnd H as c2 H2. apply time_spec in H2. destruct H2 as (u & -> & Hu). apply node_spec in H. destruct H as (v & -> & Hv).
  rewrite c_set_same. rewrite c_set_other by discriminate. rewrite c_set_same. rewrite M1 in Hu. rewrite M2 in Hv. split.
  - destruct Ht as [->|[->|(q & ->)]]; cbn in *; [exact Hu|exact Hu|]. destruct (lib_max_time M <? q); exact Hu.
  - destruct Hn as [->|[->|(q & ->)]]; cbn in *; [exact Hv|exact Hv|]. rewrite Hv. destruct (qlt_spec (qz (lib_max_nodes M)) (qz (qtrunc q))) as [Q|Q].
    + apply (proj1 (qz_lt _ _)) in Q. rewrite Z.min_r by (apply Z.lt_le_incl; exact Q). reflexivity.
    + rewrite Z.min_l; [reflexivity|]. destruct (Z.le_gt_cases (qtrunc q) (lib_max_nodes M)) as [|G]; [assumption|]. exfalso. apply (proj2 (qz_lt _ _)) in G. exact (Qclt_not_le _ _ G Q).
Qed.

(** ** add_variable_cpx *)
Lemma nth_repeat_some {A} (x y : A) n j : nth_error (repeat x n) j = Some y -> y = x.
Proof. intro H. apply nth_error_In in H. now apply repeat_spec in H. Qed.
Lemma one_num_for a b l j f : one_num a = Ok (b, l) -> nth_error l j = Some f -> num_for a j f.
Proof.
  unfold one_num, num_for. destruct a as [g|[|g r]|i [|g [|? ?]]]; intro H; try discriminate H; injection H as <- <-; destruct j as [|[|j]]; cbn; intro Q; congruence.
Qed.
Lemma many_nums_for n a b l j f : many_nums n a = Ok (b, l) -> nth_error l j = Some f -> num_for a j f.
Proof.
  unfold many_nums, num_for. destruct a as [g|m|i m]; intro H.
  - injection H as <- <-. apply nth_repeat_some.
  - destruct (Nat.eqb (length m) n); [injection H as <- <-; auto|]. destruct (Nat.eqb _ _); discriminate H.
  - injection H as <- <-. auto.
Qed.
Lemma many_lbs_for n u a b l j f : many_lbs n u a = Ok (b, l) -> nth_error l j = Some f -> num_for a j f.
Proof.
  unfold many_lbs. destruct a as [g|m|i m]; [apply many_nums_for| |apply many_nums_for]. intro H. destruct (Nat.eqb (length m) n); [injection H as <- <-; auto|]. destruct (Nat.eqb _ _); discriminate H.
Qed.
Lemma chars_get s : forall j t, nth_error (chars s) j = Some t -> exists c, String.get j s = Some c /\ t = String c EmptyString.
Proof. induction s as [|a s IH]; intros [|j] t H; cbn in H; try discriminate H; [injection H as <-; cbn; eauto|]. cbn. now apply IH. Qed.
Lemma one_type_for a l j t : one_type a = Ok l -> length l = 1%nat -> nth_error l j = Some t -> type_for a 1 j t.
Proof.
  unfold one_type, type_for. destruct a as [s|m|m]; intro H; try discriminate H; injection H as <-; intros _ Q; [|exact Q]. cbn. destruct j as [|[|j]]; cbn in Q; congruence.
Qed.
Lemma many_types_for n a l j t : n <> 1%nat -> many_types n a = Ok l -> nth_error l j = Some t -> type_for a n j t.
Proof.
  intro HN. unfold many_types, type_for. destruct a as [s|m|m]; intro H; try (injection H as <-; auto; fail). rewrite (proj2 (Nat.eqb_neq n 1) HN).
  destruct (Nat.eqb (String.length s) 1); [injection H as <-; apply nth_repeat_some|]. destruct (Nat.eqb _ n); [injection H as <-; apply chars_get|discriminate H].
Qed.
Lemma combine_nth_ex {A B} (l : list A) (m : list B) j p : nth_error (combine l m) j = Some p -> nth_error l j = Some (fst p) /\ nth_error m j = Some (snd p).
Proof.
  revert m j. induction l as [|a l IH]; intros [|b m] [|j] H; cbn in H; try discriminate H; [injection H as <-; auto|]. cbn. now apply IH.
Qed.
Lemma variables_add_spec names obj lb ub types c c' : variables_add names obj lb ub types c = Ok c' -> exists vs, c' = c_add_vars vs c /\ length vs = length names /\ length types = length names /\
  forall j v, nth_error vs j = Some v -> nth_error names j = Some (cv_name v) /\ nth_error obj j = Some (cv_obj v) /\ nth_error lb j = Some (cv_lb v) /\ nth_error ub j = Some (cv_ub v) /\ nth_error types j = Some (cv_type v).
Proof.
  unfold variables_add. intro H. destruct (_ && _ && _ && _) eqn:E; [|discriminate H]. injection H as <-. do 3 (apply andb_true_iff in E; destruct E as [E ?]). repeat match goal with Q : Nat.eqb _ _ = true |- _ => apply Nat.eqb_eq in Q end.
  eexists. split; [reflexivity|]. split; [rewrite map_length, !combine_length; lia|]. split; [assumption|]. intros j v Q. rewrite nth_error_map in Q. destruct (nth_error (combine _ _) j) as [p|] eqn:P; [|discriminate Q]. injection Q as <-.
  apply combine_nth_ex in P. destruct P as [P1 P]. apply combine_nth_ex in P. destruct P as [P2 P]. apply combine_nth_ex in P. destruct P as [P3 P]. apply combine_nth_ex in P. destruct P as [P4 P5]. cbn. auto 10.
Qed.
Lemma c82_added c name obj ub lb vt c' : add_variable_cpx c name obj ub lb vt = Ok c' ->
  exists vs, c' = c_add_vars vs c /\ length vs = length (names_of name) /\
    forall j v, nth_error vs j = Some v -> nth_error (names_of name) j = Some (cv_name v) /\ num_for obj j (cv_obj v) /\ type_for vt (length vs) j (cv_type v) /\
      ((num_for lb j (cv_lb v) /\ num_for ub j (cv_ub v) /\ exists v', In v' vs /\ cv_type v' <> "B") \/ (cv_lb v = Fin 0 /\ cv_ub v = Fin 1 /\ Forall (fun v => cv_type v = "B") vs)).
Proof.
  unfold add_variable_cpx. cbv zeta. fold (names_of name). set (n := length (names_of name)). intro H. bnd H as [o [u [l ts]]] HH. bnd H as w1 W1. bnd H as w2 W2. bnd H as w3 W3. bnd H as w4 W4.
  assert (G : (forall j f, nth_error (snd o) j = Some f -> num_for obj j f) /\ (forall j f, nth_error (snd u) j = Some f -> num_for ub j f) /\ (forall j f, nth_error (snd l) j = Some f -> num_for lb j f) /\
              (length ts = n -> forall j t, nth_error ts j = Some t -> type_for vt n j t)).
  { destruct (Nat.eqb_spec n 1) as [N|N].
    - bnd HH as o' Ho. bnd HH as u' Hu. bnd HH as l' Hl. bnd HH as ts' Hts. injection HH as -> -> -> ->. destruct o, u, l. cbn [snd]. repeat split; intros; eauto using one_num_for. rewrite N. eapply one_type_for; eauto. congruence.
    - bnd HH as ts' Hts. bnd HH as o' Ho. bnd HH as u' Hu. bnd HH as l' Hl. injection HH as -> -> -> ->. destruct o, u, l. cbn [snd]. repeat split; intros; eauto using many_nums_for, many_lbs_for. eapply many_types_for; eauto. }
  destruct G as (G1 & G2 & G3 & G4). clear HH. destruct ts as [|t ts']; [discriminate H|]. set (ts := t :: ts') in *.
  destruct (forallb (String.eqb t) ts && String.eqb t "B") eqn:E; apply variables_add_spec in H; destruct H as (vs & -> & HL & HT & HV); exists vs; (split; [reflexivity|]; split; [exact HL|]); rewrite HL; fold n.
  - apply andb_true_iff in E. destruct E as [E1 E2]. apply String.eqb_eq in E2. rewrite forallb_forall in E1. intros j v Hj. destruct (HV j v Hj) as (V1 & V2 & V3 & V4 & V5). split; [exact V1|]. split; [auto|]. split; [auto|]. right.
    split; [now apply nth_repeat_some in V3|]. split; [now apply nth_repeat_some in V4|]. apply Forall_forall. intros v' Hv'. apply In_nth_error in Hv'. destruct Hv' as (i & Hi). destruct (HV i v' Hi) as (_ & _ & _ & _ & V). apply nth_error_In, E1, String.eqb_eq in V. congruence.
  - intros j v Hj. destruct (HV j v Hj) as (V1 & V2 & V3 & V4 & V5). split; [exact V1|]. split; [auto|]. split; [auto|]. left. split; [auto|]. split; [auto|].
    assert (K : exists s, In s ts /\ s <> "B").
    { destruct (String.eqb_spec t "B") as [->|NB]; [|exists t; split; [now left|exact NB]]. rewrite andb_true_r in E. destruct (existsb (fun s => negb (String.eqb "B" s)) ts) eqn:EX.
      - apply existsb_exists in EX. destruct EX as (s & Hs & Q). exists s. split; [exact Hs|]. intros ->. discriminate Q.
      - exfalso. enough (forallb (String.eqb "B") ts = true) by congruence. apply forallb_forall. intros s Hs. destruct (String.eqb "B" s) eqn:Q; [reflexivity|]. exfalso. enough (existsb (fun s => negb (String.eqb "B" s)) ts = true) by congruence. apply existsb_exists. exists s. now rewrite Q. }
    destruct K as (s & Hs & NB). apply In_nth_error in Hs. destruct Hs as (i & Hi). assert (HI : (i < length vs)%nat) by (rewrite HL, <- HT; apply nth_error_Some; congruence).
    destruct (nth_error vs i) as [v'|] eqn:Hv'; [|apply nth_error_None in Hv'; lia]. exists v'. split; [eapply nth_error_In; eauto|]. destruct (HV i v' Hv') as (_ & _ & _ & _ & V). congruence.
Qed.

Lemma many_fit n a : nums_for n a -> exists l, many_nums n a = Ok (true, l) /\ length l = n.
Proof.
  destruct a as [f|l|[|] l]; cbn; intro H; [|rewrite H, Nat.eqb_refl; eauto|destruct H|eauto]. eexists. split; [reflexivity|]. apply repeat_length.
Qed.
Lemma chars_length s : length (chars s) = String.length s.
Proof. induction s as [|a s IH]; cbn; congruence. Qed.
Lemma types_fit n a : types_for n a -> exists l, many_types n a = Ok l /\ length l = n.
Proof.
  destruct a as [s|l|l]; cbn; intro H; eauto. destruct (Nat.eqb_spec (String.length s) 1) as [Q|Q]; [eexists; split; [reflexivity|apply repeat_length]|].
  destruct H as [H|H]; [contradiction|]. rewrite H, Nat.eqb_refl. eexists. split; [reflexivity|]. now rewrite chars_length.
Qed.
Lemma check_fit n l : (2 <= n)%nat -> length l = n -> check_floats n (true, l) = Ok tt.
Proof.
  intros N H. unfold check_floats. cbn [fst snd]. rewrite (proj2 (Nat.eqb_neq n 0)) by lia. destruct l as [|f l]; [cbn in H; lia|]. cbn [passert bind]. rewrite H, Nat.ltb_irrefl. reflexivity.
Qed.
Lemma c82_accepted c name obj ub lb vt n : length (names_of name) = n -> (2 <= n)%nat -> nums_for n obj -> nums_for n ub -> nums_for n lb -> types_for n vt ->
  exists c', add_variable_cpx c name obj ub lb vt = Ok c'.
Proof.
  intros HN N Ho Hu Hl Ht. unfold add_variable_cpx. cbv zeta. fold (names_of name). rewrite HN. rewrite (proj2 (Nat.eqb_neq n 1)) by lia.
  destruct (types_fit _ _ Ht) as (ts & Et & Lt). destruct (many_fit _ _ Ho) as (o & Eo & Lo). destruct (many_fit _ _ Hu) as (u & Eu & Lu). rewrite Et, Eo, Eu. destruct (many_fit _ _ Hl) as (l & El & Ll).
  assert (El' : many_lbs n (true, u) lb = Ok (true, l)). { destruct lb as [f|m|i m]; [exact El| |exact El]. unfold many_lbs. cbn in Hl. unfold many_nums in El. rewrite Hl, Nat.eqb_refl in *. exact El. }
  cbn [bind]. rewrite El'. cbn [bind]. rewrite !check_fit by assumption. cbn [bind]. unfold check_types. rewrite Lt, Nat.ltb_irrefl. cbn [bind snd].
  destruct ts as [|t ts]; [cbn in Lt; lia|]. unfold variables_add. rewrite HN, Lo, Lu, Ll, Lt, !repeat_length, Nat.eqb_refl. cbn [andb]. destruct (_ && _); eauto.
Qed.
Lemma check_ints n l : (2 <= n)%nat -> exists e, check_floats n (false, l) = Err e.
Proof. intro N. unfold check_floats. cbn [fst snd]. rewrite (proj2 (Nat.eqb_neq n 0)) by lia. destruct l; [eauto|]. cbn [passert bind]. eauto. Qed.
Lemma c82_ints c name obj ub lb vt l : (2 <= length (names_of name))%nat -> obj = FArr true l \/ ub = FArr true l \/ lb = FArr true l ->
  exists e, add_variable_cpx c name obj ub lb vt = Err e.
Proof.
  intros N H. unfold add_variable_cpx. cbv zeta. fold (names_of name). set (n := length (names_of name)) in *. rewrite (proj2 (Nat.eqb_neq n 1)) by lia. destruct (check_ints n l N) as (e & He).
  destruct (many_types n vt) as [ts|]; cbn [bind]; [|eauto]. destruct (many_nums n obj) as [o|] eqn:Eo; cbn [bind]; [|eauto]. destruct (many_nums n ub) as [u|] eqn:Eu; cbn [bind]; [|eauto].
  destruct (many_lbs n u lb) as [lo|] eqn:El; cbn [bind]; [|eauto]. destruct (check_floats n o) eqn:Co; cbn [bind]; [|eauto]. destruct (check_floats n u) eqn:Cu; cbn [bind]; [|eauto]. destruct (check_floats n lo) eqn:Cl; cbn [bind]; [|eauto].
  exfalso. destruct H as [H|[H|H]]; subst; cbn in *; [injection Eo as <-|injection Eu as <-|injection El as <-]; congruence.
Qed.
