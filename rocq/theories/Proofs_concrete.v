(** Concrete builders: what every sound solver that finishes must return, by enumeration of the finitely
    many choices.  Used only for counterexamples and non-vacuity witnesses. *)
From Verif Require Import Proofs_props_element Proofs_props_actionset Spec_recourse Proofs_mip Proofs_info Proofs_vec Proofs_build Proofs_enum Proofs_session Proofs_recourse.
#[local] Open Scope list_scope.
#[local] Open Scope Qc_scope.

(** ** Accepted choices *)
Definition ch_okb (infos : list info) (ch : choice) : bool := forallb (fun i => Nat.ltb (ch (i_idx i)) (nopt i)) infos.
Definition accepted (ms : mipstate) : list choice :=
  filter (fun ch => mip_sat (ms_mip ms) (assign (ms_infos ms) ch) && ch_okb (ms_infos ms) ch) (choices (ms_infos ms)).
Definition cheapest (ct : cost_type) (infos : list info) (l : list choice) : list choice :=
  filter (fun ch => forallb (fun ch' => choice_cost ct infos ch <=? choice_cost ct infos ch') l) l.
Definition exclb (et : enum_type) (k : backend) (infos : list info) (ch ch' : choice) : bool :=
  match et, k with
  | MutuallyExclusive, _ => forallb (fun i => negb (moved ch i) || negb (moved ch' i)) infos
  | DistinctSubsets, CPX => existsb (fun i => xorb (lit ch i) (lit ch' i)) infos
  | DistinctSubsets, PyMIP => existsb (fun i => xorb (moved ch i) (moved ch' i)) infos
  end.
(** All runs of [n] enumeration steps. *)
Fixpoint traces (n : nat) (et : enum_type) (k : backend) (ct : cost_type) (infos : list info) (l : list choice) : list (list choice) :=
  match n with
  | O => [[]]
  | S n' => flat_map (fun c => map (cons c) (traces n' et k ct infos (filter (exclb et k infos c) l))) (cheapest ct infos l)
  end.

Lemma ch_okb_iff infos ch : ch_okb infos ch = true <-> ch_ok infos ch.
Proof.
  unfold ch_okb. rewrite forallb_forall. split; intros H i Hi; [now apply Nat.ltb_lt, H|now apply Nat.ltb_lt, H].
Qed.
Lemma xorb_iff a b : xorb a b = true <-> a <> b.
Proof. destruct a, b; cbn; split; intro H; try reflexivity; try discriminate H; try congruence; now contradict H. Qed.
Lemma exclb_iff et k infos ch ch' : exclb et k infos ch ch' = true <-> excl et k infos ch ch'.
Proof.
  unfold exclb, excl. destruct et; [|destruct k].
  - rewrite forallb_forall. split; intros H i Hi.
    + intro M. specialize (H i Hi). rewrite M in H. cbn in H. now apply negb_true_iff.
    + destruct (moved ch i) eqn:M; [|reflexivity]. cbn. apply negb_true_iff. now apply H.
  - rewrite existsb_exists. split; intros (i & Hi & H); exists i; (split; [exact Hi|]); now apply xorb_iff.
  - rewrite existsb_exists. split; intros (i & Hi & H); exists i; (split; [exact Hi|]); now apply xorb_iff.
Qed.
Lemma same_moved infos ch ch' i : same_ch infos ch ch' -> In i infos -> moved ch i = moved ch' i /\ lit ch i = lit ch' i.
Proof. intros H Hi. unfold moved, lit. now rewrite (H i Hi). Qed.
Lemma excl_same et k infos a a' b b' : same_ch infos a a' -> same_ch infos b b' -> excl et k infos a b -> excl et k infos a' b'.
Proof.
  intros H1 H2. unfold excl. destruct et; [|destruct k].
  - intros H i Hi. destruct (same_moved _ _ _ i H1 Hi) as [<- _], (same_moved _ _ _ i H2 Hi) as [<- _]. auto.
  - intros (i & Hi & H). exists i. split; [exact Hi|]. destruct (same_moved _ _ _ i H1 Hi) as [_ <-], (same_moved _ _ _ i H2 Hi) as [_ <-]. exact H.
  - intros (i & Hi & H). exists i. split; [exact Hi|]. destruct (same_moved _ _ _ i H1 Hi) as [<- _], (same_moved _ _ _ i H2 Hi) as [<- _]. exact H.
Qed.
Lemma avec_same n infos ch ch' : same_ch infos ch ch' -> avec n infos ch = avec n infos ch' /\ cvec n infos ch = cvec n infos ch'.
Proof.
  intro H. unfold avec, cvec, scatter. split; apply map_ext; intro j; (destruct (info_at infos j) as [i|] eqn:Ei; [|reflexivity]);
    apply info_at_Some in Ei; now rewrite (H i (proj1 Ei)).
Qed.
Lemma item_of_same ct n infos ch ch' o s : same_ch infos ch ch' -> item_of ct n infos ch o s -> item_of ct n infos ch' o s.
Proof.
  intros H. unfold item_of. rewrite (chosen_costs_same _ _ _ H). destruct (avec_same n _ _ _ H) as [-> ->]. auto.
Qed.

(** [L] lists exactly the choices in [P], up to [same_ch]. *)
Definition lists (infos : list info) (P : choice -> Prop) (L : list choice) : Prop :=
  (forall ch, In ch L -> P ch) /\ (forall ch, P ch -> exists ch', In ch' L /\ same_ch infos ch ch').
Lemma accepted_lists b ms P : good b ms P -> lists (ms_infos ms) P (accepted ms).
Proof.
  intro G. pose proof (gd_wf _ _ _ G) as HW. pose proof (gd_shape _ _ _ G) as SH. split.
  - intros ch H. apply filter_In in H. destruct H as [_ H]. apply andb_true_iff in H. destruct H as [H1 H2]. apply ch_okb_iff in H2.
    apply (gd_pass _ _ _ G). apply (encode _ _ _ HW _ ch SH). auto.
  - intros ch HP. apply (gd_pass _ _ _ G) in HP. destruct (choices_complete _ ch (proj1 HP)) as (ch' & Hin & Hs). exists ch'. split; [|exact Hs].
    pose proof (passes_same _ _ _ _ HW Hs HP) as HP'. apply (encode _ _ _ HW _ ch' SH) in HP'. apply filter_In. split; [exact Hin|].
    apply andb_true_iff. split; [apply HP'|]. apply ch_okb_iff. apply HP'.
Qed.
Lemma best_cheapest ct infos P L ch : lists infos P L -> P ch -> best ct infos P ch -> exists ch', In ch' (cheapest ct infos L) /\ same_ch infos ch ch'.
Proof.
  intros [L1 L2] HP HB. destruct (L2 ch HP) as (ch' & Hin & Hs). exists ch'. split; [|exact Hs]. apply filter_In. split; [exact Hin|].
  apply forallb_forall. intros c Hc. apply qle_iff. rewrite <- (choice_cost_same _ _ _ _ Hs). apply HB. now apply L1.
Qed.
Lemma lists_step k infos P L et ch ch' : lists infos P L -> same_ch infos ch ch' ->
  lists infos (step_of k infos P (et, ch)) (filter (exclb et k infos ch') L).
Proof.
  intros [L1 L2] Hs. split.
  - intros c Hc. apply filter_In in Hc. destruct Hc as [H1 H2]. apply exclb_iff in H2. split; [auto|]. cbn.
    eapply excl_same; [apply same_ch_sym, Hs| |exact H2]. intros i Hi. reflexivity.
  - intros c [H1 H2]. destruct (L2 c H1) as (c' & Hin & Hc). exists c'. split; [|exact Hc]. apply filter_In. split; [exact Hin|].
    apply exclb_iff. eapply excl_same; eauto.
Qed.
Lemma enum_traces (fin : Prop) k ct infos et : fin -> forall chs P L, lists infos P L -> enum fin k ct infos P (map (pair et) chs) ->
  exists tr, In tr (traces (length chs) et k ct infos L) /\ Forall2 (same_ch infos) chs tr /\
    lists infos (after k infos P (map (pair et) chs)) (fold_left (fun l c => filter (exclb et k infos c) l) tr L).
Proof.
  intros F. induction chs as [|ch chs IH]; intros P L HL HE.
  - exists []. cbn. auto.
  - cbn [map enum snd fst length] in *. destruct HE as (H1 & H2 & H3). destruct (best_cheapest _ _ _ _ _ HL H1 (H2 F)) as (ch' & Hin & Hs).
    destruct (IH _ _ (lists_step k infos P L et ch ch' HL Hs) H3) as (tr & T1 & T2 & T3).
    exists (ch' :: tr). split; [|split; [now constructor|exact T3]]. cbn [traces]. apply in_flat_map. exists ch'. split; [exact Hin|]. now apply in_map.
Qed.

Lemma fit_cheapest sv b ms P : sound_solver sv -> finishing_solver sv -> good b ms P ->
  exists b' r, fit sv b = Ok (b', r) /\
    match r with
    | None => accepted ms = []
    | Some s => exists ch, In ch (cheapest (bd_cost b) (ms_infos ms) (accepted ms)) /\
                  item_of (bd_cost b) (length (bd_w b)) (ms_infos ms) ch True s
    end.
Proof.
  intros HS HF G. destruct (fit_good sv b ms P HS G) as (b' & r & o & H1 & -> & _ & _ & _ & _ & _ & H).
  pose proof (finishing_good sv b ms P HF G) as HC. pose proof (accepted_lists _ _ _ G) as HL. exists b', r. split; [exact H1|]. destruct r as [s|].
  - destruct H as (ch & a & g & HP & _ & _ & HI & HB). destruct (best_cheapest _ _ _ _ _ HL HP (HB HC)) as (ch' & Hin & Hs). exists ch'. split; [exact Hin|].
    apply (item_of_same _ _ _ _ _ _ _ Hs) in HI. destruct HI as (K1 & K2 & K3 & K4 & K5). repeat split; auto.
  - destruct (accepted ms) as [|c l]; [reflexivity|]. exfalso. apply (H HC c). apply (proj1 HL). now left.
Qed.
(** Forced outcome of fit on a builder that has a program. *)
Definition fit_test (b : builder) (t : option (list Qc * list Qc * Qc) -> bool) : bool :=
  match bd_mip b with
  | None => false
  | Some ms => match accepted ms with
               | [] => t None
               | _ => forallb (fun ch => t (Some (avec (length (bd_w b)) (ms_infos ms) ch, cvec (length (bd_w b)) (ms_infos ms) ch,
                        match bd_cost b with CMax => qmaxl (chosen_costs (ms_infos ms) ch) 0 | _ => qsum (chosen_costs (ms_infos ms) ch) end)))
                        (cheapest (bd_cost b) (ms_infos ms) (accepted ms))
               end
  end.
Definition view (r : solinfo) : option (list Qc * list Qc * Qc) := match r with Some s => Some (s_actions s, s_costs s, s_cost s) | None => None end.
Lemma fit_test_ok sv b ms P t : sound_solver sv -> finishing_solver sv -> good b ms P -> fit_test b t = true ->
  exists b' r, fit sv b = Ok (b', r) /\ t (view r) = true.
Proof.
  intros HS HF G HT. destruct (fit_cheapest sv b ms P HS HF G) as (b' & r & H1 & H2). exists b', r. split; [exact H1|].
  unfold fit_test in HT. rewrite (gd_mip _ _ _ G) in HT. destruct r as [s|].
  - destruct H2 as (ch & Hin & (K1 & K2 & K3 & K4 & K5)). destruct (accepted ms) as [|c0 l0] eqn:EA; [destruct Hin|].
    rewrite forallb_forall in HT. specialize (HT ch Hin). cbn [view]. rewrite K1, K2.
    replace (s_cost s) with (match bd_cost b with CMax => qmaxl (chosen_costs (ms_infos ms) ch) 0 | _ => qsum (chosen_costs (ms_infos ms) ch) end); [exact HT|].
    destruct (bd_cost b) eqn:Ec; symmetry; [apply K3|apply K3|apply K5]; auto; discriminate.
  - rewrite H2 in HT. exact HT.
Qed.

(** ** Scenarios *)
(** A table, operations on the action set, a classifier and an individual. *)
Record scenario := { sc_env : env; sc_X : list (list Qc); sc_names : list string; sc_y : Z; sc_ops : list aset_op;
  sc_kind : backend; sc_w : list Qc; sc_t : Qc; sc_cost : cost_type; sc_x : list Qc }.
Definition sc_args (w : list Qc) (t : Qc) : cargs :=
  {| k_clf := None; k_classifier := None; k_coefs := Some (AVec (map Fin w)); k_intercept := Some (ANum (Fin t)); a_pos := [] |}.
Definition sc_aset (c : scenario) : res action_set :=
  let! A := mk_action_set (sc_X c) (sc_names c) (sc_y c) [] default_bounds default_step_type in
  Ok (aset_run (sc_env c) A (sc_ops c)).
Definition sc_builder (c : scenario) : res builder :=
  let! A := sc_aset c in mk_builder (sc_env c) (sc_kind c) A (sc_args (sc_w c) (sc_t c)) (sc_cost c) None.

Lemma sc_aset_reach c A : sc_aset c = Ok A -> aset_reachable (sc_env c) A.
Proof.
  unfold sc_aset. intro H. bnd H as A0 H0. injection H as <-. exists A0, (sc_ops c). split; [|reflexivity].
  exists (sc_X c), (sc_names c), (sc_y c), [], default_bounds, default_step_type. exact H0.
Qed.
Lemma sc_created c b : sc_builder c = Ok b -> builder_created (sc_env c) b.
Proof.
  unfold sc_builder. intro H. bnd H as A HA. exists (sc_kind c), A, (sc_args (sc_w c) (sc_t c)), (sc_cost c), None. split; [eapply sc_aset_reach, HA|exact H].
Qed.
Lemma sc_reachable c sv b ops : sc_builder c = Ok b -> builder_reachable (sc_env c) sv (builder_run (sc_env c) sv b ops).
Proof. intro H. exists b, ops. split; [eapply sc_created, H|reflexivity]. Qed.
(** The scenario with x assigned. *)
Definition sc_run (c : scenario) : res (builder * builder) :=
  let! b := sc_builder c in let '(b0, r) := set_x (sc_env c) b (sc_x c) in let! _ := r in Ok (b, b0).
Lemma sc_assigned c b b0 : sc_run c = Ok (b, b0) -> forall sv, assigned (sc_env c) sv b (sc_x c) b0.
Proof.
  unfold sc_run. intros H sv. bnd H as b' Hb. destruct (set_x (sc_env c) b' (sc_x c)) as [b0' r] eqn:Hx. bnd H as u Hu. destruct u.
  apply pair_equal_spec in H || (injection H as <- <-). split; [exact (sc_reachable c sv b' [] Hb)|]. rewrite Hx. now rewrite Hu.
Qed.
Lemma sc_run_builder c b b0 : sc_run c = Ok (b, b0) -> sc_builder c = Ok b.
Proof. unfold sc_run. intro H. bnd H as b' Hb. destruct (set_x (sc_env c) b' (sc_x c)) as [b0' r]. bnd H as u Hu. injection H as <- <-. exact Hb. Qed.
#[global] Opaque sc_aset sc_builder sc_run.

(** ** Checking the assumptions on concrete cases *)
Lemma env0_ok : ok_env env0.
Proof. intro l. apply Permutation_refl. Qed.
Lemma env0_density : density env0.
Proof. intros values pdf v H. cbn in H. injection H as <-. discriminate. Qed.
Lemma env0_log : is_log env0.
Proof. split; [apply Qc_is_canon; reflexivity|]. intros p q _ H. cbn. qlra. Qed.
Definition forall_at {B C} (l : list B) (m : list C) (f : B -> C -> bool) : bool := forallb (fun p => f (fst p) (snd p)) (combine l m).
Lemma forall_at_ok {B C} (l : list B) (m : list C) f j b c : forall_at l m f = true -> nth_error l j = Some b -> nth_error m j = Some c -> f b c = true.
Proof.
  unfold forall_at. rewrite forallb_forall. intros H Hb Hc. apply (H (b, c)). clear H. revert m j Hb Hc. induction l as [|u l IH]; intros [|v m] [|j]; cbn; try discriminate.
  - intros E1 E2. injection E1 as <-. injection E2 as <-. now left.
  - intros. right. eapply IH; eauto.
Qed.
Definition targets (e : element) (xj : Qc) : list Qc :=
  xj :: (if e_actionable e then filter (fun v => (if (0 <? e_step_dir e)%Z then xj <=? v else true) && (if (e_step_dir e <? 0)%Z then v <=? xj else true)) (e_grid e) else []).
Lemma targets_ok e xj v : permitted e xj v -> In v (targets e xj).
Proof.
  unfold targets. intros [->|(H1 & H2 & H3 & H4)]; [now left|]. right. rewrite H1. apply filter_In. split; [exact H2|]. apply andb_true_iff. split.
  - destruct (Z.ltb_spec 0 (e_step_dir e)); [|reflexivity]. apply qle_iff. auto.
  - destruct (Z.ltb_spec (e_step_dir e) 0); [|reflexivity]. apply qle_iff. auto.
Qed.
Definition strictb (E : env) (A : action_set) (x : list Qc) : bool :=
  forall_at (as_elems A) x (fun e xj => forallb (fun u => forallb (fun v => if u <? v then
     ok_and (percentile E e u) (fun p => ok_and (percentile E e v) (fun q => p <? q)) else true) (targets e xj)) (targets e xj)).
Lemma strictb_ok E A x : strictb E A x = true -> strict_percentiles E A x.
Proof.
  intros H j e xj He Hx u v Hu Hv Huv. pose proof (forall_at_ok _ _ _ _ _ _ H He Hx) as G. cbn beta in G. rewrite forallb_forall in G.
  specialize (G u (targets_ok _ _ _ Hu)). rewrite forallb_forall in G. specialize (G v (targets_ok _ _ _ Hv)).
  destruct (qlt_spec u v) as [L|L]; [|exfalso; qlra]. apply ok_and_true in G. destruct G as (p & Hp & G). apply ok_and_true in G. destruct G as (q & Hq & G).
  exists p, q. split; [exact Hp|]. split; [exact Hq|]. now qbool.
Qed.
Definition is_intb (v : Qc) : bool := v =? qz (qfloor v).
Definition fitsb (A : action_set) (x : list Qc) : bool := forall_at (as_elems A) x (fun e xj => negb (e_gint e) || is_intb xj).
Lemma fitsb_ok A x : fitsb A x = true -> fits_grids A x.
Proof.
  intros H j e xj He Hx Hg. pose proof (forall_at_ok _ _ _ _ _ _ H He Hx) as G. cbn beta in G. rewrite Hg in G. cbn in G. unfold is_intb in G. qbool. exists (qfloor xj). exact G.
Qed.
Definition resolvableb (A : action_set) (x : list Qc) : bool :=
  fitsb A x && forall_at (as_elems A) x (fun e xj => forallb (fun v => (v =? xj) || (qfrac 1 100000000 <? qabs (v - xj))) (targets e xj)).
Lemma resolvableb_ok A x : resolvableb A x = true -> resolvable A x.
Proof.
  unfold resolvableb. intros H j e xj He Hx. apply andb_true_iff in H. destruct H as [H1 H2]. split; [exact (fitsb_ok _ _ H1 j e xj He Hx)|].
  intros v Hv Hne. pose proof (forall_at_ok _ _ _ _ _ _ H2 He Hx) as G. cbn beta in G. rewrite forallb_forall in G. specialize (G v (targets_ok _ _ _ Hv)).
  apply orb_true_iff in G. destruct G as [G|G]; qbool; [congruence|exact G].
Qed.
Definition currentb (A : action_set) : bool := forallb (fun e => match e_interp e with None => true | Some _ => false end) (as_elems A).
Lemma currentb_ok A : currentb A = true -> current_percentiles A.
Proof.
  intros H j e He. unfold currentb in H. rewrite forallb_forall in H. specialize (H e (nth_error_In _ _ He)). unfold percentile_grid. destruct (e_interp e); [discriminate H|reflexivity].
Qed.
Definition flipsb (A : action_set) (w : list Qc) : bool :=
  Nat.eqb (length w) (length (as_elems A)) &&
  forall_at (as_elems A) w (fun e c => match e_flip e with Some f => Z.eqb f (if (as_y A =? 1)%Z then qsign c else (- qsign c)%Z) | None => false end).
Lemma flipsb_ok A w : flipsb A w = true -> flips_match A w.
Proof.
  unfold flipsb. intro H. apply andb_true_iff in H. destruct H as [H1 H2]. apply Nat.eqb_eq in H1. split; [exact H1|]. intros j e c He Hc.
  pose proof (forall_at_ok _ _ _ _ _ _ H2 He Hc) as G. cbn beta in G. destruct (e_flip e) as [f|]; [|discriminate G]. apply Z.eqb_eq in G. now rewrite G.
Qed.
Definition unconstrainedb (A : action_set) : bool := match r_cons (as_cons A) with [] => true | _ => false end.
Lemma unconstrainedb_ok A : unconstrainedb A = true -> unconstrained A.
Proof. unfold unconstrainedb, unconstrained. destruct (r_cons (as_cons A)); [reflexivity|discriminate]. Qed.
Definition on_sideb (y : Z) (s : Qc) : bool := if (0 <? y)%Z then 0 <=? s else s <=? 0.
Lemma on_sideb_iff y s : on_sideb y s = true <-> on_side y s.
Proof. unfold on_sideb, on_side. destruct (0 <? y)%Z; apply qle_iff. Qed.
Lemma deniedb y s : on_sideb y s = false -> denied y s.
Proof. intros H K. apply on_sideb_iff in K. congruence. Qed.
