(** Proofs about names. *)
From Coq Require Import Strings.String Ascii DecimalString Decimal.
From Verif Require Import Proofs_props_element Proofs_props_actionset Spec_names Proofs_mip Proofs_info Proofs_build Proofs_session Proofs_registry Proofs_actionset.
#[local] Open Scope string_scope.
#[local] Open Scope list_scope.

(** ** Digits *)
Fixpoint free_of (c : ascii) (s : string) : Prop := match s with EmptyString => True | String a r => a <> c /\ free_of c r end.
Definition not_digit (c : ascii) : Prop := ~ In c ["0"; "1"; "2"; "3"; "4"; "5"; "6"; "7"; "8"; "9"]%char.
Lemma uint_free c d : not_digit c -> free_of c (NilEmpty.string_of_uint d).
Proof.
  intro H. induction d; cbn; auto; (split; [|assumption]); intro E; apply H; rewrite <- E; cbn; tauto.
Qed.
Lemma nat_free c n : not_digit c -> free_of c (string_of_nat n).
Proof.
  intro H. unfold string_of_nat, NilZero.string_of_uint. destruct (Nat.to_uint n) eqn:E; try (rewrite <- E; clear E); try now apply uint_free.
  cbn. split; [|exact I]. intro Q. apply H. rewrite <- Q. cbn. tauto.
Qed.
Lemma split_at c s1 s2 t1 t2 : free_of c s1 -> free_of c s2 -> (s1 ++ String c t1 = s2 ++ String c t2)%string -> s1 = s2 /\ t1 = t2.
Proof.
  revert s2. induction s1 as [|a s1 IH]; intros [|b s2] F1 F2 H; cbn in *.
  - injection H as ->. auto.
  - exfalso. injection H as E _. apply (proj1 F2). now symmetry.
  - exfalso. injection H as E _. now apply (proj1 F1).
  - injection H as -> H. destruct (IH s2 (proj2 F1) (proj2 F2) H) as [-> ->]. auto.
Qed.
Lemma nd_br : not_digit "]"%char. Proof. intro H. cbn in H. repeat (destruct H as [H|H]; [discriminate H|]). exact H. Qed.
Lemma nd_qu : not_digit "'"%char. Proof. intro H. cbn in H. repeat (destruct H as [H|H]; [discriminate H|]). exact H. Qed.
Lemma nd_us : not_digit "_"%char. Proof. intro H. cbn in H. repeat (destruct H as [H|H]; [discriminate H|]). exact H. Qed.
Lemma bracket_inj c j j' t t' : not_digit c -> (string_of_nat j ++ String c t = string_of_nat j' ++ String c t')%string -> j = j' /\ t = t'.
Proof. intros N H. apply split_at in H; try (now apply nat_free). destruct H as [H ->]. split; [now apply string_of_nat_inj|reflexivity]. Qed.

Lemma var_name_inj v v' : var_name v = var_name v' -> v = v'.
Proof.
  destruct v as [j|j k|j|], v' as [j'|j' k'|j'|]; cbn; intro H; try discriminate H; try reflexivity.
  - injection H as H. apply (bracket_inj _ _ _ _ _ nd_br) in H. destruct H as [-> _]. reflexivity.
  - injection H as H. apply (bracket_inj _ _ _ _ _ nd_br) in H. destruct H as [-> H]. injection H as H.
    apply (bracket_inj _ _ _ _ _ nd_br) in H. destruct H as [-> _]. reflexivity.
  - injection H as H. apply (bracket_inj _ _ _ _ _ nd_br) in H. destruct H as [-> _]. reflexivity.
Qed.
Lemma row_name_inj b n n' s : row_name b n = Some s -> row_name b n' = Some s -> n = n'.
Proof.
  intros H H'. rewrite <- H in H'. clear H s.
  destruct b, n as [|j|j| | |id|i|i|j|j|], n' as [|j'|j'| | |id'|i'|i'|j'|j'|]; cbn in H'; try discriminate H'; try reflexivity;
    injection H' as H'; try (subst; reflexivity);
    try (apply (bracket_inj _ _ _ _ _ nd_br) in H'; destruct H' as [-> _]; reflexivity);
    try (apply (bracket_inj _ _ _ _ _ nd_us) in H'; destruct H' as [-> H']; try discriminate H'; reflexivity);
    try (apply (bracket_inj _ _ _ _ _ nd_qu) in H'; destruct H' as [-> _]; reflexivity).
Qed.

(** ** Constraint ids *)
Definition ids_distinct (A : action_set) : Prop := NoDup (map fst (r_cons (as_cons A))).
Lemma ids_distinct_step E A o : wf_aset E A -> ids_distinct A -> ids_distinct (aset_step E A o).
Proof.
  intros HW HI. unfold ids_distinct in *. destruct HW as (W1 & W2 & W3 & W4 & W5 & W6).
  destruct o as [n v|i n v|j|j|n vs bs vt ac st sd ss eops|y|a|ns lb ub id|id]; cbn [aset_step].
  - destruct (set_setattr_elems E A n v W3) as (_ & E2 & _). now rewrite E2.
  - destruct (index_setattr_elems E A i n v W3) as (_ & E2 & _). now rewrite E2.
  - unfold on_elem. destruct (nth_error _ _); exact HI.
  - unfold on_elem. destruct (nth_error _ _); exact HI.
  - destruct (mk_element n vs bs vt ac st sd ss); [|exact HI]. unfold setitem. destruct (index_of n (as_names A)); exact HI.
  - destruct (set_y_desired A y) as [A'|] eqn:H; [|exact HI]. apply set_y_spec in H. destruct H as (_ & _ & E2 & _). now rewrite E2.
  - destruct (set_alignment A a) as [A'|] eqn:H; [|exact HI]. apply set_alignment_spec in H. destruct H as (w & t & _ & _ & _ & E2 & _). now rewrite E2.
  - unfold add_constraint. cbn. destruct (add_subset_limit (as_cons A) ns lb ub id) as [[r i]|] eqn:H; cbn; [|exact HI].
    destruct W5 as [[WV _] _]. destruct (add_spec _ _ _ _ _ _ _ H WV) as (_ & c & _ & _ & _ & _ & ->). cbn [r_cons]. now apply dset_keys.
  - unfold remove_constraint. destruct (registry_remove (as_cons A) id) as [r|] eqn:H; cbn; [|exact HI].
    unfold registry_remove in H. bnd H as u Hu. destruct (dget id (r_cons (as_cons A))); [|discriminate H]. injection H as <-. cbn [r_cons]. now apply dpop_keys.
Qed.
Lemma created_no_cons A : aset_created A -> r_cons (as_cons A) = [].
Proof.
  intros (X & names & y & custom & dflt & dst & H). unfold mk_action_set in H. cbv zeta in H.
  repeat (let u := fresh "u" in let Hu := fresh "Hu" in apply bind_ok in H; destruct H as (u & Hu & H)). injection H as <-. reflexivity.
Qed.
Lemma reachable_ids E A : aset_reachable E A -> ids_distinct A.
Proof.
  intros (A0 & ops & Hc & ->). assert (HI : ids_distinct A0) by (unfold ids_distinct; rewrite (created_no_cons _ Hc); constructor).
  apply (created_wf E) in Hc. revert A0 Hc HI. induction ops as [|o ops IH]; intros A0 H HI; [exact HI|]. cbn. apply IH; [now apply wf_astep|now apply ids_distinct_step].
Qed.

(** ** Tidy programs *)
Lemma NoDup_map_inj {A B} (f : A -> B) l : (forall a b, In a l -> In b l -> f a = f b -> a = b) -> NoDup l -> NoDup (map f l).
Proof.
  intros Hf H. induction H as [|a l H1 H2 IH]; cbn; [constructor|]. constructor.
  - intro K. apply in_map_iff in K. destruct K as (b & E & Hb). apply H1. rewrite (Hf a b); [exact Hb|now left|now right|now symmetry].
  - apply IH. intros a' b' Ha Hb. apply Hf; now right.
Qed.
Lemma NoDup_app_intro {A} (l m : list A) : NoDup l -> NoDup m -> (forall a, In a l -> ~ In a m) -> NoDup (l ++ m).
Proof.
  intros Hl Hm H. induction Hl as [|a l H1 H2 IH]; cbn; [exact Hm|]. constructor.
  - rewrite in_app_iff. intros [K|K]; [tauto|]. exact (H a (or_introl eq_refl) K).
  - apply IH. intros b Hb. apply H. now right.
Qed.
Lemma NoDup_flat {A B} (f : A -> list B) (g : B -> nat) (h : A -> nat) l : NoDup (map h l) -> (forall a, In a l -> NoDup (f a)) ->
  (forall a b, In a l -> In b (f a) -> g b = h a) -> NoDup (flat_map f l).
Proof.
  intros HN Hf Hg. induction l as [|a l IH]; cbn; [constructor|]. cbn [map] in HN. inversion HN as [|? ? H1 H2]; subst. apply NoDup_app_intro.
  - apply Hf. now left.
  - apply IH; auto. + intros b Hb. apply Hf. now right. + intros b c Hb. apply Hg. now right.
  - intros b Hb K. apply in_flat_map in K. destruct K as (c & Hc & Hbc). apply H1. apply in_map_iff. exists c. split; [|exact Hc].
    transitivity (g b); [symmetry; apply Hg; [now right|exact Hbc]|apply Hg; [now left|exact Hb]].
Qed.
Definition vidx (v : mvar) : nat := match v with VA j | VU j _ | VC j => j | VMax => 0 end.
Record tidy (b : backend) (infos : list info) (m : mip) : Prop := {
  td_vars : NoDup (registered m);
  td_rows : NoDup (given_row_names b m);
  td_refs : forall v, refers_to m v -> In v (registered m);
  td_excl : forall k v, In v (excl_vars k infos) -> In v (registered m);
  td_u : forall i, In i infos -> In (off_var i) (registered m) }.

Lemma plain_registered ct infos m v k : shape k ct infos m -> (forall i, In i infos -> In (VA (i_idx i)) (registered m)) -> plain_var infos v -> In v (registered m).
Proof.
  intros SH HA (i & Hi & [->|(q & Hq & ->)]); [now apply HA|]. destruct (sh_u _ _ _ _ SH i q Hi Hq) as (b & Hb).
  unfold registered. apply in_map_iff. exists (udecl i q b). split; [reflexivity|exact Hb].
Qed.

Lemma In_dget {V} k (v : V) d : NoDup (map fst d) -> In (k, v) d -> dget k d = Some v.
Proof.
  induction d as [|[k' v'] d IH]; cbn; intros HN H; [destruct H|]. inversion HN as [|? ? H1 H2]; subst. destruct (String.eqb_spec k k') as [->|Hne].
  - destruct H as [H|H]; [congruence|]. exfalso. apply H1. apply in_map_iff. exists (k', v). auto.
  - destruct H as [H|H]; [congruence|]. auto.
Qed.
Definition subset_names (k : backend) (ic : nat * slc) : list rname :=
  match k with CPX => [NSubset (c_id (snd ic))] | PyMIP => [NSubsetLb (fst ic); NSubsetUb (fst ic)] end.
Lemma subset_rows_names k infos l subs : Forall2 (fun ic rs => subset_rows k infos ic = Ok rs) l subs -> map r_name (concat subs) = flat_map (subset_names k) l.
Proof.
  induction 1 as [|[p c] rs l subs H _ IH]; [reflexivity|]. cbn [concat flat_map]. rewrite map_app, IH. f_equal.
  unfold subset_rows in H. bnd H as vs Hvs. cbv zeta in H. injection H as <-. destruct k; reflexivity.
Qed.
Definition rrank (n : rname) : nat :=
  match n with NScore => 0 | NSet _ | NPick _ => 1 | NMaxItems | NMinItems => 2 | NSubset _ | NSubsetLb _ | NSubsetUb _ => 3 | NDefCost _ | NSetMax _ => 4 | NAnon => 5 end.
Definition ridx (n : rname) : nat := match n with NSet j | NPick j | NDefCost j | NSetMax j | NSubsetLb j | NSubsetUb j => j | _ => 0 end.
Lemma NoDup_ranked (ls : list (list rname)) : (forall n l, nth_error ls n = Some l -> NoDup l /\ forall a, In a l -> rrank a = n) -> NoDup (concat ls) /\ forall a, In a (concat ls) -> (rrank a < length ls)%nat.
Proof.
  intro H. assert (G : forall ls s, (forall n l, nth_error ls n = Some l -> NoDup l /\ forall a, In a l -> rrank a = (s + n)%nat) ->
     NoDup (concat ls) /\ forall a, In a (concat ls) -> (s <= rrank a < s + length ls)%nat).
  { clear. induction ls as [|l ls IH]; intros s H; cbn [concat]; [split; [constructor|intros a []]|].
    destruct (H 0%nat l eq_refl) as [H1 H2]. destruct (IH (S s)) as [I1 I2].
    { intros n l' Hn. destruct (H (S n) l' Hn) as [K1 K2]. split; [exact K1|]. intros a Ha. rewrite (K2 a Ha). lia. }
    split.
    - apply NoDup_app_intro; [exact H1|exact I1|]. intros a Ha K. specialize (H2 a Ha). specialize (I2 a K). lia.
    - intros a Ha. apply in_app_iff in Ha. destruct Ha as [Ha|Ha]; [specialize (H2 a Ha); cbn; lia|specialize (I2 a Ha); cbn; lia]. }
  destruct (G ls 0%nat H) as [G1 G2]. split; [exact G1|]. intros a Ha. specialize (G2 a Ha). lia.
Qed.
Lemma combine_seq_fst {A} (l : list A) : map fst (combine (seq 0 (length l)) l) = seq 0 (length l).
Proof. generalize 0%nat. induction l as [|a l IH]; intro k; cbn; [reflexivity|]. now rewrite IH. Qed.
Lemma row_names_nodup k A ct w t lo hi x infos subs : NoDup (map i_idx infos) -> (forall p, In p (r_cons (as_cons A)) -> c_id (snd p) = fst p) -> ids_distinct A ->
  mapM (subset_rows k infos) (combine (seq 0 (length (r_cons (as_cons A)))) (map snd (r_cons (as_cons A)))) = Ok subs ->
  let ns := map r_name (base_rows k A w t lo hi x infos subs ++ match ct with CMax => flat_map (fun i => [def_cost_row k i; set_max_row i]) infos | _ => [] end) in
  NoDup ns /\ ~ In NAnon ns.
Proof.
  intros HND HID HD HS ns. apply mapM_ok in HS. set (cs := map snd (r_cons (as_cons A))) in *.
  assert (EL : length (r_cons (as_cons A)) = length cs) by (unfold cs; now rewrite map_length). rewrite EL in HS.
  set (l1 := flat_map (fun i => [NSet (i_idx i); NPick (i_idx i)]) infos). set (l3 := flat_map (subset_names k) (combine (seq 0 (length cs)) cs)).
  set (l4 := match ct with CMax => flat_map (fun i => [NDefCost (i_idx i); NSetMax (i_idx i)]) infos | _ => [] end).
  assert (Q : ns = concat [[NScore]; l1; [NMaxItems; NMinItems]; l3; l4]).
  { unfold ns, base_rows. cbn [concat app map]. rewrite !map_app. cbn [map]. rewrite (subset_rows_names _ _ _ _ HS).
    assert (M : forall f g, (forall i, map r_name (f i) = g i) -> map r_name (flat_map f infos) = flat_map g infos).
    { intros f g Hfg. clear - Hfg. induction infos as [|i l IH]; [reflexivity|]. cbn. rewrite map_app, Hfg, IH. reflexivity. }
    f_equal. { unfold score_row. destruct (0 <? as_y A)%Z; reflexivity. }
    rewrite (M _ (fun i => [NSet (i_idx i); NPick (i_idx i)])) by (intro i; destruct k; reflexivity). fold l1. rewrite <- !app_assoc. f_equal. cbn [app r_name max_items_row min_items_row row_ge row_le]. do 2 f_equal.
    fold l3. f_equal. unfold l4. rewrite app_nil_r. destruct ct; [reflexivity|reflexivity|]. apply M. intro i. destruct k; reflexivity. }
  rewrite Q. assert (T : forall f : info -> list rname, (forall i, NoDup (f i)) -> (forall i n, In n (f i) -> ridx n = i_idx i) -> NoDup (flat_map f infos)).
  { intros f F1 F2. apply (NoDup_flat _ ridx i_idx); auto. }
  destruct (NoDup_ranked [[NScore]; l1; [NMaxItems; NMinItems]; l3; l4]) as [N1 N2].
  { intros n l Hn. destruct n as [|[|[|[|[|n]]]]]; cbn in Hn; try (injection Hn as <-).
    - split; [repeat constructor; cbn; tauto|]. intros a [<-|[]]. reflexivity.
    - split.
      + apply T. * intro i. repeat constructor; cbn; [|tauto]. intros [K|[]]. discriminate K. * intros i n [<-|[<-|[]]]; reflexivity.
      + intros a Ha. apply in_flat_map in Ha. destruct Ha as (i & _ & [<-|[<-|[]]]); reflexivity.
    - split; [repeat constructor; cbn; [|tauto]; intros [K|[]]; discriminate K|]. intros a [<-|[<-|[]]]; reflexivity.
    - split.
      + unfold l3. destruct k.
        * assert (R : flat_map (subset_names CPX) (combine (seq 0 (length cs)) cs) = map (fun c => NSubset (c_id c)) cs).
          { generalize 0%nat. clear. induction cs as [|c cs IH]; intro s; [reflexivity|]. cbn. now rewrite IH. }
          rewrite R. unfold cs. rewrite map_map. assert (R2 : map (fun p => NSubset (c_id (snd p))) (r_cons (as_cons A)) = map NSubset (map fst (r_cons (as_cons A)))).
          { rewrite map_map. apply map_ext_in. intros p Hp. now rewrite HID. }
          rewrite R2. apply NoDup_map_inj; [|exact HD]. intros a b _ _ K. now injection K.
        * apply (NoDup_flat _ ridx fst); [rewrite combine_seq_fst; apply seq_NoDup| |].
          -- intros ic _. repeat constructor; cbn; [|tauto]. intros [K|[]]. discriminate K.
          -- intros ic n _ [<-|[<-|[]]]; reflexivity.
      + intros a Ha. apply in_flat_map in Ha. destruct Ha as (ic & _ & Ha). destruct k; cbn in Ha; [destruct Ha as [<-|[]]|destruct Ha as [<-|[<-|[]]]]; reflexivity.
    - unfold l4. destruct ct; [split; [constructor|intros a []]|split; [constructor|intros a []]|]. split.
      + apply T. * intro i. repeat constructor; cbn; [|tauto]. intros [K|[]]. discriminate K. * intros i n [<-|[<-|[]]]; reflexivity.
      + intros a Ha. apply in_flat_map in Ha. destruct Ha as (i & _ & [<-|[<-|[]]]); reflexivity.
    - destruct n; discriminate Hn. }
  split; [exact N1|]. intro K. specialize (N2 _ K). cbn in N2. lia.
Qed.

Lemma build_tidy E k A ct w t lo hi x ms : wf_aset E A -> ids_distinct A -> wf_infos (ms_infos ms) -> build E k A ct w t lo hi x = Ok ms -> tidy k (ms_infos ms) (ms_mip ms).
Proof.
  intros HWA HID HW H. pose proof (build_shape _ _ _ _ _ _ _ _ _ _ HW H) as (SH & _ & _).
  destruct (build_inv _ _ _ _ _ _ _ _ _ _ H) as (subs & HI & HS & HO & Hsos & HV & HR & HNe). clear H.
  set (infos := ms_infos ms) in *. set (m := ms_mip ms) in *. clearbody infos m. clear ms.
  destruct HW as [HWf HND]. rewrite Forall_forall in HWf.
  assert (HA : forall i, In i infos -> In (VA (i_idx i)) (registered m)).
  { intros i Hi. unfold registered. rewrite HV, !map_app, !in_app_iff. left. rewrite map_map. apply in_map_iff. exists i. auto. }
  assert (HP : forall v, plain_var infos v -> In v (registered m)) by (intros v Hv; eapply plain_registered; eauto).
  assert (HC : ct = CMax -> In VMax (registered m) /\ forall i, In i infos -> In (VC (i_idx i)) (registered m)).
  { intros ->. unfold registered. rewrite HV, !map_app. split; [|intros i Hi]; rewrite !in_app_iff; right; right; rewrite map_map; cbn; [now left|right].
    rewrite map_map. apply in_map_iff. exists i. auto. }
  assert (HU : forall i v, In i infos -> In v (uvars i) -> plain_var infos v).
  { intros i v Hi Hv. unfold uvars in Hv. apply in_map_iff in Hv. destruct Hv as (q & <- & Hq). apply in_seq in Hq. exists i. split; [exact Hi|]. right. exists q. unfold nopt. split; [lia|reflexivity]. }
  assert (HCT : forall i c v, In i infos -> In (c, v) (cost_terms i) -> plain_var infos v).
  { intros i c v Hi Hc. apply (HU i); [exact Hi|]. eapply in_combine_r, Hc. }
  split.
  - unfold registered. rewrite HV, !map_app, !map_map. cbn [v_var avar_decl uvar_decl]. apply NoDup_app_intro; [|apply NoDup_app_intro|].
    + rewrite <- (map_map i_idx VA). apply NoDup_map_inj; [|exact HND]. intros a b _ _ Q. now injection Q.
    + rewrite map_id. apply (NoDup_flat _ vidx i_idx); [exact HND| |].
      * intros i _. unfold uvars. apply NoDup_map_inj; [|apply seq_NoDup]. intros a b _ _ Q. now injection Q.
      * intros i v _ Hv. unfold uvars in Hv. apply in_map_iff in Hv. destruct Hv as (q & <- & _). reflexivity.
    + destruct ct; [constructor|constructor|]. cbn [map cvar_decl v_var]. rewrite !map_map. cbn [v_var cvar_decl]. constructor.
      * intro K. apply in_map_iff in K. destruct K as (i & Q & _). discriminate Q.
      * rewrite <- (map_map i_idx VC). apply NoDup_map_inj; [|exact HND]. intros a b _ _ Q. now injection Q.
    + intros v Hv K. rewrite map_id in Hv. apply in_flat_map in Hv. destruct Hv as (i & _ & Hv). unfold uvars in Hv. apply in_map_iff in Hv. destruct Hv as (q & <- & _).
      destruct ct; [destruct K|destruct K|]. cbn [map In cvar_decl v_var] in K. destruct K as [K|K]; [discriminate K|]. rewrite !map_map in K. apply in_map_iff in K. destruct K as (i' & Q & _). discriminate Q.
    + intros v Hv K. apply in_map_iff in Hv. destruct Hv as (i & <- & _). apply in_app_iff in K. destruct K as [K|K].
      * rewrite map_id in K. apply in_flat_map in K. destruct K as (i' & _ & K). unfold uvars in K. apply in_map_iff in K. destruct K as (q & Q & _). discriminate Q.
      * destruct ct; [destruct K|destruct K|]. cbn [map In cvar_decl v_var] in K. destruct K as [K|K]; [discriminate K|]. rewrite !map_map in K. apply in_map_iff in K. destruct K as (i' & Q & _). discriminate Q.
  - assert (HN : NoDup (map r_name (m_rows m)) /\ ~ In NAnon (map r_name (m_rows m))).
    { rewrite HR. apply row_names_nodup; [exact HND| |exact HID|exact HS].
      intros [id c] Hp. destruct HWA as (_ & _ & _ & _ & [_ W5] & _). assert (Hst : stored (as_cons A) id c). { unfold stored. apply In_dget; assumption. }
      destruct (W5 id c Hst) as (Q & _). exact Q. }
    destruct HN as [HN HNa]. unfold given_row_names. clear - HN HNa. induction (m_rows m) as [|r l IH]; [constructor|]. cbn [map flat_map] in *. inversion HN as [|? ? H1 H2]; subst.
    assert (IH' := IH H2 (fun K => HNa (or_intror K))). apply NoDup_app_intro; [destruct (row_name k (r_name r)); repeat constructor; cbn; tauto|exact IH'|].
    intros s Hs K. apply in_flat_map in K. destruct K as (r' & Hr' & K). destruct (row_name k (r_name r)) as [s0|] eqn:E0; [|destruct Hs]. destruct Hs as [->|[]].
    destruct (row_name k (r_name r')) as [s1|] eqn:E1; [|destruct K]. destruct K as [->|[]]. apply H1. rewrite (row_name_inj _ _ _ _ E0 E1). now apply in_map.
  - intros v [(r & c & Hr & Hv)|[(l & Hl & Hv)|(c & Hv)]].
    + destruct (sh_rows _ _ _ _ SH r Hr) as [K|(i & Hi & K)]; [apply HP, (K c), Hv|].
      destruct K as [->|[->|(Q & [->| ->])]].
      * apply HP. eapply set_row_plain; [exact Hi|exact Hv].
      * apply HP. eapply pick_row_plain; [exact Hi|exact Hv].
      * destruct (HC Q) as [HC1 HC2]. unfold def_cost_row in Hv. destruct k; cbn [r_terms row_eq In] in Hv; (destruct Hv as [Hv|Hv]; [injection Hv as _ <-; now apply HC2|]).
        -- apply HP, (HCT i c); assumption.
        -- apply in_map_iff in Hv. destruct Hv as ([c' v'] & Q' & Hv). injection Q' as _ <-. apply HP, (HCT i c'); assumption.
      * destruct (HC Q) as [HC1 HC2]. cbn in Hv. destruct Hv as [Hv|[Hv|[]]]; injection Hv as _ <-; auto.
    + rewrite Hsos in Hl. apply in_map_iff in Hl. destruct Hl as (i & <- & Hi). apply HP, (HU i); assumption.
    + rewrite HO in Hv. unfold obj_of in Hv. destruct ct.
      1,2: apply in_flat_map in Hv; destruct Hv as (i & Hi & Hv); apply HP, (HCT i c); assumption.
      destruct (HC eq_refl) as [HC1 HC2]. destruct Hv as [Hv|Hv]; [injection Hv as _ <-; exact HC1|]. rewrite map_map in Hv. apply in_map_iff in Hv. destruct Hv as (i & Q & Hi). injection Q as _ <-. now apply HC2.
  - intros k' v Hv. apply HP. unfold excl_vars in Hv. destruct k'; apply in_map_iff in Hv; destruct Hv as (i & <- & Hi); exists i; (split; [exact Hi|right]).
    + exists (i_knull i). split; [apply (wi_null _ (HWf i Hi))|reflexivity].
    + exists 0%nat. split; [pose proof (wi_len _ (HWf i Hi)); lia|reflexivity].
  - intros i Hi. apply HP. exists i. split; [exact Hi|right]. exists 0%nat. split; [pose proof (wi_len _ (HWf i Hi)); lia|reflexivity].
Qed.

(** ** Preservation *)
Lemma tidy_same b infos m m' : registered m' = registered m -> map (fun r => (r_name r, r_terms r)) (m_rows m') = map (fun r => (r_name r, r_terms r)) (m_rows m) ->
  m_sos m' = m_sos m -> m_obj m' = m_obj m -> tidy b infos m -> tidy b infos m'.
Proof.
  intros H1 H2 H3 H4 [T1 T2 T3 T4 T5]. split.
  - now rewrite H1.
  - assert (Q : given_row_names b m' = given_row_names b m).
    { unfold given_row_names. apply (f_equal (flat_map (fun p => match row_name b (fst p) with Some s => [s] | None => [] end))) in H2. rewrite !flat_map_concat_map, !map_map in H2. cbn [fst] in H2. rewrite !flat_map_concat_map. exact H2. }
    now rewrite Q.
  - intros v Hv. rewrite H1. apply T3. destruct Hv as [(r & c & Hr & Hv)|[Hv|Hv]]; [left|right; left|right; right]; rewrite ?H3, ?H4 in *; auto.
    assert (K : In (r_name r, r_terms r) (map (fun r => (r_name r, r_terms r)) (m_rows m))) by (rewrite <- H2; apply in_map_iff; exists r; auto).
    apply in_map_iff in K. destruct K as (r' & E & Hr'). apply pair_equal_spec in E. destruct E as [_ E]. exists r', c. split; [exact Hr'|]. now rewrite E.
  - intros k v. rewrite H1. apply T4.
  - intros i. rewrite H1. apply T5.
Qed.
Lemma tidy_lower b infos v q m : tidy b infos m -> tidy b infos (set_lower v q m).
Proof.
  apply tidy_same; try reflexivity. unfold registered, set_lower. cbn. rewrite map_map. apply map_ext. intro d. destruct (mvar_eqb (v_var d) v); reflexivity.
Qed.
Lemma tidy_rhs b infos p q m : tidy b infos m -> tidy b infos (set_rhs p q m).
Proof.
  apply tidy_same; try reflexivity. unfold set_rhs. cbn. rewrite map_map. apply map_ext. intro r. destruct (p (r_name r)); reflexivity.
Qed.
Lemma tidy_excl b k infos s m : tidy b infos m -> tidy b infos (add_row (exclusion_row (excl_vars k infos) s) m).
Proof.
  intros [T1 T2 T3 T4 T5]. split; try assumption.
  - unfold given_row_names, add_row. cbn [m_rows]. rewrite flat_map_app. cbn. rewrite app_nil_r. exact T2.
  - intros v [(r & c & Hr & Hv)|[Hv|Hv]]; [|apply T3; right; left; exact Hv|apply T3; right; right; exact Hv]. unfold add_row in Hr. cbn [m_rows] in Hr. apply in_app_iff in Hr.
    destruct Hr as [Hr|[<-|[]]]; [apply T3; left; eauto|]. cbn in Hv. apply in_map_iff in Hv. destruct Hv as (v' & Q & Hv). apply pair_equal_spec in Q. destruct Q as [_ <-]. eapply T4, Hv.
Qed.
Definition all_tidy (b : builder) : Prop := forall ms, bd_mip b = Some ms -> tidy (bd_kind b) (ms_infos ms) (ms_mip ms).
Lemma fold_lower b infos l m : tidy b infos m -> tidy b infos (fold_left (fun m v => set_lower v 1 m) l m).
Proof. revert m. induction l as [|v l IH]; intros m H; [exact H|]. cbn. apply IH, tidy_lower, H. Qed.
Lemma tidy_remove et b b' : remove_solution et b = Ok b' -> all_tidy b -> all_tidy b'.
Proof.
  intros H HT. destruct et; cbn in H; unfold remove_all_features, remove_feature_combination, with_solution in H;
    (destruct (bd_mip b) as [ms|] eqn:EM; [|discriminate H]); specialize (HT ms EM); (destruct (bd_sol b) as [[s g|s| |]|]; try discriminate H); injection H as <-;
    intros ms' Q; cbn in Q; injection Q as <-; cbn [ms_infos ms_mip bd_kind with_mip]; try (now apply fold_lower); now apply tidy_excl.
Qed.
Definition keeps_tidy (b b' : builder) : Prop := all_tidy b -> all_tidy b'.
Lemma kt_trans a b c : keeps_tidy a b -> keeps_tidy b c -> keeps_tidy a c. Proof. unfold keeps_tidy. auto. Qed.
Lemma kt_fit sv b b' r : fit sv b = Ok (b', r) -> keeps_tidy b b'.
Proof.
  unfold fit, solve_mip. destruct (bd_mip b) as [ms|] eqn:EM; [|intro H; discriminate H]. cbn [bind]. intro H. bnd H as i Hi. injection H as <- <-.
  intros HT ms' Q. cbn in Q. injection Q as <-. exact (HT ms EM).
Qed.
Lemma kt_loop sv et : forall fuel total b b' l, populate_loop sv fuel total et b = Some (Ok (b', l)) -> keeps_tidy b b'.
Proof.
  induction fuel as [|fuel IH]; intros total b b' l; cbn [populate_loop]; destruct (match total with Some 0%nat => true | _ => false end);
    intro H; try discriminate H; try (injection H as <- <-; intro; assumption).
  destruct (fit sv b) as [[b1 [s|]]|] eqn:EF; try discriminate H.
  - destruct (remove_solution et b1) as [b2|] eqn:ER; [|discriminate H].
    destruct (populate_loop sv fuel (option_map Init.Nat.pred total) et b2) as [[[b3 l3]|]|] eqn:EL; try discriminate H. injection H as <- <-.
    eapply kt_trans; [eapply kt_fit, EF|]. eapply kt_trans; [intro; eapply tidy_remove; eassumption|]. eapply IH, EL.
  - injection H as <- <-. eapply kt_fit, EF.
Qed.
Lemma kt_populate sv fuel total et b b' l : populate sv fuel total et b = Some (Ok (b', l)) -> keeps_tidy b b'.
Proof. unfold populate. destruct (bd_mip b); [|intro H; discriminate H]. destruct total as [[|n]|]; try (intro H; discriminate H); apply kt_loop. Qed.
Lemma kt_min b k b' : set_min_items b k = Ok b' -> keeps_tidy b b'.
Proof. unfold set_min_items. destruct k as [k|]; [destruct (0 <=? k)%Z; [|discriminate]|]; intro H; injection H as <-; intro K; exact K. Qed.
Lemma kt_max b k b' : set_max_items b k = Ok b' -> keeps_tidy b b'.
Proof. unfold set_max_items. destruct k as [k|]; [destruct (0 <=? k)%Z; [|discriminate]|]; intro H; injection H as <-; intro K; exact K. Qed.
Lemma kt_rhs p v b b' : set_mip_rhs p v b = Ok b' -> keeps_tidy b b'.
Proof.
  unfold set_mip_rhs. destruct (bd_mip b) as [ms|] eqn:EM; [|discriminate]. intro H. injection H as <-. intros HT ms' Q. cbn in Q. injection Q as <-. apply tidy_rhs, (HT ms EM).
Qed.
Lemma kt_limits b lo hi : keeps_tidy b (fst (set_mip_item_limits b lo hi)).
Proof.
  assert (R : keeps_tidy b b) by (intro; assumption).
  unfold set_mip_item_limits. destruct lo as [lo|]; [|exact R]. destruct hi as [hi|]; [|exact R].
  destruct (lo <=? hi)%Z; [|exact R]. cbv zeta.
  assert (T : forall b2 (v : res (option Z)), keeps_tidy b b2 -> keeps_tidy b (fst (match (b2, v) with
        | (b2, Err e) => (b2, Err e)
        | (b2, Ok min_nnz) =>
            if (hi =? bd_max b2)%Z then (b2, Ok tt)
            else match min_nnz with
                 | None => (b2, Err UnboundLocalError)
                 | Some v => match set_mip_rhs is_max_row v b2 with
                             | Err e => (b2, Err e)
                             | Ok b3 => match set_max_items b3 (Some hi) with
                                        | Err e => (b3, Err e)
                                        | Ok b4 => (b4, Ok tt)
                                        end
                             end
                 end
        end))).
  { intros b2 [[v|]|e] HS; cbv beta iota; try exact HS; destruct (hi =? bd_max b2)%Z; try exact HS.
    destruct (set_mip_rhs is_max_row v b2) as [b3|] eqn:E3; [|exact HS]. pose proof (kt_trans _ _ _ HS (kt_rhs _ _ _ _ E3)) as HS3.
    destruct (set_max_items b3 (Some hi)) as [b4|] eqn:E4; [|exact HS3]. exact (kt_trans _ _ _ HS3 (kt_max _ _ _ E4)). }
  destruct (lo =? bd_min b)%Z; [exact (T b (Ok None) R)|].
  destruct (set_mip_rhs is_min_row (n_actionable b - lo) b) as [b1|e] eqn:E1; [|exact R].
  destruct (set_min_items b1 (Some lo)) as [b2|e] eqn:E2; [|exact (kt_rhs _ _ _ _ E1)].
  apply (T b2 (Ok (Some (n_actionable b - lo)%Z))). exact (kt_trans _ _ _ (kt_rhs _ _ _ _ E1) (kt_min _ _ _ E2)).
Qed.
Lemma kt_set_x E b x : ok_env E -> aset_reachable E (bd_A b) -> keeps_tidy b (fst (set_x E b x)).
Proof.
  intros HOE HA HT. unfold set_x. destruct (Nat.eqb _ _); [|exact HT]. destruct (build E (bd_kind b) (bd_A b) (bd_cost b) (bd_w b) (bd_t b) (bd_min b) (bd_max b) x) as [ms|] eqn:EB; [|exact HT].
  intros ms' Q. cbn in Q. injection Q as <-. cbn [bd_kind fst with_mip with_x]. pose proof (reachable_wf _ _ HA) as HW.
  eapply build_tidy; [exact HW|eapply reachable_ids, HA| |exact EB].
  destruct (build_inv _ _ _ _ _ _ _ _ _ _ EB) as (subs & HI & _). destruct (build_info_spec _ _ _ _ _ _ HOE HW HI) as (_ & K & _). exact K.
Qed.
Lemma kt_step E sv b o : ok_env E -> sane E b -> keeps_tidy b (builder_step E sv b o).
Proof.
  intros HOE HS. destruct o as [x| |f n et|lo hi|k|k|o]; cbn [builder_step].
  - apply kt_set_x; [exact HOE|apply HS].
  - destruct (fit sv b) as [[b' r]|] eqn:EF; [|intro K; exact K]. eapply kt_fit, EF.
  - destruct (populate sv f n et b) as [[[b' l]|]|] eqn:EF; try (intro K; exact K). eapply kt_populate, EF.
  - apply kt_limits.
  - destruct (set_min_items b k) eqn:EF; [|intro K; exact K]. eapply kt_min, EF.
  - destruct (set_max_items b k) eqn:EF; [|intro K; exact K]. eapply kt_max, EF.
  - intro K. exact K.
Qed.
Lemma tidy_created E b : ok_env E -> builder_created E b -> all_tidy b.
Proof.
  intros HOE Hb. pose proof (sane_created _ _ Hb) as [HSA _]. destruct Hb as (k & A & a & ct & x & HR & H). unfold mk_builder in H. bnd H as wt Hp. destruct wt as [w t]. bnd H as u Hu. apply passert_ok in Hu.
  bnd H as A' HA. cbv zeta in H. destruct x as [x|].
  - match type of H with (let '(_, _) := set_x E ?b0 x in _) = _ => pose proof (kt_set_x E b0 x HOE) as SS; pose proof (ss_set_x E b0 x) as ST; destruct (set_x E b0 x) as [b' r]; cbn in SS, ST; bnd H as v Hv; injection H as <- end.
    apply SS; [destruct ST as (_ & _ & _ & ST & _); cbn [bd_A] in ST; rewrite <- ST; exact HSA|]. intros ms Q. discriminate Q.
  - injection H as <-. intros ms Q. discriminate Q.
Qed.
Lemma reachable_tidy E sv b : ok_env E -> builder_reachable E sv b -> all_tidy b.
Proof.
  intros HOE (b0 & ops & H & ->). pose proof (sane_created _ _ H) as HS. apply tidy_created in H; [|exact HOE]. unfold builder_run. revert b0 H HS.
  induction ops as [|o ops IH]; intros b0 H HS; [exact H|]. cbn. apply IH; [now apply kt_step|now apply sane_step].
Qed.
Lemma c58_vars E sv b ms : ok_env E -> builder_reachable E sv b -> bd_mip b = Some ms ->
  NoDup (map var_name (registered (ms_mip ms))) /\ (forall v, refers_to (ms_mip ms) v -> In v (registered (ms_mip ms))) /\ NoDup (given_row_names (bd_kind b) (ms_mip ms)).
Proof.
  intros HOE HR HM. destruct (reachable_tidy _ _ _ HOE HR ms HM) as [T1 T2 T3 T4 T5]. split; [|split; assumption].
  apply NoDup_map_inj; [|exact T1]. intros a b' _ _. apply var_name_inj.
Qed.
