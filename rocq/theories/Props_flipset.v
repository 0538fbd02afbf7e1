(** Property theorems for flipsets: C44-C48, C57, C60-C63.  Vocabulary: Spec_flipset.v, Spec_recourse.v.
    [flipset_reachable E sv srt k A x w t ob f]: [f] was created for individual [x], action set [A] and classifier
    (w, t), with builder [ob] if one was supplied, and then underwent any sequence of populate, sort, to_flat_df
    calls and additions. *)
From Verif Require Import Spec_flipset Proofs_concrete Proofs_solver Proofs_scen Proofs_builder8 Proofs_flipset Proofs_flipset2 Proofs_flipset3 Proofs_flipset4 Proofs_flipset5.
#[local] Open Scope list_scope.
#[local] Open Scope Qc_scope.

(** * The assumptions on pandas can be met *)
Example sorters_exist : ok_sorter srt0 /\ ok_order order0.
Proof. exact (conj srt0_ok order0_ok). Qed.
(** A flipset of a two-feature individual with two items; in the table the smaller one comes first. *)
Example flipset_case : forall srt, ok_sorter srt -> exists A f f' r1 r2, aset_reachable env0 A /\ length x01 = as_len A /\ length w11 = as_len A /\
  flipset_created PyMIP A x01 w11 (- z 3) None f /\ Forall2 (filable A x01 w11 (- z 3)) [i_big; i_small] [v_big; v_small] /\
  f_add srt f [i_big; i_small] = (f', Ok tt) /\ f_items f' = [v_big; v_small] /\ f_df f' = [(1%nat, r2); (0%nat, r1)] /\
  describes w11 (- z 3) x01 (as_names A) v_big r1 /\ describes w11 (- z 3) x01 (as_names A) v_small r2.
Proof.
  intros srt HS. destruct case_aset as (A & HR & HL & _). destruct (two_sorted srt A HS HL) as (f' & r1 & r2 & H1 & H2 & H3 & _ & _ & H4 & H5 & _).
  exists A, (case_flip A), f', r1, r2. split; [exact HR|]. split; [now rewrite HL|]. split; [now rewrite HL|]. split; [apply new_created|]. split; [now apply two_filable|]. auto 8.
Qed.

(** * C44: yhat is the raw score, so outside {0, 1, -1} every well-formed action is accepted. *)
Theorem C44_only_flipping_actions_refuted : exists A x w t a c i f, aset_reachable env0 A /\ length x = as_len A /\ length w = as_len A /\ flipset_created PyMIP A x w t None f /\
  wf_item (as_len A) i a c /\ ~ flips w t x a /\
  forall srt, ok_sorter srt -> exists f', f_add srt f [i] = (f', Ok tt) /\ f_items f' = [{| fi_actions := a; fi_cost := c |}].
Proof. exact c44_refuted. Qed.
Print Assumptions C44_only_flipping_actions_refuted.
(** populate itself files such an action for an individual that already has the desired outcome. *)
Theorem C44_populate_refuted : exists A x w t f, aset_reachable env0 A /\ length x = as_len A /\ length w = as_len A /\ as_y A = 1%Z /\ flipset_created PyMIP A x w t None f /\
  forall sv srt fuel, sound_solver sv -> finishing_solver sv -> ok_sorter srt -> (4 < fuel)%nat ->
  exists f' v, f_populate env0 sv srt fuel (Some 1%nat) DistinctSubsets CTotal f = Some (f', Ok tt) /\ f_items f' = [v] /\ ~ flips w t x (fi_actions v).
Proof. exact c44_populate. Qed.
Print Assumptions C44_populate_refuted.
(** One direction holds in general; the equivalence holds for scores 0, 1 and -1. *)
Theorem C44_flipping_actions_accepted_partial : forall E sv srt k A x w t ob f,
  ok_sorter srt -> length x = as_len A -> length w = as_len A -> flipset_reachable E sv srt k A x w t ob f ->
  forall i a c, wf_item (as_len A) i a c -> flips w t x a ->
  f_items (fst (f_add srt f [i])) = f_items f ++ [{| fi_actions := a; fi_cost := c |}].
Proof. exact c44_flip. Qed.
Print Assumptions C44_flipping_actions_accepted_partial.
Theorem C44_unit_scores_partial : forall E sv srt k A x w t ob f,
  ok_sorter srt -> length x = as_len A -> length w = as_len A -> flipset_reachable E sv srt k A x w t ob f ->
  forall i a c, wf_item (as_len A) i a c -> score w t x = 0 \/ score w t x = 1 \/ score w t x = - (1) ->
  (flips w t x a /\ f_items (fst (f_add srt f [i])) = f_items f ++ [{| fi_actions := a; fi_cost := c |}]) \/
  (~ flips w t x a /\ exists e, f_add srt f [i] = (f, Err e)).
Proof. exact c44_exact. Qed.
Print Assumptions C44_unit_scores_partial.
(** What the code does for every other score. *)
Theorem C44_other_scores_accept_all : forall E sv srt k A x w t ob f,
  ok_sorter srt -> length x = as_len A -> length w = as_len A -> flipset_reachable E sv srt k A x w t ob f ->
  forall i a c, wf_item (as_len A) i a c -> score w t x <> 0 -> score w t x <> 1 -> score w t x <> - (1) ->
  f_items (fst (f_add srt f [i])) = f_items f ++ [{| fi_actions := a; fi_cost := c |}].
Proof. exact c44_any. Qed.
Print Assumptions C44_other_scores_accept_all.

(** * C45: populate either fails to create its builder (leaving the flipset as it was) or files exactly what the
      builder returns. *)
Theorem C45_populate_files_all : forall E sv srt k A x w t f fuel total et ct,
  ok_env E -> sound_solver sv -> ok_sorter srt -> aset_reachable E A ->
  flipset_reachable E sv srt k A x w t None f -> denied (as_y A) (score w t x) -> scalar_keys (f_by f) -> total <> Some 0%nat -> (2 ^ as_len A < fuel)%nat ->
  (exists e, f_builder f = None /\ mk_builder E k A (coef_args w t) ct (Some x) = Err e /\ f_populate E sv srt fuel total et ct f = Some (f, Err e)) \/
  exists b b' l f', (f_builder f = Some b \/ f_builder f = None /\ mk_builder E k A (coef_args w t) ct (Some x) = Ok b) /\
    populate sv fuel total et b = Some (Ok (b', l)) /\ f_populate E sv srt fuel total et ct f = Some (f', Ok tt) /\
    f_items f' = f_items f ++ map filed l /\
    forall s, In s l -> permitted_action A x (s_actions s) /\ on_side (as_y A) (score w t (vadd x (s_actions s))) /\ flips w t x (s_actions s).
Proof. exact c45. Qed.
Print Assumptions C45_populate_files_all.
(** A denied individual for whom two populate calls both file items. *)
Example C45_nonvacuous : exists A x w t f, aset_reachable env0 A /\ denied (as_y A) (score w t x) /\ flipset_created PyMIP A x w t None f /\
  forall sv srt fuel, sound_solver sv -> finishing_solver sv -> ok_sorter srt -> (8 < fuel)%nat ->
  exists f1 f2 v vs, f_populate env0 sv srt fuel (Some 1%nat) DistinctSubsets CTotal f = Some (f1, Ok tt) /\
    f_populate env0 sv srt fuel (Some 1%nat) DistinctSubsets CMax f1 = Some (f2, Ok tt) /\ f_items f2 = f_items f1 ++ v :: vs.
Proof.
  destruct c60_refuted as (A & x & w & t & f & H1 & H2 & H3 & H4 & H5). exists A, x, w, t, f. rewrite H2. do 3 (split; [assumption|]). intros sv srt fuel S F O L.
  destruct (H5 sv srt fuel S F O L) as (f1 & f2 & v & vs & c & cs & m & K1 & K2 & K3 & _). eauto 8.
Qed.

(** * C46: one row per item, in some order, each describing its item. *)
Theorem C46_rows_describe_items : forall E sv srt k A x w t ob f,
  ok_sorter srt -> length x = as_len A -> length w = as_len A -> flipset_reachable E sv srt k A x w t ob f ->
  exists its, Permutation its (f_items f) /\ Forall2 (describes w t x (as_names A)) its (map snd (f_df f)).
Proof. exact c46. Qed.
Print Assumptions C46_rows_describe_items.

(** * C47: not after a sort that was not in place (its keys are saved, together with inplace = False). *)
Theorem C47_table_sorted_refuted : exists A f, aset_reachable env0 A /\ flipset_created PyMIP A x01 w11 (- z 3) None f /\
  forall sv srt, ok_sorter srt ->
    let ops := [FSort (SortBy [Some KCost] false true); FAdd [i_big; i_small]] in
    chosen_keys ops = [KCost] /\ length (f_df (flipset_run env0 sv srt f ops)) = 2%nat /\ ~ ascending [KCost] (f_df (flipset_run env0 sv srt f ops)).
Proof. exact c47_refuted. Qed.
Print Assumptions C47_table_sorted_refuted.
(** Nor with list-valued sort keys, which are accepted while the flipset is empty: later additions are stored
    and then raise. *)
Theorem C47_list_keys_refuted : exists A f, aset_reachable env0 A /\ flipset_created PyMIP A x01 w11 (- z 3) None f /\
  forall srt, ok_sorter srt -> exists f1 f2, f_sort srt f (SortBy [Some KSize; Some KFeatures] true true) = (f1, Ok tt) /\
    f_add srt f1 [i_big; i_small] = (f2, Err TypeError) /\ f_items f2 = [v_big; v_small] /\ length (f_df f2) = 2%nat /\ ~ ascending [KSize; KFeatures] (f_df f2).
Proof. exact c47_list_keys. Qed.
Print Assumptions C47_list_keys_refuted.
(** What ascending means: by the first key; where rows agree in it, by the others.  False comes before True. *)
Theorem C47_order : forall k ks r r',
  (table_le [] r r' = true) /\
  (table_le (k :: ks) r r' = true <-> table_le [k] r' r = false \/ (table_le [k] r r' = true /\ table_le ks r r' = true)) /\
  (table_le [KSize] r r' = true <-> (r_size r <= r_size r')%nat) /\
  (table_le [KScore] r r' = true <-> r_score r <= r_score r') /\
  (table_le [KYhat] r r' = true <-> (r_yhat r <= r_yhat r')%Z) /\
  (table_le [KFeasible] r r' = true <-> (r_feasible r = true -> r_feasible r' = true)) /\
  (table_le [KFlipped] r r' = true <-> (r_flipped r = true -> r_flipped r' = true)) /\
  (forall c c', r_cost r = Fin c -> r_cost r' = Fin c' -> (table_le [KCost] r r' = true <-> c <= c')) /\
  (forall c, r_cost r = Fin c -> r_cost r' = PosInf -> table_le [KCost] r r' = true /\ table_le [KCost] r' r = false).
Proof. exact c47_order. Qed.
Print Assumptions C47_order.
Theorem C47_table_sorted_partial : forall E sv srt k A x w t ob f ops,
  ok_sorter srt -> flipset_created k A x w t ob f -> Forall plain_sort ops ->
  ascending (chosen_keys ops) (f_df (flipset_run E sv srt f ops)).
Proof.
  intros E sv srt k A x w t ob f ops HS HC HP. destruct (frame_created _ _ _ _ _ _ _ HC) as (F & E1 & E2 & _ & E3 & E4).
  apply (sorted_run E sv srt ops HS [KSize; KCost; KScore] f HP). repeat split; auto. rewrite E2. constructor.
Qed.
Print Assumptions C47_table_sorted_partial.

(** * C48 *)
Theorem C48_all_appended : forall E sv srt k A x w t ob f,
  ok_sorter srt -> length x = as_len A -> length w = as_len A -> flipset_reachable E sv srt k A x w t ob f ->
  forall items vs, Forall2 (filable A x w t) items vs ->
  f_items (fst (f_add srt f items)) = f_items f ++ vs /\ (scalar_keys (f_by f) -> snd (f_add srt f items) = Ok tt).
Proof. exact c48_all. Qed.
Print Assumptions C48_all_appended.
Theorem C48_nothing_changed : forall E sv srt k A x w t ob f,
  ok_sorter srt -> length x = as_len A -> length w = as_len A -> flipset_reachable E sv srt k A x w t ob f ->
  forall items i, In i items -> ~ (exists v, filable A x w t i v) -> exists e, f_add srt f items = (f, Err e).
Proof. exact c48_none. Qed.
Print Assumptions C48_nothing_changed.

(** * C57 *)
Theorem C57_flat_table : forall E sv srt k A x w t ob f,
  ok_sorter srt -> length x = as_len A -> length w = as_len A -> flipset_reachable E sv srt k A x w t ob f ->
  forall order, ok_order order -> forall f' r, to_flat_df srt order f = (f', r) -> (forall e, r <> Err e) ->
  (f_items f = [] /\ r = Ok None) \/
  exists lines its, r = Ok (Some lines) /\ Permutation its (f_items f) /\ StronglySorted (fun a b => (fl_item a <= fl_item b)%nat) lines /\
    Permutation lines (flat_map (fun p => change_lines (as_names A) x (fst p) (fi_actions (snd p))) (combine (seq 0 (length its)) its)).
Proof. exact c57. Qed.
Print Assumptions C57_flat_table.

(** * C60: the first populate call fixes the cost function. *)
Theorem C60_cost_type_honoured_refuted : exists A x w t f, aset_reachable env0 A /\ as_y A = 1%Z /\ denied 1 (score w t x) /\ flipset_created PyMIP A x w t None f /\
  forall sv srt fuel, sound_solver sv -> finishing_solver sv -> ok_sorter srt -> (8 < fuel)%nat ->
  exists f1 f2 v vs c cs m, f_populate env0 sv srt fuel (Some 1%nat) DistinctSubsets CTotal f = Some (f1, Ok tt) /\
    f_populate env0 sv srt fuel (Some 1%nat) DistinctSubsets CMax f1 = Some (f2, Ok tt) /\ f_items f2 = f_items f1 ++ v :: vs /\
    fi_cost v = Fin c /\ action_costs env0 CMax A x (fi_actions v) cs /\ largest cs m /\ m < c.
Proof. exact c60_refuted. Qed.
Print Assumptions C60_cost_type_honoured_refuted.
Theorem C60_cost_type_honoured_partial : forall E sv srt k A x w t f0 ops fuel total et ct f',
  ok_env E -> sound_solver sv -> finishing_solver sv -> ok_sorter srt -> aset_reachable E A ->
  flipset_created k A x w t None f0 -> Forall (uses_cost ct) ops ->
  f_populate E sv srt fuel total et ct (flipset_run E sv srt f0 ops) = Some (f', Ok tt) ->
  exists vs, f_items f' = f_items (flipset_run E sv srt f0 ops) ++ vs /\
    forall v, In v vs -> exists c cs, fi_cost v = Fin c /\ action_costs E ct A x (fi_actions v) cs /\ overall_cost ct cs c.
Proof. exact c60_same. Qed.
Print Assumptions C60_cost_type_honoured_partial.

(** * C61: the flat table is ordered by the label an item got when it was added. *)
Theorem C61_flat_order_refuted : exists A f, aset_reachable env0 A /\ flipset_created PyMIP A x01 w11 (- z 3) None f /\
  forall srt order, ok_sorter srt -> ok_order order -> exists f1 f2 lines, f_add srt f [i_big; i_small] = (f1, Ok tt) /\
    to_flat_df srt order f1 = (f2, Ok (Some lines)) /\
    map (fun p => r_size (snd p)) (f_df f2) = [1; 2]%nat /\ map fl_item lines = [0; 0; 1]%nat /\
    Permutation lines (change_lines ["a"; "b"] x01 0 [z 1; z 1] ++ change_lines ["a"; "b"] x01 1 [z 2; z 0])%list.
Proof. exact c61_refuted. Qed.
Print Assumptions C61_flat_order_refuted.
(** After the first addition the lines follow the order of the added items. *)
Theorem C61_flat_order_partial : forall E sv srt order k A x w t f items vs f1 f2 r,
  ok_sorter srt -> ok_order order -> length x = as_len A -> length w = as_len A ->
  flipset_reachable E sv srt k A x w t None f -> f_items f = [] -> Forall2 (filable A x w t) items vs -> vs <> [] ->
  f_add srt f items = (f1, Ok tt) -> to_flat_df srt order f1 = (f2, r) -> (forall e, r <> Err e) ->
  exists lines, r = Ok (Some lines) /\ StronglySorted (fun a b => (fl_item a <= fl_item b)%nat) lines /\
    Permutation lines (flat_map (fun p => change_lines (as_names A) x (fst p) (fi_actions (snd p))) (combine (seq 0 (length vs)) vs)).
Proof. exact c61_single. Qed.
Print Assumptions C61_flat_order_partial.

(** * C62: a supplied builder is not checked against the flipset's individual. *)
Theorem C62_supplied_builder_refuted : exists A x x' w t b0 f, aset_reachable env0 A /\ as_y A = 1%Z /\ denied 1 (score w t x) /\
  mk_builder env0 PyMIP A (coef_args w t) CTotal (Some x') = Ok b0 /\ flipset_created PyMIP A x w t (Some b0) f /\
  forall sv srt fuel, sound_solver sv -> finishing_solver sv -> ok_sorter srt -> (4 < fuel)%nat ->
  exists f' v, f_populate env0 sv srt fuel (Some 1%nat) DistinctSubsets CTotal f = Some (f', Ok tt) /\ f_items f' = [v] /\ ~ permitted_action A x (fi_actions v).
Proof. exact c62_refuted. Qed.
Print Assumptions C62_supplied_builder_refuted.
(** It holds when the supplied builder was created for the flipset's individual, action set and classifier. *)
Theorem C62_supplied_builder_partial : forall E sv srt k A x w t ct b0 f0 ops fuel total et ct' f',
  ok_env E -> sound_solver sv -> ok_sorter srt -> aset_reachable E A ->
  mk_builder E k A (coef_args w t) ct (Some x) = Ok b0 -> flipset_created k A x w t (Some b0) f0 ->
  f_populate E sv srt fuel total et ct' (flipset_run E sv srt f0 ops) = Some (f', Ok tt) ->
  exists l, map fi_actions (f_items f') = (map fi_actions (f_items (flipset_run E sv srt f0 ops)) ++ map s_actions l)%list /\
    forall s, In s l -> permitted_action A x (s_actions s) /\ on_side (as_y A) (score w t (vadd x (s_actions s))).
Proof. exact c62_own. Qed.
Print Assumptions C62_supplied_builder_partial.

(** * C63: every row says flipped = True. *)
Theorem C63_flipped_column_refuted : exists A x w t a i f, aset_reachable env0 A /\ length x = as_len A /\ length w = as_len A /\ flipset_created PyMIP A x w t None f /\
  wf_item (as_len A) i a (Fin 1) /\ ~ flips w t x a /\
  forall srt, ok_sorter srt -> exists f' r, f_add srt f [i] = (f', Ok tt) /\ map snd (f_df f') = [r] /\
    describes w t x (as_names A) {| fi_actions := a; fi_cost := Fin 1 |} r /\ r_flipped r = true.
Proof. exact c63_refuted. Qed.
Print Assumptions C63_flipped_column_refuted.
Theorem C63_flipped_column_partial : forall E sv srt k A x w t ob f p,
  ok_sorter srt -> flipset_reachable E sv srt k A x w t ob f -> In p (f_df f) -> r_flipped (snd p) = true.
Proof. exact c63_always. Qed.
Print Assumptions C63_flipped_column_partial.
