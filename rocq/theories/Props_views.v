(** Property theorems for selections, reading and writing attributes, replacing elements, and rendered tables:
    C17 (continued), C68-C74.  Vocabulary: Spec_views.v, Spec_actionset.v, Spec_flipset.v. *)
From Verif Require Import Spec_views Proofs_views Proofs_views2 Proofs_views3 Proofs_concrete Proofs_builder8 Proofs_scen Proofs_flipset4.
#[local] Open Scope string_scope.
#[local] Open Scope list_scope.
#[local] Open Scope Qc_scope.

(** * C17: which features an index selects. *)
Theorem C17_selection : forall A i ps, select A i = Ok ps -> names_features A i ps.
Proof. exact select_spec. Qed.
Print Assumptions C17_selection.
Example C17_selection_nonvacuous : ok_and (ex_set 1) (fun A =>
  match select A (IIdx [-1; 0]%Z), select A (ISlice (Some 1%Z) None), select A (IList [PStr "income"; PStr "age"]), select A (IInt (-2)) with
  | Ok [2%nat; 0%nat], Ok [1%nat; 2%nat], Ok [2%nat; 0%nat], Ok [1%nat] => true | _, _, _, _ => false end) = true.
Proof. vm_compute. reflexivity. Qed.

(** * C68: reading an attribute. *)
Theorem C68_whole_set : forall E A n, aset_reachable E A -> In n readable ->
  exists l, set_getattr A n = Ok l /\ Forall2 (shows n) (as_elems A) l.
Proof. exact whole_read. Qed.
Print Assumptions C68_whole_set.
Theorem C68_selection : forall E A i ps n, aset_reachable E A -> select A i = Ok ps -> NoDup ps -> In n readable ->
  exists l, index_getattr A i n = Ok l /\ Forall2 (fun p v => exists e, nth_error (as_elems A) p = Some e /\ shows n e v) ps l.
Proof. exact index_read. Qed.
Print Assumptions C68_selection.
(** [shows] determines the value. *)
Theorem C68_one_value : forall E n e v, elem_reachable E e -> In n readable -> elem_getattr n e = Ok v <-> shows n e v.
Proof. exact shows_complete. Qed.
Print Assumptions C68_one_value.
(** Names that are no attribute (a misspelling, say): reading fails on a new element; writing one stores it, without any other effect on
    what is read. *)
Theorem C68_other_names : forall n v m e e', elem_hasattr n = false -> String.prefix "_" n = false ->
  (elem_created e -> elem_getattr n e = Err AttributeError) /\
  (elem_setattr n v e = Ok e' -> elem_getattr n e' = Ok v /\ (m <> n -> elem_getattr m e' = elem_getattr m e)).
Proof. exact other_names. Qed.
Print Assumptions C68_other_names.
Example C68_nonvacuous : ok_and (ex_set 1) (fun A => match set_getattr A "name", index_getattr A (IIdx [2; 0]%Z) "name" with
  | Ok [PStr a; PStr b; PStr c], Ok [PStr d; PStr e] => String.eqb a "age" && String.eqb b "married" && String.eqb c "income" && String.eqb d "income" && String.eqb e "age"
  | _, _ => false end) = true.
Proof. vm_compute. reflexivity. Qed.

(** * C69: writing back what was read. *)
Theorem C69_write_back_refuted : exists A l A', aset_reachable env0 A /\ set_getattr A "lb" = Ok l /\ set_setattr A "lb" (PList l) = (A', Ok tt) /\
  map e_lb (as_elems A) <> map e_lb (as_elems A').
Proof. exact c69_refuted. Qed.
Print Assumptions C69_write_back_refuted.
Theorem C69_unaligned_refuted : exists A l, aset_reachable env0 A /\ set_getattr A "flip_direction" = Ok l /\
  set_setattr A "flip_direction" (PList l) = (A, Err AssertionError).
Proof. exact c69_unaligned. Qed.
Print Assumptions C69_unaligned_refuted.
Theorem C69_write_back_partial : forall E A n l, aset_reachable E A -> Forall (plain_attribute n) (as_elems A) -> set_getattr A n = Ok l ->
  set_setattr A n (PList l) = (A, Ok tt).
Proof. exact write_back_set. Qed.
Print Assumptions C69_write_back_partial.
Theorem C69_write_back_selection_partial : forall E A i ps n l, aset_reachable E A -> select A i = Ok ps -> NoDup ps -> In n readable ->
  (forall p e, In p ps -> nth_error (as_elems A) p = Some e -> plain_attribute n e) -> index_getattr A i n = Ok l ->
  match i with
  | IStr _ | IInt _ => exists v, l = [v] /\ index_setattr A i n v = (A, Ok tt)
  | _ => index_setattr A i n (PList l) = (A, Ok tt)
  end.
Proof. exact write_back_index. Qed.
Print Assumptions C69_write_back_selection_partial.
Example C69_nonvacuous : exists A, aset_reachable env0 A /\ Forall (plain_attribute "step_size") (as_elems A) /\ Forall (plain_attribute "actionable") (as_elems A) /\
  exists e, nth_error (as_elems A) 1 = Some e /\ plain_attribute "lb" e.
Proof. exact c69_case. Qed.

(** * C70: the summary table and the printed table; a selection cannot be printed. *)
Theorem C70_summary_table : forall E A, aset_reachable E A -> exists d, summary A = Ok d /\
  Forall2 (fun n c => fst c = n /\ Forall2 (shows n) (as_elems A) (snd c))
    ["name"; "variable_type"; "lb"; "ub"; "size"; "step_size"; "actionable"; "compatible"; "step_direction"; "flip_direction"] d.
Proof. exact c70_summary. Qed.
Print Assumptions C70_summary_table.
Theorem C70_printed_table_partial : forall E A, aset_reachable E A -> exists d, set_repr true A = Ok d /\
  Forall2 (fun n c => fst c = n /\ Forall2 (shows n) (as_elems A) (snd c))
    ["name"; "variable_type"; "actionable"; "compatible"; "step_direction"; "flip_direction"; "size"; "step_type"; "step_size"; "lb"; "ub"] d.
Proof. exact c70_printed. Qed.
Print Assumptions C70_printed_table_partial.
Theorem C70_printing_refuted : forall A ps, tabulate (inr ps) = Err AssertionError /\ set_repr false A = Err TypeError.
Proof. intros. split; reflexivity. Qed.
Print Assumptions C70_printing_refuted.

(** * C71: to_latex of an action set. *)
Theorem C71_latex_table_refuted : exists A e r, aset_reachable env0 A /\ nth_error (as_elems A) 0 = Some e /\ nth_error (tex_table A) 0 = Some r /\
  e_actionable e = true /\ e_step_dir e = (-1)%Z /\ tr_mut r = MutUp /\ e_vtype e = TInt /\ tr_type r = TexReal.
Proof. exact c71_refuted. Qed.
Print Assumptions C71_latex_table_refuted.
(** The mutability column is right exactly for features that need not decrease; the type column is constant. *)
Theorem C71_latex_table_partial : forall E A, aset_reachable E A ->
  Forall2 (fun e r => tr_name r = e_name e /\ tr_lb r = e_lb e /\ tr_ub r = e_ub e /\ tr_size r = length (e_grid e) /\ tr_step r = e_step_size e /\
      tr_type r = TexReal /\
      (truthful_mutability e (tr_mut r) <-> ~ (e_actionable e = true /\ (e_step_dir e < 0)%Z)) /\
      (e_actionable e = true -> (e_step_dir e < 0)%Z -> tr_mut r = MutUp)) (as_elems A) (tex_table A).
Proof. exact c71. Qed.
Print Assumptions C71_latex_table_partial.

(** * C72: items and actions of a flipset. *)
Theorem C72_item_dicts : forall E sv srt k A x w t ob f, ok_sorter srt -> length x = as_len A -> length w = as_len A -> aset_reachable E A ->
  flipset_reachable E sv srt k A x w t ob f ->
  f_actions f = map fi_actions (f_items f) /\
  Forall2 (fun i d => map fst d = as_names A /\ map snd d = fi_actions i) (f_items f) (f_item_dicts f).
Proof. exact c72. Qed.
Print Assumptions C72_item_dicts.
(** For a flipset with an item see C73_nonvacuous below and flipset_case in Props_flipset.v. *)

(** * C73: to_latex of a flipset. *)
Theorem C73_latex_names_refuted : exists A f, aset_reachable env0 A /\ flipset_created PyMIP A x01 w11 (- z 3) None f /\
  forall srt order, ok_sorter srt -> ok_order order -> exists f1 l, f_add srt f [i_second] = (f1, Ok tt) /\ snd (to_flat_df srt order f1) = Ok (Some [l]) /\
    fl_feature l = "income_now" /\ f_latex_names srt order "\textit" f1 = Ok ["\textit{income}_now"].
Proof. exact c73_refuted. Qed.
Print Assumptions C73_latex_names_refuted.
Theorem C73_empty_refuted : exists A f, aset_reachable env0 A /\ flipset_created PyMIP A x01 w11 (- z 3) None f /\
  forall srt order fmt, ok_sorter srt -> f_latex_names srt order fmt f = Err AttributeError.
Proof. exact c73_empty. Qed.
Print Assumptions C73_empty_refuted.
Theorem C73_latex_names_partial : forall E sv srt k A x w t ob f order fmt,
  ok_sorter srt -> ok_order order -> length x = as_len A -> length w = as_len A -> aset_reachable E A -> flipset_reachable E sv srt k A x w t ob f ->
  (forall v n, In v (as_names A) -> In n (as_names A) -> v <> n -> ~ occurs v (fmt ++ "{" ++ n ++ "}")) ->
  forall lines, snd (to_flat_df srt order f) = Ok (Some lines) ->
  f_latex_names srt order fmt f = Ok (map (fun l => fmt ++ "{" ++ fl_feature l ++ "}")%string lines).
Proof. exact c73. Qed.
Print Assumptions C73_latex_names_partial.
Example C73_nonvacuous : exists A f, aset_reachable env0 A /\ flipset_created PyMIP A x01 w11 (- z 3) None f /\
  (forall v n, In v (as_names A) -> In n (as_names A) -> v <> n -> ~ occurs v ("\textit" ++ "{" ++ n ++ "}")) /\
  forall srt order, ok_sorter srt -> ok_order order -> exists f1, f_add srt f [i_second] = (f1, Ok tt) /\ f_latex_names srt order "\textit" f1 = Ok ["\textit{debts}"].
Proof. exact c73_case. Qed.

(** * C74: replacing an element. *)
Theorem C74_replaced_name_refuted : exists A e A' l, aset_reachable env0 A /\ In e (as_elems A) /\ setitem A "age" e = Ok A' /\
  set_getattr A' "name" = Ok l /\ l <> map PStr (as_names A').
Proof. exact c74_refuted. Qed.
Print Assumptions C74_replaced_name_refuted.
Theorem C74_replace_partial : forall E A n e A', aset_reachable E A -> elem_reachable E e -> setitem A n e = Ok A' ->
  (exists p, nth_error (as_names A) p = Some n /\ nth_error (as_elems A') p = Some e /\
     forall q, q <> p -> nth_error (as_elems A') q = nth_error (as_elems A) q) /\
  as_names A' = as_names A /\ as_cons A' = as_cons A /\ as_y A' = as_y A /\ (e_name e = n -> aset_reachable E A').
Proof. exact c74. Qed.
Print Assumptions C74_replace_partial.
Theorem C74_known_names : forall A n e, (In n (as_names A) -> exists A', setitem A n e = Ok A') /\ (~ In n (as_names A) -> setitem A n e = Err AssertionError).
Proof. exact c74_known. Qed.
Print Assumptions C74_known_names.
Example C74_nonvacuous : ok_and (ex_set 1) (fun A => match nth_error (as_elems A) 0 with
  | Some e => String.eqb (e_name e) "age" && ok_and (setitem A "age" e) (fun A' => Nat.eqb (as_len A') 3) | None => false end) = true.
Proof. vm_compute. reflexivity. Qed.
