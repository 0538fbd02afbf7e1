(** Theorem C110: the HTML page of a flipset. *)
From Verif Require Import Spec_html Spec_audit Proofs_concrete Proofs_scen Proofs_builder8 Proofs_html.
#[local] Open Scope list_scope.
#[local] Open Scope Qc_scope.

(** * C110: the page tells the truth.
      False of the message 'No Recourse': it is shown for every flipset without items, also before populate was called. *)
Theorem C110_message_refuted : exists A f, aset_reachable env0 A /\ flipset_created PyMIP A x01 [z 1; z 1] (- z 3) None f /\ as_y A = 1%Z /\ denied 1 (score [z 1; z 1] (- z 3) x01) /\
  forall srt order, ok_sorter srt -> (exists f', to_html srt order f = (f', Ok NoRecourse)) /\
    forall sv fuel et ct, sound_solver sv -> finishing_solver sv -> (2 ^ as_len A < fuel)%nat -> exists f', f_populate env0 sv srt fuel None et ct f = Some (f', Ok tt) /\ f_items f' <> [].
Proof. exact message_refuted. Qed.
Print Assumptions C110_message_refuted.
(** After a first populate for an individual without the desired outcome, the message is shown exactly if nothing the individual is allowed to do helps.
    Missing: as for the verdicts (C27): features whose current value an integer grid cannot represent, replaced data, constraints out of line. *)
Theorem C110_message_partial : forall E sv srt k A x w t fuel total et ct f f1 order f2 p, ok_env E -> sound_solver sv -> finishing_solver sv -> ok_sorter srt -> ok_order order -> density E -> log_ok E ct ->
  aset_reachable E A -> current_percentiles A -> alignment_known A = false \/ flips_match A w -> orderly E A w x -> denied (as_y A) (score w t x) ->
  flipset_created k A x w t None f -> total <> Some 0%nat -> (2 ^ as_len A < fuel)%nat -> f_populate E sv srt fuel total et ct f = Some (f1, Ok tt) -> to_html srt order f1 = (f2, Ok p) ->
  (p = NoRecourse <-> forall a, permitted_action A x a -> movable_only A x a -> compliant A x a -> ~ on_side (as_y A) (score w t (vadd x a))).
Proof. exact message_ok. Qed.
Print Assumptions C110_message_partial.
(** The table: every change of every item in one row, with the right values; whole numbers without decimals; rows of one item share a background, neighbouring
    items do not; the rows of an item are numbered 1, 2, ... *)
Theorem C110_table : forall E sv srt k A x w t ob f order f' p, ok_sorter srt -> length x = as_len A -> length w = as_len A -> flipset_reachable E sv srt k A x w t ob f -> ok_order order ->
  to_html srt order f = (f', Ok p) ->
  (f_items f = [] /\ p = NoRecourse) \/
  exists rows its, p = Page rows /\ f_items f <> [] /\ Permutation its (f_items f) /\
    Permutation (map row_says rows) (flat_map (fun q => change_lines (as_names A) x (fst q) (fi_actions (snd q))) (combine (seq 0 (length its)) its)) /\
    (forall r, In r rows -> tidy (hr_from r) /\ tidy (hr_to r)) /\ NoDup (map hr_label rows) /\ banded rows /\
    forall i, map (fun r => snd (hr_label r)) (filter (fun r => Nat.eqb (fst (hr_label r)) i) rows) = seq 1 (length (filter (fun r => Nat.eqb (fst (hr_label r)) i) rows)).
Proof. exact html_table. Qed.
Print Assumptions C110_table.
(** A page is always produced while the sort keys are scalar columns (as they are initially; others: C47). *)
Theorem C110_total : forall srt order f, ok_sorter srt -> scalar_keys (f_by f) -> exists f' p, to_html srt order f = (f', Ok p).
Proof. exact html_total. Qed.
Print Assumptions C110_total.
(** Both pages occur. *)
Example C110_case : forall t0 (fe : bool), (t0 = - z 3 /\ fe = true) \/ (t0 = - z 7 /\ fe = false) -> exists A f, aset_reachable env0 A /\ current_percentiles A /\ alignment_known A = false /\ orderly env0 A [z 1; z 1] x01 /\ fits_grids A x01 /\ denied (as_y A) (score [z 1; z 1] t0 x01) /\
  flipset_created PyMIP A x01 [z 1; z 1] t0 None f /\
  forall sv srt order fuel et ct, sound_solver sv -> finishing_solver sv -> ok_sorter srt -> ok_order order -> (2 ^ as_len A < fuel)%nat -> exists f1 f2 p, f_populate env0 sv srt fuel None et ct f = Some (f1, Ok tt) /\ to_html srt order f1 = (f2, Ok p) /\ (p = NoRecourse <-> fe = false).
Proof. exact message_case. Qed.
