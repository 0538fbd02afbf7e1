(** Specification vocabulary for HTML pages. *)
From Verif Require Export Spec_flipset Model_html.
#[local] Open Scope list_scope.
#[local] Open Scope Qc_scope.

(** The number a cell denotes. *)
Definition cell_value (c : cell) : Qc := match c with Whole n => qz n | Decimal q => q end.
(** Whole numbers are shown without decimals. *)
Definition tidy (c : cell) : Prop := match c with Whole _ => True | Decimal q => forall n, q <> qz n end.
(** What a row says: that item number .. changes feature .. from .. to .. *)
Definition row_says (r : html_row) : flat_line :=
  {| fl_item := fst (hr_label r); fl_feature := hr_feature r; fl_from := cell_value (hr_from r); fl_to := cell_value (hr_to r) |}.
(** Rows that follow each other have the same background exactly if they belong to the same item. *)
Definition banded (rows : list html_row) : Prop :=
  forall i r r', nth_error rows i = Some r -> nth_error rows (S i) = Some r' -> (hr_colour r = hr_colour r' <-> fst (hr_label r) = fst (hr_label r')).
