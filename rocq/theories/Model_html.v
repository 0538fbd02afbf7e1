(** Model of Flipset.to_html (flipset.py 294-338).  Simplifications: the markup itself, the arrow column and the styling of the page are
    not modelled; a page is the 'No Recourse' message or a list of rows.  A row keeps its (hidden) index label, background colour and cells. *)
From Verif Require Export Model_flipset.
#[local] Open Scope list_scope.
#[local] Open Scope Qc_scope.

(** 329-330: [str(int(x)) if int(x) == x else str(x)]: a numeral without or with decimals. *)
Inductive cell := Whole (n : Z) | Decimal (q : Qc).
Definition show_cell (q : Qc) : cell := if qz (qtrunc q) =? q then Whole (qtrunc q) else Decimal q.
(** 297-301: 'white' for odd item labels and '#e2efd8' for even ones. *)
Inductive colour := White | Green.
Definition row_colour (label : nat * nat) : colour := if Nat.eqb (Nat.modulo (fst label) 2) 1 then White else Green.
Record html_row := { hr_label : nat * nat; hr_colour : colour; hr_feature : string; hr_from : cell; hr_to : cell }.
(** 322-328: groupby('item').cumcount() + 1 numbers the lines of an item; [seen] are the items of the lines above. *)
Fixpoint html_rows (seen : list nat) (lines : list flat_line) : list html_row :=
  match lines with
  | [] => []
  | l :: rest =>
      let label := (fl_item l, S (count_occ Nat.eq_dec seen (fl_item l))) in
      {| hr_label := label; hr_colour := row_colour label; hr_feature := fl_feature l; hr_from := show_cell (fl_from l); hr_to := show_cell (fl_to l) |}
      :: html_rows (fl_item l :: seen) rest
  end.
(** 294-338.  303: to_flat_df sorts the table; 304-315: the message for an empty flipset.
    331-337: Styler.apply refuses an index with repeated labels (pandas: ValueError). *)
Inductive page := NoRecourse | Page (rows : list html_row).
Fixpoint distinct_labels (ls : list (nat * nat)) : bool :=
  match ls with [] => true | l :: r => negb (existsb (fun m => Nat.eqb (fst l) (fst m) && Nat.eqb (snd l) (snd m)) r) && distinct_labels r end.
Definition to_html (srt : sorter) (order : list flat_line -> list flat_line) (f : flipset) : flipset * res page :=
  let '(f', r) := to_flat_df srt order f in
  (f', match r with
       | Err e => Err e
       | Ok None => Ok NoRecourse
       | Ok (Some lines) =>
           let rows := html_rows [] lines in
           if distinct_labels (map hr_label rows) then Ok (Page rows) else Err ValueError
       end).
