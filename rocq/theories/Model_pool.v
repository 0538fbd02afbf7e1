(** Model of flipsets created with a ready-made builder (flipset.py:46: kwargs.get('builder'); 173-177: populate uses it
    as it is).  The builder is stored by reference: the user and all flipsets given it call the same object, so what one
    of them does to it the others see. *)
From Verif Require Export Model_flipset Spec_recourse Spec_flipset.
#[local] Open Scope list_scope.
#[local] Open Scope Qc_scope.

(** One builder and the flipsets created with it, in order of creation. *)
Record pool := { po_b : builder; po_f : list flipset }.
(** All of them refer to the builder as it is now. *)
Definition lend (b : builder) (l : list flipset) : pool := {| po_b := b; po_f := map (fun f => f_with_builder f (Some b)) l |}.
(** The builder behind a flipset after a call on it. *)
Definition behind (b : builder) (f : flipset) : builder := match f_builder f with Some b' => b' | None => b end.
Inductive pool_op :=
| PBuilder (o : builder_op)                                             (* the user calls the builder itself *)
| PNew (k : backend) (A : action_set) (x : list Qc) (a : cargs)         (* Flipset(x, A, builder = b, ...) *)
| PUse (i : nat) (o : flipset_op).                                      (* a call on the i-th flipset *)
Definition pool_step (E : env) (sv : solver) (srt : sorter) (s : pool) (o : pool_op) : pool :=
  match o with
  | PBuilder op => lend (builder_step E sv (po_b s) op) (po_f s)
  | PNew k A x a => lend (po_b s) (match mk_flipset k A x a (Some (po_b s)) with Ok f => po_f s ++ [f] | Err _ => po_f s end)
  | PUse i op =>
      match nth_error (po_f s) i with
      | Some f => let f' := flipset_step E sv srt f op in lend (behind (po_b s) f') (list_set i f' (po_f s))
      | None => s
      end
  end.
Definition pool_run E sv srt s ops := fold_left (pool_step E sv srt) ops s.
